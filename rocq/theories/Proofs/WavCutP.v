(** Files that end early or go on after the data (C70). *)
From Coq Require Import ZArith List Bool Ascii String Lia ZifyBool ZifyNat.
From Verif Require Import Base.Res Base.Num Base.Lists Base.Mat Model.Amatrix Model.MiscMath Model.FilterBank Model.MiscAudio Model.Wav
  Spec.WavSpec Proofs.WavP.
Import ListNotations.
Open Scope Z_scope.

Lemma field_app_left (a x : bytes) off len : (off + len <= List.length a)%nat -> field (a ++ x) off len = field a off len.
Proof.
  intros H. unfold field. rewrite skipn_app, firstn_app. rewrite skipn_length.
  replace (len - (List.length a - off))%nat with 0%nat by lia. rewrite firstn_O, app_nil_r. reflexivity.
Qed.
Lemma read_exact_app a x pos n b p : read_exact a pos n = Some (b, p) -> read_exact (a ++ x) pos n = Some (b, p).
Proof.
  unfold read_exact. destruct (n <=? _) eqn:E; [|discriminate]. intros H. injection H as <- <-.
  rewrite app_length. replace (n <=? _) with true by lia. f_equal. f_equal.
  destruct (Z.le_gt_cases n 0) as [Q|Q]; [replace (Z.to_nat n) with 0%nat by lia; unfold field; now rewrite !firstn_O|].
  apply field_app_left. lia.
Qed.
Lemma find_data_app x : forall fuel fuel' a pos r, (fuel <= fuel')%nat -> find_data fuel a pos = (true, Some r) ->
  find_data fuel' (a ++ x) pos = (true, Some r).
Proof.
  induction fuel as [|fuel IH]; intros fuel' a pos r HL H; [discriminate|]. destruct fuel' as [|fuel']; [lia|].
  cbn [find_data] in *. destruct (read_exact a pos 8) as [[h p]|] eqn:E; [|discriminate]. rewrite (read_exact_app a x _ _ _ _ E).
  destruct (bytes_eqb _ _); [exact H|]. destruct (_ <? _) eqn:E2; [discriminate|].
  replace (_ <? _) with false by (symmetry; rewrite app_length; lia). apply IH; [lia|exact H].
Qed.
Lemma parse_header_app a x w : parse_header a = Some w -> parse_header (a ++ x) = Some w.
Proof.
  unfold parse_header. destruct (read_exact a 0 36) as [[h p]|] eqn:E; [|discriminate]. rewrite (read_exact_app a x _ _ _ _ E).
  cbv zeta. destruct (_ <? 16); [discriminate|].
  destruct (skip_extension a p _) as [p1|] eqn:E1; [|discriminate].
  assert (E1' : skip_extension (a ++ x) p (le_val (field h 16 4)) = Some p1).
  { unfold skip_extension in *. destruct (_ =? 16); [exact E1|]. destruct (read_exact a p 2) as [[e q]|] eqn:Q; [|discriminate].
    rewrite (read_exact_app a x _ _ _ _ Q). destruct (read_exact a q _) as [[e2 q2]|] eqn:Q2; [|discriminate].
    rewrite (read_exact_app a x _ _ _ _ Q2). exact E1. }
  rewrite E1'. destruct (skip_fact a p1 _) as [p2|] eqn:E2; [|discriminate].
  assert (E2' : skip_fact (a ++ x) p1 (le_val (field h 20 2)) = Some p2).
  { unfold skip_fact in *. destruct (_ =? 65534); [|exact E2]. destruct (read_exact a p1 8) as [[e q]|] eqn:Q; [|discriminate].
    rewrite (read_exact_app a x _ _ _ _ Q). destruct (bytes_eqb _ _); [|discriminate]. destruct (read_exact a q _) as [[e2 q2]|] eqn:Q2; [|discriminate].
    rewrite (read_exact_app a x _ _ _ _ Q2). exact E2. }
  rewrite E2'. destruct (negb (_ =? 2)); [discriminate|].
  destruct (find_data (S (List.length a)) a p2) as [b r] eqn:EF. cbn [snd]. destruct r as [r|]; [|discriminate].
  assert (b = true) as ->. { pose proof (find_data_total (S (List.length a)) a p2 ltac:(lia)) as Q. rewrite EF in Q. exact Q. }
  rewrite (find_data_app x (S (List.length a)) (S (List.length (a ++ x))) a p2 r ltac:(rewrite app_length; lia) EF). cbn [snd]. auto.
Qed.

(** the other direction: cutting after the header *)
Lemma read_exact_cut a n pos k b p : 0 <= k -> read_exact a pos k = Some (b, p) -> (p <= n)%nat -> read_exact (firstn n a) pos k = Some (b, p).
Proof.
  intros K. unfold read_exact. destruct (k <=? _) eqn:E; [|discriminate]. intros H HN. injection H as <- <-.
  rewrite firstn_length. replace (k <=? _) with true by lia. f_equal. f_equal.
  unfold field. rewrite skipn_firstn_comm, firstn_firstn. replace (Nat.min _ _) with (Z.to_nat k) by lia. reflexivity.
Qed.
Lemma le_val_nonneg b : 0 <= le_val b.
Proof. apply le_val_range. Qed.
Lemma find_data_pos : forall fuel a pos s off, find_data fuel a pos = (true, Some (s, off)) -> (pos + 8 <= off <= List.length a)%nat.
Proof.
  induction fuel as [|fuel IH]; intros a pos s off H; [discriminate|]. cbn [find_data] in H.
  destruct (read_exact a pos 8) as [[h p]|] eqn:E; [|discriminate]. unfold read_exact in E. destruct (8 <=? _) eqn:E8; [|discriminate].
  injection E as _ <-. change (Z.to_nat 8) with 8%nat in *. destruct (bytes_eqb _ _).
  - injection H as _ <-. lia.
  - destruct (_ <? _); [discriminate|]. apply IH in H. lia.
Qed.
Lemma find_data_cut n : forall fuel fuel' a pos s off, (List.length (firstn n a) - pos < fuel')%nat -> find_data fuel a pos = (true, Some (s, off)) -> (off <= n)%nat ->
  find_data fuel' (firstn n a) pos = (true, Some (s, off)).
Proof.
  induction fuel as [|fuel IH]; intros fuel' a pos s off HL H HN; [discriminate|].
  destruct fuel' as [|fuel']; [lia|]. pose proof (find_data_pos _ _ _ _ _ H) as HP.
  cbn [find_data] in *. destruct (read_exact a pos 8) as [[h p]|] eqn:E; [|discriminate].
  assert (p = (pos + 8)%nat) as ->. { unfold read_exact in E. destruct (8 <=? _); [|discriminate]. injection E as _ <-. reflexivity. }
  rewrite (read_exact_cut a n pos 8 h (pos + 8) ltac:(lia) E ltac:(lia)).
  destruct (bytes_eqb _ _); [exact H|]. destruct (_ <? _) eqn:E2; [discriminate|].
  pose proof (find_data_pos _ _ _ _ _ H) as HP2. pose proof (le_val_nonneg (field h 4 4)).
  rewrite firstn_length in *. replace (_ <? _) with false by (symmetry; lia). apply IH; [rewrite firstn_length; lia|exact H|exact HN].
Qed.
Lemma parse_header_cut a n w : parse_header a = Some w -> (wv_offset w <= n)%nat -> parse_header (firstn n a) = Some w.
Proof.
  unfold parse_header. destruct (read_exact a 0 36) as [[h p]|] eqn:E; [|discriminate]. cbv zeta. destruct (_ <? 16) eqn:E16; [discriminate|].
  destruct (skip_extension a p _) as [p1|] eqn:E1; [|discriminate].
  destruct (skip_fact a p1 _) as [p2|] eqn:E2; [|discriminate].
  destruct (negb (_ =? 2)) eqn:EB; [discriminate|].
  destruct (find_data (S (List.length a)) a p2) as [b r] eqn:EF. cbn [snd]. destruct r as [[s off]|]; [|discriminate].
  assert (b = true) as ->. { pose proof (find_data_total (S (List.length a)) a p2 ltac:(lia)) as Q. rewrite EF in Q. exact Q. }
  intros H HN. assert (HO : wv_offset w = off) by (destruct (_ || _) in H; [discriminate|injection H as <-; reflexivity]).
  pose proof (find_data_pos _ _ _ _ _ EF) as HP.
  assert (P2 : (p1 <= p2)%nat).
  { unfold skip_fact in E2. destruct (_ =? 65534); [|injection E2 as <-; lia]. destruct (read_exact a p1 8) as [[e q]|] eqn:Q; [|discriminate].
    destruct (bytes_eqb _ _); [|discriminate]. destruct (read_exact a q _) as [[e2 q2]|] eqn:Q2; [|discriminate]. injection E2 as <-.
    unfold read_exact in Q, Q2. destruct (8 <=? _); [|discriminate]. injection Q as _ <-. destruct (_ <=? _); [|discriminate]. injection Q2 as _ <-. lia. }
  assert (P1 : (p <= p1)%nat).
  { unfold skip_extension in E1. destruct (_ =? 16); [injection E1 as <-; lia|]. destruct (read_exact a p 2) as [[e q]|] eqn:Q; [|discriminate].
    destruct (read_exact a q _) as [[e2 q2]|] eqn:Q2; [|discriminate]. injection E1 as <-.
    unfold read_exact in Q, Q2. destruct (2 <=? _); [|discriminate]. injection Q as _ <-. destruct (_ <=? _); [|discriminate]. injection Q2 as _ <-. lia. }
  rewrite (read_exact_cut a n 0 36 h p ltac:(lia) E ltac:(lia)), E16.
  assert (E1' : skip_extension (firstn n a) p (le_val (field h 16 4)) = Some p1).
  { unfold skip_extension in *. destruct (_ =? 16); [exact E1|]. destruct (read_exact a p 2) as [[e q]|] eqn:Q; [|discriminate].
    destruct (read_exact a q _) as [[e2 q2]|] eqn:Q2; [|discriminate]. assert (q2 = p1) by congruence. subst q2.
    assert (q <= p1)%nat by (unfold read_exact in Q2; destruct (_ <=? _) in Q2; [injection Q2 as _ <-; lia|discriminate]).
    rewrite (read_exact_cut a n p 2 e q ltac:(lia) Q ltac:(lia)). rewrite (read_exact_cut a n q (size_of (int16_val e)) e2 p1 ltac:(unfold size_of, two64; apply Z.mod_pos_bound; lia) Q2 ltac:(lia)).
    reflexivity. }
  rewrite E1'.
  assert (E2' : skip_fact (firstn n a) p1 (le_val (field h 20 2)) = Some p2).
  { unfold skip_fact in *. destruct (_ =? 65534); [|exact E2]. destruct (read_exact a p1 8) as [[e q]|] eqn:Q; [|discriminate].
    destruct (bytes_eqb _ _) eqn:EQ; [|discriminate]. destruct (read_exact a q _) as [[e2 q2]|] eqn:Q2; [|discriminate].
    assert (q2 = p2) by congruence. subst q2.
    assert (q <= p2)%nat by (unfold read_exact in Q2; destruct (_ <=? _) in Q2; [injection Q2 as _ <-; lia|discriminate]).
    rewrite (read_exact_cut a n p1 8 e q ltac:(lia) Q ltac:(lia)), EQ. rewrite (read_exact_cut a n q _ e2 p2 (le_val_nonneg _) Q2 ltac:(lia)). reflexivity. }
  rewrite E2', EB. rewrite (find_data_cut n (S (List.length a)) (S (List.length (firstn n a))) a p2 s off ltac:(lia) EF ltac:(lia)). exact H.
Qed.

Section Load.
  Context {T : Type} {N : Num T}.

  (** what is read and the buffer it is put in *)
  Lemma read_at_start all w : parse_header all = Some w ->
    let b := firstn (2 * Z.to_nat (wv_total w)) (skipn (wv_offset w) all) in
    exists r, read_samples all (reader_init w) (wv_total w) = (b, Z.of_nat (List.length b) / 2, r).
  Proof.
    intros E b. destruct (parse_header_ok all w E) as (_ & _ & _ & _ & _ & _ & _ & _ & HT & HO & _).
    unfold read_samples, reader_init, read_binary. cbn [rd_remaining rd_good rd_pos].
    replace (_ =? 0) with false by lia. eexists. f_equal. f_equal.
    - unfold field, b. rewrite <- (firstn_all (skipn (wv_offset w) all)) at 2. rewrite firstn_firstn. f_equal. rewrite skipn_length. lia.
    - f_equal. f_equal. unfold field, b. rewrite !firstn_length, skipn_length. lia.
  Qed.
  Definition buffer_of (w : wav_info) (all : bytes) : bytes :=
    let b := firstn (2 * Z.to_nat (wv_total w)) (skipn (wv_offset w) all) in b ++ repeat zero (2 * Z.to_nat (wv_total w) - List.length b).
  Lemma load_buffer all all2 w : parse_header all = Some w -> parse_header all2 = Some w ->
    (wv_offset w + 2 <= List.length all)%nat -> (wv_offset w + 2 <= List.length all2)%nat -> buffer_of w all = buffer_of w all2 ->
    load_as_mono (T:=T) all = load_as_mono all2.
  Proof.
    intros E1 E2 L1 L2 EB. destruct (parse_header_ok all w E1) as (_ & _ & _ & _ & _ & _ & _ & _ & HT & _).
    unfold load_as_mono. rewrite E1, E2.
    destruct (read_at_start all w E1) as [r1 ->]. destruct (read_at_start all2 w E2) as [r2 ->].
    replace (0 <? _) with true by (symmetry; apply Z.ltb_lt; apply Z.div_str_pos; rewrite firstn_length, skipn_length; lia).
    replace (0 <? _) with true by (symmetry; apply Z.ltb_lt; apply Z.div_str_pos; rewrite firstn_length, skipn_length; lia).
    cbv zeta. unfold buffer_of in EB. cbv zeta in EB. rewrite EB. reflexivity.
  Qed.

  Lemma firstn_repeat {A} (x : A) : forall k n, firstn k (repeat x n) = repeat x (Nat.min k n).
  Proof. induction k as [|k IH]; intros [|n]; cbn; [reflexivity..|]. now rewrite IH. Qed.
  Lemma load_zero_fill all w k : parse_header all = Some w -> (wv_offset w + 2 <= List.length all)%nat ->
    load_as_mono (T:=T) all = load_as_mono (all ++ repeat zero k).
  Proof.
    intros E HL. apply (load_buffer _ _ w E (parse_header_app _ _ _ E) HL); [rewrite app_length; lia|].
    unfold buffer_of. cbv zeta. rewrite skipn_app. replace (wv_offset w - List.length all)%nat with 0%nat by lia. cbn [skipn].
    set (d := skipn (wv_offset w) all). set (n := (2 * Z.to_nat (wv_total w))%nat).
    rewrite firstn_app, firstn_repeat, <- app_assoc, <- repeat_app. f_equal. f_equal. rewrite app_length, repeat_length, firstn_length. lia.
  Qed.
  Lemma load_rest_ignored all w x : parse_header all = Some w -> (wv_offset w + 2 * Z.to_nat (wv_total w) <= List.length all)%nat ->
    load_as_mono (T:=T) (all ++ x) = load_as_mono all.
  Proof.
    intros E HL. destruct (parse_header_ok all w E) as (_ & _ & _ & _ & _ & _ & _ & _ & HT & _).
    apply (load_buffer _ _ w (parse_header_app _ _ _ E) E); [rewrite app_length; lia|lia|].
    unfold buffer_of. cbv zeta. rewrite skipn_app, firstn_app, skipn_length.
    replace (2 * Z.to_nat (wv_total w) - (List.length all - wv_offset w))%nat with 0%nat by lia. now rewrite firstn_O, app_nil_r.
  Qed.
  Lemma load_no_sample all w : parse_header all = Some w -> (List.length all < wv_offset w + 2)%nat -> load_as_mono (T:=T) all = Ret not_loaded.
  Proof.
    intros E HL. destruct (parse_header_ok all w E) as (_ & _ & _ & _ & _ & _ & _ & _ & HT & _).
    unfold load_as_mono. rewrite E. destruct (read_at_start all w E) as [r ->].
    replace (0 <? _) with false; [reflexivity|]. symmetry. apply Z.ltb_ge. rewrite firstn_length, skipn_length.
    replace (Z.of_nat _) with (Z.of_nat (Nat.min (2 * Z.to_nat (wv_total w)) (List.length all - wv_offset w))) by reflexivity.
    rewrite Z.div_small by lia. lia.
  Qed.
  (** an accepted file cut at any place after its first sample *)
  Lemma load_cut all w n : parse_header all = Some w -> (wv_offset w + 2 <= n)%nat -> (wv_offset w + 2 <= List.length all)%nat ->
    load_as_mono (T:=T) (firstn n all) = load_as_mono (firstn n all ++ repeat zero (List.length all - n)).
  Proof.
    intros E H1 H2. apply (load_zero_fill _ w); [apply parse_header_cut; [exact E|lia]|rewrite firstn_length; lia].
  Qed.
End Load.
