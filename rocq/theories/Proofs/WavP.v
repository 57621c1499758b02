(** Proofs about the wav reader (C47-C49). *)
From Coq Require Import ZArith List Bool Ascii String Lia Arith ZifyBool ZifyNat ZifyN.
From Verif Require Import Base.Res Base.Num Base.Lists Base.Mat Model.Amatrix Model.MiscMath
  Model.FilterBank Model.MiscAudio Model.Wav Spec.WavSpec.
Import ListNotations.
Open Scope Z_scope.
Ltac Zify.zify_post_hook ::= Z.div_mod_to_equations.

Lemma byte_val_range a : 0 <= byte_val a < 256.
Proof. unfold byte_val. pose proof (N_ascii_bounded a). lia. Qed.
Lemma byte_val_byte_of v : byte_val (byte_of v) = v mod 256.
Proof.
  unfold byte_val, byte_of. rewrite N_ascii_embedding.
  - rewrite Z2N.id; [reflexivity|]. apply Z.mod_pos_bound. lia.
  - pose proof (Z.mod_pos_bound v 256 ltac:(lia)). lia.
Qed.
Lemma le_length n : forall v, List.length (le n v) = n.
Proof. induction n as [|n IH]; intros v; [reflexivity|]. cbn [le List.length]. now rewrite IH. Qed.
Lemma le_val_le n : forall v, le_val (le n v) = v mod 256 ^ Z.of_nat n.
Proof.
  induction n as [|n IH]; intros v.
  - cbn. now rewrite Z.mod_1_r.
  - cbn [le le_val]. rewrite IH, byte_val_byte_of.
    replace (256 ^ Z.of_nat (S n)) with (256 * 256 ^ Z.of_nat n)
      by (rewrite Nat2Z.inj_succ, Z.pow_succ_r by lia; reflexivity).
    rewrite Z.rem_mul_r by lia. reflexivity.
Qed.
Lemma le_val_range b : 0 <= le_val b < 256 ^ Z.of_nat (List.length b).
Proof.
  induction b as [|x b IH]; [cbn; lia|]. cbn [le_val List.length].
  rewrite Nat2Z.inj_succ, Z.pow_succ_r by lia. pose proof (byte_val_range x). lia.
Qed.
Lemma int16_val_le z : -32768 <= z < 32768 -> int16_val (le 2 z) = z.
Proof.
  intros H. unfold int16_val. rewrite le_val_le. change (256 ^ Z.of_nat 2) with 65536.
  change (2 ^ 15) with 32768. change (2 ^ 16) with 65536.
  destruct (z mod 65536 <? 32768) eqn:E; lia.
Qed.
Lemma str_length s : List.length (str s) = String.length s.
Proof. unfold str. induction s as [|a s IH]; [reflexivity|]. cbn. now rewrite IH. Qed.
Lemma bytes_eqb_spec a : forall b, bytes_eqb a b = true <-> a = b.
Proof.
  induction a as [|x a IH]; intros [|y b]; cbn [bytes_eqb]; split; intros H; try discriminate; try reflexivity.
  - apply andb_true_iff in H. destruct H as [H1 H2]. apply Ascii.eqb_eq in H1. apply IH in H2. now subst.
  - injection H as -> ->. rewrite Ascii.eqb_refl. now apply IH.
Qed.
Lemma str_inj s t : str s = str t -> s = t.
Proof.
  unfold str. revert t. induction s as [|a s IH]; intros [|b t] H; try discriminate; [reflexivity|].
  injection H as -> H. f_equal. auto.
Qed.

(** a read of a part of a concatenation *)
Lemma read_mid (pre mid post : bytes) : 
  read_exact (pre ++ mid ++ post) (List.length pre) (Z.of_nat (List.length mid)) =
  Some (mid, (List.length pre + List.length mid)%nat).
Proof.
  unfold read_exact, field. rewrite !app_length.
  replace (_ <=? _) with true by lia. rewrite Nat2Z.id. f_equal. f_equal.
  rewrite skipn_app, skipn_all, Nat.sub_diag. cbn [app skipn].
  rewrite firstn_app, Nat.sub_diag, firstn_all, firstn_O. apply app_nil_r.
Qed.

Lemma chunk_length t p : String.length t = 4%nat -> List.length (chunk t p) = (8 + List.length p)%nat.
Proof. intros H. unfold chunk. rewrite !app_length, le_length, str_length, H. reflexivity. Qed.

Lemma field_app_exact (a b : bytes) n : List.length a = n -> field (a ++ b) 0 n = a.
Proof. intros <-. unfold field. cbn [skipn]. rewrite firstn_app, Nat.sub_diag, firstn_all, firstn_O. apply app_nil_r. Qed.
Lemma field_skip (a b : bytes) n m : List.length a = n -> List.length b = m -> field (a ++ b) n m = b.
Proof.
  intros <- <-. unfold field. rewrite skipn_app, skipn_all, Nat.sub_diag. cbn [app skipn]. apply firstn_all.
Qed.

Lemma find_data_chunks (extra : list (string * list ascii)) : forall fuel pre payload rest,
  Forall other_chunk extra -> Z.of_nat (List.length payload) < 2 ^ 32 -> (List.length extra < fuel)%nat ->
  let mid := flat_map (fun c => chunk (fst c) (snd c)) extra in
  find_data fuel (pre ++ mid ++ chunk "data" payload ++ rest) (List.length pre) =
  (true, Some (Z.of_nat (List.length payload), (List.length pre + List.length mid + 8)%nat)).
Proof.
  induction extra as [|[t p] extra IH]; intros fuel pre payload rest HF HP Hf mid.
  - destruct fuel as [|fuel]; [cbn in Hf; lia|]. subst mid. cbn [flat_map app find_data].
    unfold chunk at 1. rewrite <- app_assoc.
    replace (str "data" ++ (le 4 (Z.of_nat (List.length payload)) ++ payload) ++ rest)
      with ((str "data" ++ le 4 (Z.of_nat (List.length payload))) ++ payload ++ rest)
      by now rewrite <- !app_assoc.
    set (h := str "data" ++ le 4 _). assert (Lh : List.length h = 8%nat) by reflexivity.
    replace 8 with (Z.of_nat (List.length h)) by (rewrite Lh; reflexivity).
    rewrite read_mid. unfold h at 1. rewrite field_app_exact by reflexivity.
    rewrite (proj2 (bytes_eqb_spec _ _) eq_refl).
    unfold h at 1. rewrite field_skip by (reflexivity || apply le_length).
    rewrite le_val_le, Z.mod_small by (change (256 ^ Z.of_nat 4) with (2 ^ 32); lia).
    rewrite Lh. do 3 f_equal. cbn. lia.
  - inversion HF as [|? ? HC HF' EE]; subst. destruct HC as (C1 & C2 & _ & C4). cbn [fst snd] in *.
    destruct fuel as [|fuel]; [cbn in Hf; lia|]. subst mid. cbn [flat_map find_data fst snd].
    unfold chunk at 1. 
    set (mid' := flat_map _ extra).
    replace (pre ++ ((str t ++ le 4 (Z.of_nat (List.length p)) ++ p) ++ mid') ++ chunk "data" payload ++ rest)
      with (pre ++ (str t ++ le 4 (Z.of_nat (List.length p))) ++ (p ++ mid' ++ chunk "data" payload ++ rest))
      by now rewrite <- !app_assoc.
    set (h := str t ++ le 4 _).
    assert (Lh : List.length h = 8%nat) by (unfold h; rewrite app_length, str_length, le_length, C1; reflexivity).
    assert (EF : field h 0 4 = str t) by (apply field_app_exact; rewrite str_length; exact C1).
    assert (ES : le_val (field h 4 4) = Z.of_nat (List.length p)).
    { unfold h. rewrite field_skip by (rewrite ?str_length; assumption || apply le_length).
      rewrite le_val_le, Z.mod_small by (change (256 ^ Z.of_nat 4) with (2 ^ 32); lia). reflexivity. }
    replace 8 with (Z.of_nat (List.length h)) at 1 by (rewrite Lh; reflexivity).
    rewrite read_mid. rewrite EF, ES.
    assert (EB : bytes_eqb (str t) (tag "data") = false).
    { destruct (bytes_eqb _ _) eqn:E; [|reflexivity]. apply bytes_eqb_spec in E.
      exfalso. apply C2. apply str_inj. exact E. }
    rewrite EB.
    match goal with |- context [?a <? ?b] => replace (a <? b) with false
      ; [|symmetry; apply Z.ltb_ge; rewrite !app_length, ?(chunk_length t p C1), Lh; lia] end.
    rewrite Nat2Z.id, Lh.
    replace (pre ++ (chunk t p ++ mid') ++ chunk "data" payload ++ rest)
      with ((pre ++ h ++ p) ++ mid' ++ chunk "data" payload ++ rest)
      by (unfold h, chunk; now rewrite <- !app_assoc).
    replace (List.length pre + 8 + List.length p)%nat with (List.length (pre ++ h ++ p))
      by (rewrite !app_length, Lh; lia).
    rewrite IH; [|assumption|assumption|cbn [List.length] in Hf; lia]. fold mid'.
    do 3 f_equal. rewrite !app_length, (chunk_length t p C1), Lh. lia.
Qed.

Lemma flat_map_le2_length l : List.length (flat_map (le 2) l) = (2 * List.length l)%nat.
Proof. rewrite (flat_map_length_const _ _ 2); [lia|]. intros; apply le_length. Qed.

Lemma samples_of_flat l : Forall (fun z => -32768 <= z < 32768) l -> forall post,
  samples_of (List.length l) (flat_map (le 2) l ++ post) = l.
Proof.
  induction 1 as [|z l Hz HF IH]; intros post; [reflexivity|].
  cbn [List.length samples_of flat_map].
  change (le 2 z) with [byte_of z; byte_of (z / 256)]. cbn [app firstn skipn].
  change [byte_of z; byte_of (z / 256)] with (le 2 z). rewrite int16_val_le by assumption. now rewrite IH.
Qed.

Definition wav_header (n channels rate : Z) : bytes :=
  str "RIFF" ++ le 4 n ++ str "WAVE" ++ str "fmt " ++ le 4 16 ++ le 2 1 ++ le 2 channels ++ le 4 rate ++
  le 4 (rate * channels * 2) ++ le 2 (channels * 2) ++ le 2 16.
Lemma wav_header_length n c r : List.length (wav_header n c r) = 36%nat.
Proof. reflexivity. Qed.
Lemma wav_file_split c r extra samples rest : exists n,
  wav_file c r extra samples rest =
  wav_header n c r ++ flat_map (fun c => chunk (fst c) (snd c)) extra ++
  chunk "data" (flat_map (le 2) samples) ++ rest.
Proof. eexists. unfold wav_file, wav_bytes, wav_header. rewrite <- !app_assoc. reflexivity. Qed.

Lemma chunks_count extra : Forall other_chunk extra ->
  (List.length extra <= List.length (flat_map (fun c => chunk (fst c) (snd c)) extra))%nat.
Proof.
  induction 1 as [|[t p] l H HF IH]; [cbn; lia|]. cbn [flat_map List.length fst snd].
  rewrite app_length, (chunk_length t p (proj1 H)). lia.
Qed.

Lemma parse_wav_file channels rate extra samples rest :
  1 <= channels < 65536 -> 0 <= rate < 2 ^ 31 -> Forall other_chunk extra ->
  samples <> [] -> 2 * Z.of_nat (List.length samples) < 2 ^ 32 ->
  exists off, parse_header (wav_file channels rate extra samples rest) =
    Some (MkWav channels rate (Z.of_nat (List.length samples)) off) /\
    exists pre, wav_file channels rate extra samples rest = pre ++ flat_map (le 2) samples ++ rest /\
      List.length pre = off.
Proof.
  intros Hc Hr HF Hs Hn. destruct (wav_file_split channels rate extra samples rest) as [n E]. rewrite E. clear E.
  set (tail := flat_map (fun c => chunk (fst c) (snd c)) extra).
  set (payload := flat_map (le 2) samples).
  assert (LP : List.length payload = (2 * List.length samples)%nat) by apply flat_map_le2_length.
  set (H := wav_header n channels rate).
  assert (ER : read_exact (H ++ tail ++ chunk "data" payload ++ rest) 0 36 = Some (H, 36%nat)).
  { exact (read_mid [] H (tail ++ chunk "data" payload ++ rest)). }
  assert (EF : find_data (S (List.length (H ++ tail ++ chunk "data" payload ++ rest)))
                 (H ++ tail ++ chunk "data" payload ++ rest) 36 =
               (true, Some (Z.of_nat (List.length payload), (36 + List.length tail + 8)%nat))).
  { apply (find_data_chunks extra _ H payload rest HF ltac:(lia)).
    rewrite !app_length. pose proof (chunks_count extra HF) as CC. fold tail in CC. lia. }
  exists (36 + List.length tail + 8)%nat. split.
  - unfold parse_header. rewrite ER.
    assert (F1 : le_val (field H 16 4) = 16) by reflexivity.
    assert (F2 : le_val (field H 20 2) = 1) by reflexivity.
    assert (F3 : le_val (field H 22 2) = channels).
    { change (field H 22 2) with (le 2 channels). rewrite le_val_le.
      apply Z.mod_small. change (256 ^ Z.of_nat 2) with 65536. lia. }
    assert (F4 : le_val (field H 24 4) = rate).
    { change (field H 24 4) with (le 4 rate). rewrite le_val_le.
      apply Z.mod_small. change (256 ^ Z.of_nat 4) with (2 ^ 32). lia. }
    assert (F5 : le_val (field H 34 2) = 16) by reflexivity.
    cbv zeta. rewrite F1, F2, F3, F4, F5. cbn [Z.ltb Z.compare Pos.compare Pos.compare_cont].
    unfold skip_extension, skip_fact. cbn [Z.eqb Pos.eqb].
    replace (negb (16 / 8 =? 2)) with false by reflexivity.
    rewrite EF. cbn [snd].
    replace (_ || _) with false.
    + f_equal. f_equal; [|lia].
      unfold int_of. rewrite Z.mod_small by lia. replace (rate <? 2 ^ 31) with true by lia. reflexivity.
    + symmetry. rewrite LP. 
      change (bytes_eqb (field H 0 4) (tag "RIFF")) with true.
      change (bytes_eqb (field H 8 4) (tag "WAVE")) with true.
      change (bytes_eqb (field H 12 4) (tag "fmt ")) with true.
      destruct samples; [contradiction|]. cbn [List.length] in *. lia.
  - exists (H ++ tail ++ str "data" ++ le 4 (Z.of_nat (List.length payload))). split.
    + unfold chunk at 1. rewrite <- !app_assoc. reflexivity.
    + rewrite !app_length, str_length, le_length. unfold H. rewrite wav_header_length. cbn [String.length]. lia.
Qed.

Lemma read_wav_file channels rate total pre samples rest :
  Forall (fun z => -32768 <= z < 32768) samples -> samples <> [] -> total = Z.of_nat (List.length samples) ->
  2 * total < 2 ^ 32 ->
  exists b r', read_samples (pre ++ flat_map (le 2) samples ++ rest)
      (reader_init (MkWav channels rate total (List.length pre))) total = (b, total, r') /\
    b = flat_map (le 2) samples /\ samples_of (List.length samples) b = samples.
Proof.
  intros HF Hne -> Hn. unfold read_samples, reader_init, read_binary. cbn [rd_remaining rd_good rd_pos wv_total wv_offset].
  assert (0 < List.length samples)%nat by (destruct samples; [contradiction|cbn; lia]).
  replace (Z.min _ _ =? 0) with false by lia.
  pose proof (flat_map_le2_length samples) as LP.
  rewrite !app_length, LP.
  replace (Z.to_nat (Z.min _ _)) with (List.length (flat_map (le 2) samples)) by (rewrite LP; lia).
  assert (EFld : field (pre ++ flat_map (le 2) samples ++ rest) (List.length pre)
            (List.length (flat_map (le 2) samples)) = flat_map (le 2) samples).
  { unfold field. rewrite skipn_app, skipn_all, Nat.sub_diag. cbn [app skipn].
    rewrite firstn_app, Nat.sub_diag, firstn_all, firstn_O. apply app_nil_r. }
  rewrite EFld. eexists. eexists. split.
  - f_equal. f_equal. rewrite LP. lia.
  - split; [reflexivity|]. rewrite <- (app_nil_r (flat_map (le 2) samples)). apply samples_of_flat. exact HF.
Qed.

Lemma skipn_skipn {A} n : forall m (l : list A), skipn n (skipn m l) = skipn (m + n) l.
Proof.
  induction m as [|m IH]; intros l; [reflexivity|]. destruct l as [|x l]; [now rewrite skipn_nil|]. apply IH.
Qed.

(** termination and acceptance *)
Lemma find_data_total fuel : forall all pos, (List.length all - pos < fuel)%nat -> fst (find_data fuel all pos) = true.
Proof.
  induction fuel as [|fuel IH]; intros all pos H; [lia|]. cbn [find_data].
  unfold read_exact. destruct (8 <=? _) eqn:E; [|reflexivity].
  destruct (bytes_eqb _ _); [reflexivity|]. cbv zeta. destruct (_ <? _); [reflexivity|].
  apply IH. clear IH. lia.
Qed.
Lemma find_data_ok fuel : forall all pos b size off,
  find_data fuel all pos = (b, Some (size, off)) ->
  (pos + 8 <= off <= List.length all)%nat /\ field all (off - 8) 4 = tag "data" /\
  size = le_val (field all (off - 4) 4).
Proof.
  induction fuel as [|fuel IH]; intros all pos b size off; [discriminate|]. cbn [find_data].
  unfold read_exact. destruct (8 <=? _) eqn:E; [|discriminate].
  change (Z.to_nat 8) with 8%nat.
  set (h := field all pos 8). destruct (bytes_eqb (field h 0 4) (tag "data")) eqn:EB.
  - intros H. injection H as _ <- <-. split; [lia|].
    apply bytes_eqb_spec in EB. split.
    + rewrite <- EB. unfold h, field. cbn [skipn]. rewrite firstn_firstn.
      replace (pos + 8 - 8)%nat with pos by lia. reflexivity.
    + f_equal. unfold h, field. rewrite skipn_firstn_comm, firstn_firstn, skipn_skipn.
      cbn [Nat.sub Nat.min]. do 2 f_equal. lia.
  - cbv zeta. destruct (_ <? _); [discriminate|]. intros H. apply IH in H. destruct H as (H1 & H2).
    split; [lia|exact H2].
Qed.

Lemma field_firstn (all : bytes) n off len : (off + len <= n)%nat -> field (field all 0 n) off len = field all off len.
Proof.
  intros H. unfold field. cbn [skipn]. rewrite skipn_firstn_comm, firstn_firstn. f_equal. lia.
Qed.

Lemma parse_header_ok (all : bytes) w : parse_header all = Some w ->
  field all 0 4 = tag "RIFF" /\ field all 8 4 = tag "WAVE" /\ field all 12 4 = tag "fmt " /\
  (le_val (field all 20 2) = 1 \/ le_val (field all 20 2) = 65534) /\
  16 <= le_val (field all 34 2) <= 23 /\
  wv_channels w = le_val (field all 22 2) /\ 1 <= wv_channels w <= 65535 /\
  wv_rate w = int_of (le_val (field all 24 4)) /\
  1 <= wv_total w /\ (44 <= wv_offset w <= List.length all)%nat /\
  field all (wv_offset w - 8) 4 = tag "data" /\
  le_val (field all (wv_offset w - 4) 4) = 2 * wv_total w.
Proof.
  unfold parse_header. unfold read_exact at 1. destruct (36 <=? _) eqn:E36; [|discriminate].
  change (Z.to_nat 36) with 36%nat. cbv zeta. rewrite !field_firstn by lia.
  destruct (le_val (field all 16 4) <? 16); [discriminate|].
  destruct (skip_extension _ _ _) as [p1|] eqn:E1; [|discriminate].
  destruct (skip_fact _ _ _) as [p2|] eqn:E2; [|discriminate].
  destruct (negb _) eqn:EB; [discriminate|].
  destruct (find_data _ all p2) as [ok [[size off]|]] eqn:EF; cbn [snd]; [|discriminate].
  destruct (_ || _) eqn:EO; [discriminate|]. intros H. injection H as <-. cbn [wv_channels wv_rate wv_total wv_offset].
  rewrite !orb_false_iff, !negb_false_iff in EO.
  destruct EO as ((((((O1 & O2) & O3) & O4) & O5) & O6) & O7).
  apply bytes_eqb_spec in O5, O6, O7. rewrite negb_false_iff in EB.
  apply find_data_ok in EF. destruct EF as (F1 & F2 & F3).
  assert (P1 : (36 <= p1)%nat).
  { revert E1. unfold skip_extension, read_exact. destruct (_ =? 16).
    - intros H. apply (f_equal (fun o => match o with Some x => x | None => 0%nat end)) in H. lia.
    - destruct (2 <=? _); [|discriminate]. destruct (size_of _ <=? _); [|discriminate].
      intros H. apply (f_equal (fun o => match o with Some x => x | None => 0%nat end)) in H. lia. }
  assert (P2 : (p1 <= p2)%nat).
  { revert E2. unfold skip_fact, read_exact. destruct (_ =? 65534).
    - destruct (8 <=? _); [|discriminate]. destruct (bytes_eqb _ _); [|discriminate].
      destruct (le_val _ <=? _); [|discriminate].
      intros H. apply (f_equal (fun o => match o with Some x => x | None => 0%nat end)) in H. lia.
    - intros H. assert (p2 = p1) by congruence. lia. }
  pose proof (le_val_range (field all 22 2)) as RC.
  assert (LC : (List.length (field all 22 2) <= 2)%nat) by (unfold field; rewrite firstn_length; lia).
  assert (256 ^ Z.of_nat (List.length (field all 22 2)) <= 65536).
  { change 65536 with (256 ^ 2). apply Z.pow_le_mono_r; lia. }
  split; [exact O5|]. split; [exact O6|]. split; [exact O7|]. split; [lia|]. split; [lia|]. split; [reflexivity|].
  split; [lia|]. split; [reflexivity|]. split.
  { pose proof (le_val_range (field all (off - 4) 4)). lia. }
  split; [lia|]. split; [exact F2|]. lia.
Qed.

(** sequences of reads *)
Fixpoint reads (all : bytes) (r : reader) (requests : list Z) : bytes * Z :=
  match requests with
  | [] => ([], 0)
  | n :: t =>
      let '(b, got, r') := read_samples all r n in
      let '(bs, total) := reads all r' t in (b ++ bs, got + total)
  end.
Fixpoint zsum (l : list Z) : Z := match l with [] => 0 | x :: t => x + zsum t end.
Lemma zsum_nonneg l : Forall (fun z => 0 <= z) l -> 0 <= zsum l.
Proof. induction 1; cbn; lia. Qed.

Lemma firstn_add {A} (l : list A) n m : firstn n l ++ firstn m (skipn n l) = firstn (n + m) l.
Proof.
  revert l; induction n as [|n IH]; intros l; [reflexivity|]. destruct l as [|x l]; cbn [firstn skipn app plus].
  - now rewrite firstn_nil.
  - now rewrite IH.
Qed.

Lemma reads_prefix all : forall requests r, Forall (fun z => 0 <= z) requests ->
  zsum requests <= rd_remaining r < 2 ^ 63 -> (rd_pos r <= List.length all)%nat ->
  exists k, fst (reads all r requests) = firstn k (skipn (rd_pos r) all) /\
    snd (reads all r requests) <= zsum requests /\ Z.of_nat k <= 2 * zsum requests /\
    (k <= List.length all - rd_pos r)%nat /\
    2 * snd (reads all r requests) <= Z.of_nat k.
Proof.
  induction requests as [|n t IH]; intros r HF Hr Hp.
  - exists 0%nat. cbn. split; [reflexivity|lia].
  - inversion HF as [|? ? Hn HF']; subst. cbn [zsum] in *. pose proof (zsum_nonneg t HF').
    cbn [reads]. unfold read_samples.
    destruct (Z.min (rd_remaining r) n =? 0) eqn:E0.
    + destruct (IH r HF' ltac:(lia) Hp) as (k & K1 & K2 & K3 & K4 & K5).
      destruct (reads all r t) as [bs tot]. cbn [fst snd app] in *. exists k.
      split; [exact K1|]. lia.
    + unfold read_binary. destruct (rd_good r) eqn:EG.
      * set (got := Z.to_nat (Z.min (n * 2) (Z.of_nat (List.length all) - Z.of_nat (rd_pos r)))).
        assert (LB : List.length (field all (rd_pos r) got) = got).
        { unfold field. rewrite firstn_length, skipn_length. unfold got. lia. }
        cbn [rd_pos rd_good rd_remaining]. rewrite LB.
        set (r' := MkReader _ _ _).
        destruct (IH r' HF') as (k & K1 & K2 & K3 & K4 & K5).
        { unfold r'. cbn [rd_remaining]. unfold size_of, two64. rewrite Z.mod_small; unfold got; lia. }
        { unfold r'. cbn [rd_pos]. unfold got. lia. }
        destruct (reads all r' t) as [bs tot]. cbn [fst snd] in *.
        exists (got + k)%nat. split.
        { rewrite K1. unfold r'. cbn [rd_pos]. unfold field. rewrite <- (skipn_skipn got (rd_pos r)).
          apply firstn_add. }
        unfold r' in K4. cbn [rd_pos] in K4. unfold got in *. lia.
      * cbn [List.length]. change (Z.of_nat 0 / 2) with 0.
        set (r' := MkReader _ _ _).
        destruct (IH r' HF') as (k & K1 & K2 & K3 & K4 & K5).
        { unfold r'. cbn [rd_remaining]. unfold size_of, two64. rewrite Z.mod_small; lia. }
        { exact Hp. }
        destruct (reads all r' t) as [bs tot]. cbn [fst snd app] in *.
        exists k. split; [exact K1|]. unfold r' in K4. cbn [rd_pos] in K4. lia.
Qed.

Lemma decode_wav_file channels rate extra samples rest :
  1 <= channels < 65536 -> 0 <= rate < 2 ^ 31 -> Forall other_chunk extra ->
  samples <> [] -> 2 * Z.of_nat (List.length samples) < 2 ^ 32 ->
  Forall (fun z => -32768 <= z < 32768) samples ->
  let file := wav_file channels rate extra samples rest in
  exists w b r', parse_header file = Some w /\
    wv_channels w = channels /\ wv_rate w = rate /\ wv_total w = Z.of_nat (List.length samples) /\
    read_samples file (reader_init w) (wv_total w) = (b, wv_total w, r') /\
    samples_of (List.length samples) b = samples.
Proof.
  intros Hc Hr He Hs Hn Hf file.
  destruct (parse_wav_file channels rate extra samples rest Hc Hr He Hs Hn) as (off & Hp & pre & Hd & Hl).
  destruct (read_wav_file channels rate (Z.of_nat (List.length samples)) pre samples rest Hf Hs eq_refl Hn)
    as (b & r' & Hb & E & Es).
  exists (MkWav channels rate (Z.of_nat (List.length samples)) off), b, r'.
  split; [exact Hp|]. do 3 (split; [reflexivity|]). cbn [wv_total]. split; [|exact Es].
  unfold file. rewrite Hd, <- Hl. exact Hb.
Qed.
