(** A search radius that reaches over both spectrograms: its value has no influence, in any number type. *)
From Coq Require Import ZArith List Bool Lia.
From Coq Require Import ZifyBool ZifyNat.
From Verif Require Import Base.Res Base.Num Base.Lists Base.Mat Model.Amatrix Model.MiscMath Model.Window
  Model.FilterBank Model.Spectrogram Model.Nsim Model.Fft Model.Alignment Model.MiscAudio Model.PatchCreator Model.Selector Model.Visqol Model.Manager
  Spec.MatchSpec Spec.WiderSpec Proofs.SelectorP Proofs.PatchCreatorP Proofs.ShapeP Proofs.BankP Proofs.MatchP.
Import ListNotations.
Open Scope Z_scope.
Ltac Zify.zify_post_hook ::= Z.div_mod_to_equations.

Lemma last_or {A} (l : list A) d : In (List.last l d) l \/ List.last l d = d.
Proof.
  destruct l as [|a l]; [now right|left]. rewrite (app_removelast_last d (l := a :: l)) at 2 by discriminate. apply in_or_app. right. now left.
Qed.

Section Cover.
  Context {T : Type} {N : Num T}.

  Lemma slides_cover i sw nc : 0 <= i -> i <= sw -> i + sw < 2 ^ 31 -> 0 <= nc <= sw -> row_slides i sw nc = Ret (offsets 0 (nc - 1)).
  Proof.
    intros H0 H1 H2 H3. unfold row_slides. rewrite int_of_id by lia. unfold fits_int.
    replace (_ && _) with true by lia. rewrite slide_loop_closed by lia. f_equal. f_equal; lia.
  Qed.
  Lemma lower_cover i sw : 0 <= i -> i <= sw -> i + sw < 2 ^ 31 -> Z.max (int_of (size_of (i - sw))) 0 = 0.
  Proof.
    intros H0 H1 H2. assert (E : int_of (size_of (i - sw)) = i - sw).
    { unfold int_of, size_of, two64. cbv zeta. destruct (_ <? _) eqn:E; lia. } lia.
  Qed.

  Variable measure : mat T -> mat T -> res (psr T).

  Lemma rows_cover degs nc sw sw' : forall items prev,
    (forall x, In x items -> 0 <= snd x /\ snd x <= sw /\ snd x + sw < 2 ^ 31 /\ snd x <= sw' /\ snd x + sw' < 2 ^ 31) ->
    Z.of_nat nc <= sw -> Z.of_nat nc <= sw' -> dp_rows measure degs nc sw prev items = dp_rows measure degs nc sw' prev items.
  Proof.
    induction items as [|[ref i] t IH]; intros prev H C C'; [reflexivity|]. cbn [dp_rows].
    destruct (H (ref, i) (or_introl eq_refl)) as (H0 & H1 & H2 & H3 & H4). cbn [snd] in *.
    rewrite !slides_cover by lia. cbn [bind]. destruct (dp_row _ _ _ _ _ _ _) as [[row bt]| | |]; [|cbn [bind]; reflexivity ..]. cbn [bind].
    unfold lower_limit. rewrite !lower_cover by lia. rewrite IH; [reflexivity| |assumption ..]. intros x Hx. apply H. now right.
  Qed.

  Lemma scan_cover (row : list T) i sw sw' : 0 <= i -> i <= sw -> i + sw < 2 ^ 31 -> i <= sw' -> i + sw' < 2 ^ 31 ->
    Z.of_nat (length row) <= sw -> Z.of_nat (length row) <= sw' -> final_scan row i sw = final_scan row i sw'.
  Proof.
    intros. unfold final_scan. rewrite !(Z.max_comm 0). rewrite !lower_cover by lia. rewrite (size_of_id sw), (size_of_id sw') by lia.
    rewrite !size_of_id by lia. rewrite !slide_loop_closed by lia.
    replace (Z.min (i + sw) _) with (Z.of_nat (length row) - 1) by lia. replace (Z.min (i + sw') _) with (Z.of_nat (length row) - 1) by lia. reflexivity.
  Qed.

  Lemma find_cover refs idx (B : mat T) p fd r r' L : (1 <= p)%nat -> (forall ref, In ref refs -> ncols ref = p) ->
    (forall i, In i idx -> 0 <= i < L) -> reaches r p L -> reaches r' p L -> reaches r p (Z.of_nat (ncols B)) -> reaches r' p (Z.of_nat (ncols B)) ->
    find_most_optimal_deg_patches measure refs idx B fd r = find_most_optimal_deg_patches measure refs idx B fd r'.
  Proof.
    intros Hp HR HI [C1 C2] [C3 C4] [C5 C6] [C7 C8]. unfold find_most_optimal_deg_patches. destruct refs as [|ref0 refs]; [reflexivity|].
    assert (E0 : ncols ref0 = p) by (apply HR; now left). rewrite E0. set (refs' := ref0 :: refs) in *.
    destruct idx as [|i0 idx'] eqn:EI; [cbn [calc_max_num_patches bind Nat.eqb]; reflexivity|]. rewrite <- EI in *. assert (HL : 0 < L) by (destruct (HI i0); [rewrite EI; now left|lia]). clear EI.
    assert (ESW : forall x, L <= x * Z.of_nat p -> x * Z.of_nat p <= 2 ^ 31 - 1 -> int_of (size_of (size_of x * Z.of_nat p)) = x * Z.of_nat p).
    { intros x A1 A2. assert (0 <= x <= x * Z.of_nat p) by nia. rewrite (size_of_id x) by lia. rewrite size_of_id by lia. apply int_of_id. lia. }
    rewrite (ESW r), (ESW r') by lia. set (sw := r * Z.of_nat p) in *. set (sw' := r' * Z.of_nat p) in *.
    destruct (calc_max_num_patches _ _ _) as [n| | |]; [|cbn [bind]; reflexivity ..]. cbn [bind]. destruct (Nat.eqb_spec n 0) as [->|Hn]; [reflexivity|].
    destruct (sequence _) as [degs| | |]; [|cbn [bind]; reflexivity ..]. cbn [bind]. destruct (Nat.ltb _ _); [reflexivity|].
    set (items := combine (firstn n refs') (firstn n idx)).
    assert (HX : forall i, In i (firstn n idx) -> 0 <= i /\ i <= sw /\ i + sw < 2 ^ 31 /\ i <= sw' /\ i + sw' < 2 ^ 31).
    { intros i Hi. assert (In i idx) by (rewrite <- (firstn_skipn n idx); apply in_or_app; now left). specialize (HI i ltac:(assumption)). lia. }
    rewrite (rows_cover degs (ncols B) sw sw' items None); [|intros [a b] Hx; apply in_combine_r in Hx; exact (HX b Hx)|assumption ..].
    destruct (dp_rows _ _ _ _ _ _) as [rows| | |] eqn:ER; [|cbn [bind]; reflexivity ..]. cbn [bind].
    assert (LB : Z.of_nat (length (fst (List.last rows ([], [])))) <= Z.of_nat (ncols B)).
    { destruct (last_or rows ([], [])) as [E|E]; [|rewrite E; cbn [fst length]; lia]. destruct (In_nth _ _ ([], []) E) as (j & Hj & EJ).
      destruct (dp_rows_inv measure degs (ncols B) sw' (MkMat 0 0 [], 0) items None rows ER) as (LR & sl & HS). specialize (HS j ltac:(lia)). rewrite EJ in HS.
      destruct (nth j items _) as [a b]. destruct (List.last rows ([], [])) as [row bt]. destruct HS as (_ & LR' & _). cbn [fst]. lia. }
    assert (LX : let i := List.last (firstn n idx) 0 in 0 <= i /\ i <= sw /\ i + sw < 2 ^ 31 /\ i <= sw' /\ i + sw' < 2 ^ 31).
    { cbv zeta. destruct (last_or (firstn n idx) 0) as [E|E]; [exact (HX _ E)|rewrite E; lia]. }
    cbv zeta in LX. rewrite (scan_cover _ _ sw sw') by lia. reflexivity.
  Qed.
End Cover.

(** *** a whole comparison *)
Section Run.
  Context {T : Type} {N : Num T} {L : Libm T}.

  Lemma blocks_bound p vad : forall is first idx, select_blocks p vad first is = Ret idx ->
    forall i, In i idx -> first <= i /\ i + Z.of_nat p <= first + Z.of_nat (length is) * Z.of_nat p.
  Proof.
    induction is as [|k t IH]; intros first idx H i Hi; cbn [select_blocks] in H; [injection H as <-; destruct Hi|].
    apply bind_ret in H. destruct H as (b & _ & H). apply bind_ret in H. destruct H as (rest & E & H). injection H as <-. cbn [length].
    assert (Q : i = first \/ In i rest) by (destruct b; [destruct Hi; auto|auto]). destruct Q as [->|Q]; [nia|]. destruct (IH _ _ E i Q). nia.
  Qed.

  Lemma indices_bound speech n (ref : audio T) w idx : Z.of_nat n < 2 ^ 31 -> Z.of_nat (patch_size speech) <= Z.of_nat n ->
    ref_patch_indices speech n ref w = Ret idx -> forall i, In i idx -> 0 <= i < Z.of_nat n.
  Proof.
    intros H0 H1 H i Hi. unfold ref_patch_indices in H. destruct speech; cbn [patch_size] in *.
    - unfold vad_create_ref_patch_indices in H. apply bind_ret in H. destruct H as (norm & _ & H).
      destruct (ntrunc _) as [a|]; [|discriminate]. destruct (ntrunc _) as [b|]; [|discriminate]. cbv zeta in H.
      apply bind_ret in H. destruct H as (u & _ & H). apply bind_ret in H. destruct H as (vad & _ & H).
      rewrite (size_of_id (Z.of_nat 20 / 2 - 1)) in H by (cbn; lia). change (Z.of_nat 20 / 2 - 1) with 9 in H. change (Z.of_nat 20) with 20 in *. rewrite size_of_id in H by lia.
      destruct (blocks_bound _ _ _ _ _ H i Hi) as [J1 J2]. rewrite seq_length in J2. lia.
    - destruct (Z_lt_ge_dec (Z.of_nat n) (Z.of_nat 30 + Z.of_nat 30 / 2)) as [Hs|Hs]; [rewrite create_ref_patch_indices_short in H by exact Hs; discriminate|].
      rewrite create_ref_patch_indices_closed in H by (unfold two64; lia). injection H as <-. apply in_map_iff in Hi. destruct Hi as (k & <- & Hk). apply in_seq in Hk.
      pose proof (patch_number_fits (Z.of_nat 30) (Z.of_nat n) k ltac:(discriminate) (Z.ge_le _ _ Hs) (proj2 Hk)) as F. revert F. change (Z.of_nat 30) with 30. intros [F1 F2]. clear - F1 F2. split; [exact F1|]. apply Z.lt_le_trans with (2 := F2). apply Z.lt_add_pos_r. reflexivity.
  Qed.

  Lemma run_cover (w : world T) (m : manager T) r' (ref deg : audio T) win h :
    make_window (au_sr ref) = Ret win -> hop_size win = Some h -> 1 <= h ->
    let p := patch_size (st_speech (mg_settings m)) in let r := st_radius (mg_settings m) in
    let frames (s : audio T) := frame_count (w_size win) h (length (au_data s)) in
    Z.of_nat p <= frames ref ->
    (forall s, s = ref \/ s = snd (fst (run w m ref deg)) -> reaches r p (frames s) /\ reaches r' p (frames s)) ->
    snd (run w (with_radius r' m) ref deg) = snd (run w m ref deg).
  Proof.
    intros EW EH Hh p r frames HF HC. unfold run in *. cbn [with_radius mg_init mg_settings mg_no_global mg_bank].
    destruct (negb (mg_init m)); [reflexivity|]. destruct (validate ref deg); [reflexivity|].
    destruct (if mg_no_global m then _ else _) as [[d lag]| | |]; [|cbn [bind]; reflexivity ..]. rewrite EW in *.
    unfold calculate_similarity in *. cbn [st_speech] in *. set (d' := scale_to_match_spl ref d) in *. set (st := mg_settings m) in *. set (k := mg_bank m) in *.
    destruct (Nat.le_gt_cases (length (au_data ref)) (w_size win)) as [SR|SR].
    { destruct (build (st_speech st) k ref win) as [k1 rs] eqn:E1. pose proof (build_short (st_speech st) k ref win h EH SR) as Q. rewrite E1 in Q. cbn [snd] in Q. subst rs. reflexivity. }
    destruct (build_ret (st_speech st) k ref win h EH Hh SR) as (R1 & ER & _ & _ & CR & _).
    destruct (build (st_speech st) k ref win) as [k1 rs] eqn:E1. cbn [snd] in ER. subst rs.
    destruct (Nat.le_gt_cases (length (au_data d')) (w_size win)) as [SD|SD].
    { destruct (build (st_speech st) k1 d' win) as [k2 ds] eqn:E2. pose proof (build_short (st_speech st) k1 d' win h EH SD) as Q. rewrite E2 in Q. cbn [snd] in Q. subst ds. reflexivity. }
    destruct (build_ret (st_speech st) k1 d' win h EH Hh SD) as (D1 & ED & _ & _ & CD & _).
    destruct (build (st_speech st) k1 d' win) as [k2 ds] eqn:E2. cbn [snd] in ED. subst ds.
    unfold compare_spectrograms in *. cbn [st_speech st_radius st_no_realign st_mapper] in *.
    assert (HC1 := HC ref (or_introl eq_refl)). assert (HC2 : reaches r p (frames d') /\ reaches r' p (frames d')).
    { apply HC. right. symmetry. destruct (bind _ _) as [[fd sims]| | |]; [|cbn [bind]; reflexivity ..]. destruct (if st_no_realign st then _ else _) as [k' al]. reflexivity. }
    clear HC. destruct (prepare_spectrograms (sp_data R1) (sp_data D1)) as [[A B]| | |] eqn:EP; [|cbn [bind]; reflexivity ..]. cbn [bind].
    apply prepare_inv in EP. destruct EP as [[_ CA] [_ CB]].
    destruct (ref_patch_indices (st_speech st) (ncols A) ref win) as [idx| | |] eqn:EI; [|cbn [bind]; reflexivity ..]. cbn [bind].
    destruct (calc_frame_duration win (au_sr ref)) as [fd| | |]; [|cbn [bind]; reflexivity ..]. cbn [bind].
    destruct (create_patches _ A idx) as [refs| | |] eqn:EC; [|cbn [bind]; reflexivity ..]. cbn [bind].
    assert (FA : Z.of_nat (ncols A) = frames ref).
    { unfold frames, frame_count. rewrite CA, CR. rewrite Nat2Z.inj_add, Nat2Z.inj_div, Nat2Z.inj_sub by lia. rewrite Z2Nat.id by lia. reflexivity. }
    assert (FB : Z.of_nat (ncols B) = frames d').
    { unfold frames, frame_count. rewrite CB, CD. rewrite Nat2Z.inj_add, Nat2Z.inj_div, Nat2Z.inj_sub by lia. rewrite Z2Nat.id by lia. reflexivity. }
    rewrite <- FA in HC1, HF. rewrite <- FB in HC2. destruct HC1 as [HC1 HC1']. destruct HC2 as [HC2 HC2'].
    assert (PP : (1 <= p < 100)%nat) by (unfold p, patch_size; destruct (st_speech st); lia).
    assert (SA : Z.of_nat (ncols A) < 2 ^ 31) by (destruct HC1; lia).
    rewrite (find_cover measure_patch_similarity refs idx B p fd r' r (Z.of_nat (ncols A)));
      [fold r; destruct (find_most_optimal_deg_patches _ _ _ _ _ _) as [sims| | |]; cbn [bind]; [destruct (if st_no_realign st then _ else _) as [k3 al]|..]; reflexivity|lia| | |assumption ..].
    - intros x Hx. destruct (create_patches_inv (Z.of_nat p) A ltac:(lia) SA idx refs EC) as [_ Q]. destruct (Q x Hx) as [_ ->]. lia.
    - exact (indices_bound (st_speech st) (ncols A) ref win idx SA HF EI).
  Qed.
End Run.
