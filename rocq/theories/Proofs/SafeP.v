(** FindMostOptimalDegPatches returns for every radius of at least one patch, whatever the similarities (C27). *)
From Coq Require Import ZArith List Bool Reals Lra Lia ZifyBool ZifyNat.
From Verif Require Import Base.Res Base.Num Base.Lists Base.Mat Model.Amatrix Model.MiscMath Model.Window
  Model.FilterBank Model.Spectrogram Model.Nsim Model.Fft Model.Alignment Model.Selector Spec.MatchSpec
  Proofs.SelectorP Proofs.MatchP Proofs.MatchAllP Proofs.OptimalP Proofs.FindP.
Import ListNotations.
Open Scope nat_scope.
Ltac Zify.zify_post_hook ::= Z.div_mod_to_equations.

Section Cell.
  Context {T : Type} {N : Num T} (SC : scores T).

  Lemma zero_ok k : (0 <= k)%Z -> bounded SC k n0.
  Proof.
    intros Hk. destruct (sc_zero _ SC) as [G V]. split; [exact G|]. rewrite V, Rabs_R0. apply IZR_le. lia.
  Qed.
  (** a cell keeps its bound and points back to an offset that exists *)
  Lemma cell_safe row l s sim k : (0 <= k < 2 ^ 50)%Z -> (forall b, bounded SC k (nth b row n0)) ->
    bounded SC 1 sim ->
    bounded SC (k + 1) (fst (dp_cell (Some (row, l)) s sim)) /\ (0 <= snd (dp_cell (Some (row, l)) s sim))%Z.
  Proof.
    intros Hk HB [Gs Bs]. change (IZR (2 * 1)) with 2%R in Bs.
    assert (up : forall b, bounded SC (k + 1) (nth b row n0)).
    { intros b. destruct (HB b) as [G B]. split; [exact G|]. eapply Rle_trans; [exact B|]. apply IZR_le. lia. }
    unfold dp_cell. unfold back_search. destruct (le_lt_dec s l) as [Hl|Hl].
    - replace (s - l) with 0 by lia. cbn [seq rev fold_left].
      destruct (sc_lowest _ SC) as (_ & _ & Lo). destruct (Lo _ Gs Bs) as [Gl Ll].
      assert (Q : nltb (nadd sim nlowest) (nth s row n0) = true).
      { apply (sc_lt _ SC); [exact Gl|apply HB|]. pose proof (bounded_above SC _ _ Hk (HB s)). lra. }
      rewrite Q. cbn [fst snd]. split; [apply up|lia].
    - destruct (pick_lowest SC Z.of_nat (-1)%Z row k (rev (seq l (s - l))) Hk) as (b & Hb & Eb & _).
      { intros C. apply (f_equal (@length nat)) in C. rewrite rev_length, seq_length in C. cbn in C. lia. }
      { intros b _. apply HB. }
      change (fun (acc : T * Z) b => if nltb (fst acc) (nth b row n0) then (nth b row n0, Z.of_nat b) else acc)
        with (back_step row) in Eb.
      rewrite Eb. destruct (nltb _ _); cbn [fst snd]; (split; [|lia]); [apply up|].
      destruct (HB b) as [Gb Bb].
      destruct (sc_add _ SC k sim (nth b row n0) Hk Gs Bs Gb Bb) as [Ga Ba]. split; assumption.
  Qed.
End Cell.

Section F.
  Context {T : Type} {N : Num T} (SC : scores T) (CE : counts_exact (T:=T)).
  Variable measure : mat T -> mat T -> res (psr T).
  Variables (refs : list (mat T)) (idx : list Z) (S : mat T) (p : nat) (fd : T) (radius : Z).
  Let nc := Z.of_nat (ncols S).
  Let sw := (radius * Z.of_nat p)%Z.

  Hypothesis Sh : shapes refs S p.
  Hypothesis Hlen : length idx = length refs.
  Hypothesis Hsmall : (Z.of_nat (length idx) < 2 ^ 49)%Z.
  Hypothesis Hidx : forall i, i < length idx -> (0 <= idx_at idx i /\ idx_at idx i + sw < 2 ^ 31)%Z.
  Hypothesis Hrad : (0 <= radius)%Z.
  Hypothesis Hfirst : (idx_at idx 0 <= nc + Z.of_nat p / 2)%Z.
  Hypothesis Hrad0 : (1 <= radius)%Z \/ forall i, i < length idx -> (idx_at idx i < nc)%Z.
  Hypothesis Hmeas : forall i s, i < length idx -> s < ncols S -> exists r,
    measure (ref_at refs i) (frames_at n0 S (Z.of_nat s) p) = Ret r /\
    good SC (ps_sim r) /\ (Rabs (val SC (ps_sim r)) <= 2)%R.

  Lemma find_safe : exists l, find_most_optimal_deg_patches measure refs idx S fd radius = Ret l.
  Proof.
    pose proof (sh_p _ _ _ Sh) as Hp. pose proof (sh_nc _ _ _ Sh) as Hnc. pose proof (sh_some _ _ _ Sh) as Hne.
    assert (Hsw : (0 <= sw)%Z) by (unfold sw; nia).
    assert (L0 : 0 < length idx) by (rewrite Hlen; destruct refs; [congruence|cbn; lia]).
    assert (Hsw31 : (sw < 2 ^ 31)%Z) by (specialize (Hidx 0 L0); lia).
    destruct (calc_max_num_patches_spec CE (Z.of_nat p) nc idx) as (n1 & En & Hn1 & Hlast & _).
    { lia. } { unfold nc; lia. }
    { apply Forall_forall. intros x Hx. apply (In_nth _ _ 0%Z) in Hx. destruct Hx as (k & Hk & <-).
      specialize (Hidx k Hk). unfold idx_at in Hidx. lia. }
    { apply Exists_exists. exists (idx_at idx 0). split; [apply nth_In; exact L0|exact Hfirst]. }
    destruct n1 as [|n]; [lia|]. replace (Datatypes.S n - 1) with n in Hlast by lia. fold (idx_at idx n) in Hlast.
    assert (Hscored : forall i, i <= n -> (0 <= idx_at idx i /\ idx_at idx i + sw < 2 ^ 31)%Z) by (intros i Hi; apply Hidx; lia).
    assert (Hln : (Z.max 0 (idx_at idx n - sw) <= Z.min (idx_at idx n + sw) (nc - 1))%Z).
    { specialize (Hscored n (le_n n)). unfold nc in *. destruct Hrad0 as [R|R]; [|specialize (R n ltac:(lia)); lia].
      assert (Z.of_nat p <= sw)%Z by (unfold sw; nia). lia. }
    assert (Hslides : forall i, i <= n -> row_slides (idx_at idx i) sw nc =
      Ret (offsets (Z.max 0 (idx_at idx i - sw)) (Z.min (idx_at idx i + sw) (nc - 1)))).
    { intros i Hi. specialize (Hscored i Hi). unfold row_slides. rewrite int_of_id by lia.
      unfold fits_int. destruct (_ && _) eqn:E; [|lia]. rewrite slide_loop_closed by (unfold nc in *; lia). reflexivity. }
    set (degs := map (fun o => frames_at n0 S (Z.of_nat o) p) (seq 0 (ncols S))).
    assert (Hdegs : forall s, s < ncols S -> nth_error degs s = Some (frames_at n0 S (Z.of_nat s) p)).
    { intros s Hs. unfold degs. erewrite map_nth_error; [reflexivity|].
      rewrite nth_error_nth' with (d := 0) by (rewrite seq_length; exact Hs). rewrite seq_nth by exact Hs. reflexivity. }
    set (items := map (fun i => (ref_at refs i, idx_at idx i)) (seq 0 (Datatypes.S n))).
    destruct (dp_rows_total measure degs (ncols S) sw items None) as [rows Hrows].
    { intros ref i Hri. unfold items in Hri. apply in_map_iff in Hri. destruct Hri as (k & Ek & Hk).
      apply in_seq in Hk. injection Ek as <- <-. eexists. split; [apply Hslides; lia|].
      intros s Hs. apply in_offsets in Hs; [|lia]. unfold nc in Hs.
      destruct (Hmeas k s ltac:(lia) ltac:(lia)) as (r & E & _).
      exists (frames_at n0 S (Z.of_nat s) p), r. split; [apply Hdegs; lia|exact E]. }
    destruct (table_inv measure degs (ncols S) sw refs idx rows (Datatypes.S n) Hrows) as [slides HT].
    pose proof (dp_rows_inv measure _ _ _ (MkMat 0 0 [], 0%Z) _ _ _ Hrows) as [Lrows _].
    unfold items in Lrows. rewrite map_length, seq_length in Lrows.
    set (Rw := fun i => fst (nth i rows ([], []))). set (Bt := rows_bt rows).
    (* every cell is bounded, every back pointer of a later patch is an offset *)
    assert (HB : forall i, i <= n -> (forall s, bounded SC (Z.of_nat i + 1) (nth s (Rw i) n0)) /\
      (1 <= i -> forall s, (0 <= nth s (Bt i) 0)%Z)).
    { induction i as [|i IH]; intros Hi; destruct (HT _ (le_n_S _ _ Hi)) as (_ & _ & _ & H4 & H5 & H6).
      - split; [|lia]. intros s. destruct (in_dec Nat.eq_dec s (slides 0)) as [I|I].
        + destruct (H5 s I) as (deg & r & A & B & C). rewrite Hdegs in A by (now apply H4). injection A as <-.
          destruct (Hmeas 0 s ltac:(lia) (H4 s I)) as (r' & E & G & Bd). rewrite E in B. injection B as ->.
          cbn [dp_cell] in C. injection C as C _. unfold Rw. rewrite C. split; [exact G|exact Bd].
        + unfold Rw. rewrite (proj1 (H6 s I)). apply zero_ok. lia.
      - destruct (IH ltac:(lia)) as [Hb _].
        assert (P : forall s, bounded SC (Z.of_nat (Datatypes.S i) + 1) (nth s (Rw (Datatypes.S i)) n0) /\
                              (0 <= nth s (Bt (Datatypes.S i)) 0)%Z).
        { intros s. destruct (in_dec Nat.eq_dec s (slides (Datatypes.S i))) as [I|I].
          - destruct (H5 s I) as (deg & r & A & B & C). rewrite Hdegs in A by (now apply H4). injection A as <-.
            destruct (Hmeas (Datatypes.S i) s ltac:(lia) (H4 s I)) as (r' & E & G & Bd). rewrite E in B. injection B as ->.
            destruct (cell_safe SC (Rw i) (lower_limit (idx_at idx i) sw) s (ps_sim r) (Z.of_nat i + 1)) as [U V];
              [lia|exact Hb|split; [exact G|exact Bd]|].
            unfold Rw in U, V. rewrite <- C in U, V. cbn [fst snd] in U, V.
            replace (Z.of_nat (Datatypes.S i) + 1)%Z with (Z.of_nat i + 1 + 1)%Z by lia. split; [exact U|exact V].
          - destruct (H6 s I) as [E1 E2]. unfold Rw, Bt. rewrite E1, E2. split; [apply zero_ok; lia|lia]. }
        split; [intros s; apply P|intros _ s; apply P]. }
    assert (Hscan : exists last, final_scan (Rw n) (idx_at idx n) sw = Ret (Z.of_nat last) /\ last < ncols S).
    { unfold final_scan. destruct (HT n ltac:(lia)) as (_ & Ln & _). fold (Rw n) in Ln. rewrite Ln.
      specialize (Hscored n (le_n n)).
      rewrite (size_of_id sw) by lia. rewrite (size_of_id (_ + sw)) by lia.
      replace (Z.max 0 (int_of (size_of (idx_at idx n - sw)))) with (Z.max 0 (idx_at idx n - sw)).
      2:{ destruct (Z_le_gt_dec 0 (idx_at idx n - sw)).
          - rewrite size_of_id by lia. rewrite int_of_id by lia. lia.
          - unfold int_of, size_of, two64. cbv zeta. destruct (_ <? _)%Z eqn:E; lia. }
      rewrite slide_loop_closed by lia.
      replace (Z.max 0 (Z.max 0 (idx_at idx n - sw))) with (Z.max 0 (idx_at idx n - sw)) by lia.
      destruct (pick_lowest SC (fun s => Some (Z.of_nat s)) None (Rw n) (Z.of_nat n + 1)
        (offsets (Z.max 0 (idx_at idx n - sw)) (Z.min (idx_at idx n + sw) (Z.of_nat (ncols S) - 1)))) as (b & Hb & Eb & _).
      - lia.
      - intros C. assert (I : In (Z.to_nat (Z.max 0 (idx_at idx n - sw))) []) by (rewrite <- C; apply in_offsets; unfold nc in *; lia).
        destruct I.
      - intros b _. apply HB. lia.
      - change (fun (acc : T * option Z) b => if nltb (fst acc) (nth b (Rw n) n0) then (nth b (Rw n) n0, Some (Z.of_nat b)) else acc)
          with (scan_step (Rw n)) in Eb.
        rewrite Eb. exists b. split; [reflexivity|]. apply in_offsets in Hb; lia. }
    destruct Hscan as (last & Escan & Hl).
    assert (Htr : forall d, d <= n -> (0 <= tr Bt n (Z.of_nat last) (n - d) < nc)%Z).
    { induction d as [|d IH]; intros Hd.
      - rewrite Nat.sub_0_r, tr_same. unfold nc. lia.
      - specialize (IH ltac:(lia)).
        rewrite (tr_step measure (ref_at refs) (idx_at idx) Bt n (Z.of_nat last)) by lia.
        replace (Datatypes.S (n - Datatypes.S d)) with (n - d) by lia.
        pose proof (proj2 (HB (n - d) ltac:(lia)) ltac:(lia) (Z.to_nat (tr Bt n (Z.of_nat last) (n - d)))).
        pose proof (table_bt_range measure degs (ncols S) sw refs idx rows (Datatypes.S n) Hrows (n - d)
          (Z.to_nat (tr Bt n (Z.of_nat last) (n - d))) ltac:(lia)). fold Bt in H0. lia. }
    destruct (backtrack_total measure S fd (nmul fd (nofZ (Z.of_nat p))) (ref_at refs) (idx_at idx) Bt n (Z.of_nat last) [])
      as [l El].
    { intros i Hi. specialize (Htr (n - i) ltac:(lia)). replace (n - (n - i)) with i in Htr by lia.
      destruct (HT i ltac:(lia)) as (_ & _ & Lb & _). fold Bt in Lb. rewrite Lb. fold nc. split; [exact Htr|].
      destruct (sh_ref _ _ _ Sh (ref_at refs i)) as [R1 R2]; [apply nth_In; lia|].
      set (t := tr Bt n (Z.of_nat last) i) in *.
      destruct (Hmeas i (Z.to_nat t) ltac:(lia) ltac:(unfold nc in *; lia)) as (r & E & _). rewrite Z2Nat.id in E by lia.
      exists (frames_at n0 S t p), r. split; [|exact E].
      rewrite degraded_at_spec by (unfold nc in *; lia). now rewrite R2. }
    exists l. destruct refs as [|ref0 rest] eqn:Er; [congruence|].
    assert (Ep : ncols ref0 = p) by (apply (sh_ref _ _ _ Sh); now left).
    unfold find_most_optimal_deg_patches. rewrite Ep. fold nc. rewrite En. cbn [bind Nat.eqb].
    rewrite (degs_ret measure _ S p ref0 rest Sh eq_refl). cbn [bind].
    destruct (Nat.ltb (length (ref0 :: rest)) (Datatypes.S n)) eqn:El'; [rewrite <- Hlen in El'; lia|].
    rewrite items_form by (rewrite <- ?Hlen; lia). fold items. fold degs.
    replace (int_of (size_of (size_of radius * Z.of_nat p))) with sw.
    2:{ unfold sw in *. rewrite (size_of_id radius) by nia. rewrite (size_of_id (radius * _)) by nia. rewrite int_of_id by nia. reflexivity. }
    rewrite Hrows. cbn [bind]. unfold items. rewrite (back_form (ref0 :: rest) idx rows (Datatypes.S n) Lrows).
    rewrite (firstn_as_map idx _ 0%Z) by lia. rewrite last_map_seq.
    replace (List.last rows ([], [])) with (nth n rows ([], [])).
    2:{ rewrite <- (map_nth_seq rows ([], [])) at 2. rewrite Lrows. now rewrite last_map_seq. }
    fold (Rw n). fold (idx_at idx n). rewrite Escan. cbn [bind]. exact El.
  Qed.
End F.
