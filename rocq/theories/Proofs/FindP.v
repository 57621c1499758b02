(** FindMostOptimalDegPatches returns, and returns a best matching (C25, C26, C27). *)
From Coq Require Import ZArith List Bool Reals Lra Lia ZifyBool ZifyNat.
From Verif Require Import Base.Res Base.Num Base.Lists Base.Mat Model.Amatrix Model.MiscMath Model.Window
  Model.FilterBank Model.Spectrogram Model.Nsim Model.Fft Model.Alignment Model.Selector Spec.MatchSpec
  Proofs.SelectorP Proofs.MatchP Proofs.MatchAllP Proofs.OptimalP.
Import ListNotations.
Open Scope nat_scope.
Ltac Zify.zify_post_hook ::= Z.div_mod_to_equations.

Lemma in_offsets lo hi s : (0 <= lo)%Z -> In s (offsets lo hi) <-> (lo <= Z.of_nat s <= hi)%Z.
Proof. intros H. unfold offsets. rewrite in_seq. lia. Qed.

(** search window of a patch at reference frame [i] in a spectrogram of [nc] frames *)
Definition win_lo (sw i : Z) : nat := Z.to_nat (Z.max 0 (i - sw)).
Definition win_hi (sw nc i : Z) : nat := Z.to_nat (Z.min (i + sw) (nc - 1)).

Section F.
  Context {T : Type} {N : Num T} (SC : scores T) (CE : counts_exact (T:=T)).
  Variable measure : mat T -> mat T -> res (psr T).
  Variables (refs : list (mat T)) (idx : list Z) (S : mat T) (p : nat) (fd : T) (radius : Z).
  Variable RES : nat -> nat -> psr T.
  Let nc := Z.of_nat (ncols S).
  Let sw := (radius * Z.of_nat p)%Z.
  Let lo i := win_lo sw (idx_at idx i).
  Let hi i := win_hi sw nc (idx_at idx i).
  Let SIM i s := ps_sim (RES i s).

  Hypothesis Sh : shapes refs S p.
  Hypothesis Hlen : length idx = length refs.
  Hypothesis Hsmall : (Z.of_nat (length idx) < 2 ^ 49)%Z.
  Hypothesis Hidx : forall i, i < length idx -> (0 <= idx_at idx i /\ idx_at idx i + sw < 2 ^ 31)%Z.
  Hypothesis Hinc : forall i, Datatypes.S i < length idx -> (idx_at idx i <= idx_at idx (Datatypes.S i))%Z.
  Hypothesis Hrad : (1 <= radius)%Z.
  Hypothesis Hfirst : (idx_at idx 0 <= nc + Z.of_nat p / 2)%Z.
  Hypothesis Hmeas : forall i s, i < length idx -> s < ncols S ->
    measure (ref_at refs i) (frames_at n0 S (Z.of_nat s) p) = Ret (RES i s) /\
    good SC (SIM i s) /\ (Rabs (val SC (SIM i s)) <= 2)%R.
  Hypothesis Hmode :
    (forall i, i < length idx -> (idx_at idx i <= sw /\ nc - 1 <= idx_at idx i + sw)%Z) \/
    (forall i s, i < length idx -> s < ncols S -> (0 < val SC (SIM i s))%R).

  Lemma inc_le j : forall i, i <= j -> j < length idx -> (idx_at idx i <= idx_at idx j)%Z.
  Proof.
    induction j as [|j IH]; intros i Hi Hj; [assert (i = 0) by lia; subst; lia|].
    destruct (Nat.eq_dec i (Datatypes.S j)) as [->|]; [lia|].
    specialize (IH i ltac:(lia) ltac:(lia)). specialize (Hinc j Hj). lia.
  Qed.

  Lemma find_optimal : exists l off,
    find_most_optimal_deg_patches measure refs idx S fd radius = Ret l /\
    1 <= length l <= length idx /\
    (idx_at idx (length l - 1) <= nc + Z.of_nat p / 2)%Z /\
    (forall j, length l <= j < length idx -> (nc + Z.of_nat p / 2 < idx_at idx j)%Z) /\
    assignment lo hi (length l - 1) off /\
    (forall i, i < length l -> off i < ncols S /\
       nth_error l i = Some (with_times (RES i (off i)) (skipped off i) (Z.of_nat (off i)) (idx_at idx i) fd
                                        (nmul fd (nofZ (Z.of_nat p))))) /\
    forall off', assignment lo hi (length l - 1) off' ->
      (val SC (score SIM off' (length l - 1)) <= val SC (score SIM off (length l - 1)))%R.
  Proof.
    pose proof (sh_p _ _ _ Sh) as Hp. pose proof (sh_nc _ _ _ Sh) as Hnc. pose proof (sh_some _ _ _ Sh) as Hne.
    assert (Hsw : (Z.of_nat p <= sw)%Z) by (unfold sw; nia).
    assert (L0 : 0 < length idx) by (rewrite Hlen; destruct refs; [congruence|cbn; lia]).
    assert (Hsw31 : (sw < 2 ^ 31)%Z) by (specialize (Hidx 0 L0); lia).
    (* number of scored patches *)
    destruct (calc_max_num_patches_spec CE (Z.of_nat p) nc idx) as (n1 & En & Hn1 & Hlast & Hdrop).
    { lia. } { unfold nc; lia. }
    { apply Forall_forall. intros x Hx. apply (In_nth _ _ 0%Z) in Hx. destruct Hx as (k & Hk & <-).
      specialize (Hidx k Hk). unfold idx_at in Hidx. lia. }
    { apply Exists_exists. exists (idx_at idx 0). split; [apply nth_In; exact L0|exact Hfirst]. }
    destruct n1 as [|n]; [lia|]. replace (Datatypes.S n - 1) with n in Hlast by lia. fold (idx_at idx n) in Hlast.
    assert (Hscored : forall i, i <= n -> (0 <= idx_at idx i /\ idx_at idx i + sw < 2 ^ 31 /\ idx_at idx i <= nc + Z.of_nat p / 2)%Z).
    { intros i Hi. pose proof (Hidx i ltac:(lia)). pose proof (inc_le n i Hi ltac:(lia)). lia. }
    (* offsets visited for patch i *)
    assert (Hslides : forall i, i <= n -> row_slides (idx_at idx i) sw nc =
      Ret (offsets (Z.max 0 (idx_at idx i - sw)) (Z.min (idx_at idx i + sw) (nc - 1)))).
    { intros i Hi. specialize (Hscored i Hi). unfold row_slides. rewrite int_of_id by lia.
      unfold fits_int. destruct (_ && _) eqn:E; [|lia]. rewrite slide_loop_closed by (unfold nc in *; lia). reflexivity. }
    assert (Hin : forall i s, i <= n ->
      In s (offsets (Z.max 0 (idx_at idx i - sw)) (Z.min (idx_at idx i + sw) (nc - 1))) <-> lo i <= s <= hi i).
    { intros i s Hi. specialize (Hscored i Hi). rewrite in_offsets by lia. unfold lo, hi, win_lo, win_hi. lia. }
    assert (Hwin : forall i, i <= n -> lo i <= hi i < ncols S).
    { intros i Hi. specialize (Hscored i Hi). unfold lo, hi, win_lo, win_hi, nc in *. lia. }
    assert (Hlow : forall i, i <= n -> lower_limit (idx_at idx i) sw = lo i).
    { intros i Hi. specialize (Hscored i Hi). unfold lower_limit, lo, win_lo. destruct (Z_le_gt_dec 0 (idx_at idx i - sw)).
      - rewrite size_of_id by lia. rewrite int_of_id by lia. lia.
      - assert (E : int_of (size_of (idx_at idx i - sw)) = (idx_at idx i - sw)%Z).
        { unfold int_of, size_of, two64. cbv zeta. destruct (_ <? _)%Z eqn:E; lia. }
        rewrite E. lia. }
    set (degs := map (fun o => frames_at n0 S (Z.of_nat o) p) (seq 0 (ncols S))).
    assert (Hdegs : forall s, s < ncols S -> nth_error degs s = Some (frames_at n0 S (Z.of_nat s) p)).
    { intros s Hs. unfold degs. erewrite map_nth_error; [reflexivity|].
      rewrite nth_error_nth' with (d := 0) by (rewrite seq_length; exact Hs). rewrite seq_nth by exact Hs. reflexivity. }
    set (items := map (fun i => (ref_at refs i, idx_at idx i)) (seq 0 (Datatypes.S n))).
    destruct (dp_rows_total measure degs (ncols S) sw items None) as [rows Hrows].
    { intros ref i Hri. unfold items in Hri. apply in_map_iff in Hri. destruct Hri as (k & Ek & Hk).
      apply in_seq in Hk. injection Ek as <- <-. eexists. split; [apply Hslides; lia|].
      intros s Hs. apply Hin in Hs; [|lia]. pose proof (Hwin k ltac:(lia)).
      exists (frames_at n0 S (Z.of_nat s) p), (RES k s). split; [apply Hdegs; lia|].
      apply Hmeas; lia. }
    destruct (table_inv measure degs (ncols S) sw refs idx rows (Datatypes.S n) Hrows) as [slides HT].
    pose proof (dp_rows_inv measure _ _ _ (MkMat 0 0 [], 0%Z) _ _ _ Hrows) as [Lrows _].
    unfold items in Lrows. rewrite map_length, seq_length in Lrows.
    assert (Hsl : forall i, i <= n -> slides i = offsets (Z.max 0 (idx_at idx i - sw)) (Z.min (idx_at idx i + sw) (nc - 1))).
    { intros i Hi. destruct (HT i ltac:(lia)) as (E & _). fold nc in E. rewrite Hslides in E by exact Hi. now injection E as ->. }
    set (Rw := fun i => fst (nth i rows ([], []))). set (Bt := rows_bt rows).
    assert (Hcell : forall i s, i <= n -> lo i <= s <= hi i ->
      (nth s (Rw i) n0, nth s (Bt i) 0%Z) =
      dp_cell (match i with O => None | Datatypes.S j => Some (Rw j, lo j) end) s (SIM i s)).
    { intros i s Hi Hs. destruct (HT i ltac:(lia)) as (_ & _ & _ & _ & H5 & _).
      destruct (H5 s) as (deg & r & A & B & C); [rewrite Hsl by exact Hi; now apply Hin|].
      pose proof (Hwin i Hi). rewrite Hdegs in A by lia. injection A as <-.
      destruct (Hmeas i s ltac:(lia) ltac:(lia)) as [E _]. rewrite E in B. injection B as <-.
      unfold Rw, Bt. rewrite C. destruct i as [|j]; [reflexivity|]. now rewrite Hlow by lia. }
    assert (Hcout : forall i s, i <= n -> ~ (lo i <= s <= hi i) -> nth s (Rw i) n0 = n0).
    { intros i s Hi Hs. destruct (HT i ltac:(lia)) as (_ & _ & _ & _ & _ & H6). apply H6.
      rewrite Hsl by exact Hi. intros C. apply Hin in C; auto. }
    assert (Hmono : forall i, i < n -> lo i <= lo (Datatypes.S i) /\ hi i <= hi (Datatypes.S i)).
    { intros i Hi. specialize (Hinc i ltac:(lia)). unfold lo, hi, win_lo, win_hi. lia. }
    assert (Hsim : forall i s, i <= n -> lo i <= s <= hi i -> bounded SC 1 (SIM i s)).
    { intros i s Hi Hs. pose proof (Hwin i Hi). destruct (Hmeas i s ltac:(lia) ltac:(lia)) as (_ & G & B). split; assumption. }
    assert (Hm : (forall i, i <= n -> lo i = 0 /\ hi i = ncols S - 1) \/
                 (forall i s, i <= n -> lo i <= s <= hi i -> (0 < val SC (SIM i s))%R)).
    { destruct Hmode as [M|M]; [left|right].
      - intros i Hi. specialize (M i ltac:(lia)). specialize (Hscored i Hi). unfold lo, hi, win_lo, win_hi, nc in *. lia.
      - intros i s Hi Hs. pose proof (Hwin i Hi). apply M; lia. }
    assert (Hns : (Z.of_nat n < 2 ^ 50 - 1)%Z) by lia.
    pose proof (inv_holds SC (ncols S) n lo hi SIM Rw Bt Hns Hsim Hwin Hmono Hcell Hcout Hm n (le_n n)) as (HB & _ & _).
    (* the last offset *)
    assert (Hscan : exists last, final_scan (Rw n) (idx_at idx n) sw = Ret (Z.of_nat last) /\ lo n <= last <= hi n /\
      forall s, lo n <= s <= hi n -> (val SC (nth s (Rw n) n0) <= val SC (nth last (Rw n) n0))%R).
    { unfold final_scan. destruct (HT n ltac:(lia)) as (_ & Ln & _). fold (Rw n) in Ln. rewrite Ln.
      specialize (Hscored n (le_n n)). specialize (Hwin n (le_n n)).
      rewrite (size_of_id sw) by lia. rewrite (size_of_id (_ + sw)) by lia.
      replace (Z.max 0 (int_of (size_of (idx_at idx n - sw)))) with (Z.max 0 (idx_at idx n - sw)).
      2:{ pose proof (Hlow n (le_n n)) as E. unfold lower_limit, lo, win_lo in E.
          set (u := int_of _) in *. lia. }
      rewrite slide_loop_closed by lia.
      replace (Z.max 0 (Z.max 0 (idx_at idx n - sw))) with (Z.max 0 (idx_at idx n - sw)) by lia.
      destruct (pick_lowest SC (fun s => Some (Z.of_nat s)) None (Rw n) (Z.of_nat n + 1)
        (offsets (Z.max 0 (idx_at idx n - sw)) (Z.min (idx_at idx n + sw) (Z.of_nat (ncols S) - 1)))) as (b & Hb & Eb & Mb).
      - lia.
      - intros C. assert (I : In (lo n) []) by (rewrite <- C; apply (Hin n (lo n) (le_n n)); lia). destruct I.
      - intros b _. apply HB.
      - change (fun (acc : T * option Z) b => if nltb (fst acc) (nth b (Rw n) n0) then (nth b (Rw n) n0, Some (Z.of_nat b)) else acc)
          with (scan_step (Rw n)) in Eb.
        rewrite Eb. exists b. split; [reflexivity|]. apply (Hin n b (le_n n)) in Hb. split; [exact Hb|].
        intros s Hs. apply Mb. apply (Hin n s (le_n n)). exact Hs. }
    destruct Hscan as (last & Escan & Hl & Hmax).
    destruct (best_assignment SC (ncols S) n lo hi SIM Rw Bt Hns Hsim Hwin Hmono Hcell Hcout Hm last Hl Hmax)
      as (off & A1 & A2 & A3 & A4).
    assert (Hoff : forall i, i <= n -> off i < ncols S).
    { intros i Hi. pose proof (proj1 A1 i Hi). pose proof (Hwin i Hi). lia. }
    destruct (backtrack_total measure S fd (nmul fd (nofZ (Z.of_nat p))) (ref_at refs) (idx_at idx) Bt n (Z.of_nat last) [])
      as [l El].
    { intros i Hi. rewrite A3 by exact Hi. destruct (HT i ltac:(lia)) as (_ & _ & Lb & _). fold Bt in Lb. rewrite Lb.
      pose proof (Hoff i Hi). split; [lia|].
      destruct (sh_ref _ _ _ Sh (ref_at refs i)) as [R1 R2]; [apply nth_In; lia|].
      exists (frames_at n0 S (Z.of_nat (off i)) p), (RES i (off i)). split.
      - rewrite degraded_at_spec by (unfold nc in *; lia). now rewrite R2.
      - apply Hmeas; lia. }
    destruct (backtrack_inv _ _ _ _ _ _ _ _ _ _ _ El) as (rs & E & Lr & HI). rewrite app_nil_r in E. subst rs.
    exists l, off. rewrite Lr. replace (Datatypes.S n - 1) with n by lia.
    split; [|split; [lia|split; [exact Hlast|split; [|split; [exact A1|split; [|exact A4]]]]]].
    - destruct refs as [|ref0 rest] eqn:Er; [congruence|].
      assert (Ep : ncols ref0 = p) by (apply (sh_ref _ _ _ Sh); now left).
      unfold find_most_optimal_deg_patches. rewrite Ep. fold nc. rewrite En. cbn [bind Nat.eqb].
      rewrite (degs_ret measure _ S p ref0 rest Sh eq_refl). cbn [bind].
      destruct (Nat.ltb (length (ref0 :: rest)) (Datatypes.S n)) eqn:El'; [rewrite <- Hlen in El'; lia|].
      rewrite items_form by (rewrite <- ?Hlen; lia). fold items. fold degs.
      replace (int_of (size_of (size_of radius * Z.of_nat p))) with sw.
      2:{ unfold sw in *. rewrite (size_of_id radius) by nia. rewrite (size_of_id (radius * _)) by nia. rewrite int_of_id by nia. reflexivity. }
      rewrite Hrows. cbn [bind]. unfold items. rewrite (back_form (ref0 :: rest) idx rows (Datatypes.S n) Lrows).
      rewrite (firstn_as_map idx _ 0%Z) by lia. rewrite last_map_seq.
      replace (List.last rows ([], [])) with (nth n rows ([], [])).
      2:{ rewrite <- (map_nth_seq rows ([], [])) at 2. rewrite Lrows. now rewrite last_map_seq. }
      fold (Rw n). fold (idx_at idx n). rewrite Escan. cbn [bind]. exact El.
    - intros j Hj. apply Hdrop. lia.
    - intros i Hi. split; [apply Hoff; lia|]. destruct (HI i ltac:(lia)) as (_ & deg & r & B1 & B2 & B3).
      rewrite A3 in * by lia. pose proof (Hoff i ltac:(lia)).
      destruct (sh_ref _ _ _ Sh (ref_at refs i)) as [R1 R2]; [apply nth_In; lia|].
      rewrite degraded_at_spec in B1 by (unfold nc in *; lia). injection B1 as <-. rewrite R2 in B2.
      destruct (Hmeas i (off i) ltac:(lia) ltac:(lia)) as [Em _]. rewrite Em in B2. injection B2 as <-.
      rewrite B3. f_equal. f_equal. unfold lost_at. rewrite A3 by lia. rewrite Nat2Z.id.
      destruct i as [|i].
      + pose proof (Hcell 0 (off 0) ltac:(lia) (proj1 A1 0 ltac:(lia))) as C. cbn [dp_cell] in C.
        injection C as _ C. unfold Bt in *. rewrite C. cbn [skipped]. lia.
      + pose proof (tr_step measure (ref_at refs) (idx_at idx) Bt n (Z.of_nat last) i ltac:(lia)) as Et.
        rewrite !A3 in Et by lia. rewrite Nat2Z.id in Et. rewrite <- Et. cbn [skipped]. lia.
  Qed.
End F.
