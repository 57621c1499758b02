(** A search that can reach the largest possible total reaches it patch by patch (C82). *)
From Coq Require Import ZArith List Bool Reals Lra Lia Arith.
From Coq Require Import ZifyBool ZifyNat.
From Verif Require Import Base.Res Base.Num Base.NumR Base.Lists Base.Mat Model.Amatrix Model.MiscMath Model.Nsim Model.Fft Model.Selector
  Spec.MatchSpec Proofs.SelectorP Proofs.MatchP Proofs.MatchAllP Proofs.FindP Proofs.ScoresP.
Import ListNotations.
Open Scope R_scope.

Lemma back_R (prev : list R) lower s :
  let r := back_search prev lower s in
  (r = (nlowest, -1)%Z \/ exists b, (lower <= b < s)%nat /\ r = (nth b prev 0, Z.of_nat b)) /\
  (forall b, (lower <= b < s)%nat -> nth b prev 0 <= fst r) /\ nlowest <= fst r.
Proof.
  cbv zeta. unfold back_search.
  assert (H : forall l acc, (forall b, In b l -> (lower <= b < s)%nat) ->
    let r := fold_left (back_step prev) l acc in
    (r = acc \/ exists b, (lower <= b < s)%nat /\ r = (nth b prev 0, Z.of_nat b)) /\
    (forall b, In b l -> nth b prev 0 <= fst r) /\ fst acc <= fst r).
  { induction l as [|b l IH]; intros acc Hl; cbn [fold_left].
    - split; [now left|]. split; [intros ? []|lra].
    - destruct (IH (back_step prev acc b) (fun x Hx => Hl x (or_intror Hx))) as (A & B & C). cbv zeta in *.
      set (r := fold_left _ _ _) in *. clearbody r.
      unfold back_step in A, C. change (n0 : R) with 0 in *. cbn [nltb NumR] in *.
      destruct (Rltb_spec (fst acc) (nth b prev 0)) as [E|E]; cbn [fst] in *.
      + split; [right; destruct A as [->|A]; [exists b; split; [apply Hl; now left|reflexivity]|exact A]|].
        split; [intros x [<-|Hx]; [exact C|now apply B]|lra].
      + split; [exact A|]. split; [intros x [<-|Hx]; [lra|now apply B]|exact C]. }
  destruct (H (rev (seq lower (s - lower))) (nlowest, -1)%Z) as (A & B & C).
  { intros b Hb. rewrite <- in_rev in Hb. apply in_seq in Hb. lia. }
  split; [exact A|]. split; [|exact C]. intros b Hb. apply B. rewrite <- in_rev. apply in_seq. lia.
Qed.

Lemma scan_R (row : list R) l : let r := fold_left (scan_step row) l (nlowest, None) in
  (forall s, In s l -> nth s row 0 <= fst r) /\ (forall o, snd r = Some o -> exists s, In s l /\ o = Z.of_nat s /\ fst r = nth s row 0).
Proof.
  cbv zeta.
  assert (H : forall l acc, let r := fold_left (scan_step row) l acc in
    (forall s, In s l -> nth s row 0 <= fst r) /\ fst acc <= fst r /\
    (r = acc \/ exists s, In s l /\ r = (nth s row 0, Some (Z.of_nat s)))).
  { clear. induction l as [|b l IH]; intros acc; cbn [fold_left].
    - split; [intros ? []|]. split; [lra|now left].
    - destruct (IH (scan_step row acc b)) as (A & B & C). cbv zeta in *. set (r := fold_left _ _ _) in *. clearbody r.
      unfold scan_step in B, C. change (n0 : R) with 0 in *. cbn [nltb NumR] in *.
      destruct (Rltb_spec (fst acc) (nth b row 0)) as [E|E]; cbn [fst] in *.
      + split; [intros x [<-|Hx]; [exact B|now apply A]|]. split; [lra|]. right.
        destruct C as [->|(s & Hs & ->)]; [exists b; split; [now left|reflexivity]|exists s; split; [now right|reflexivity]].
      + split; [intros x [<-|Hx]; [lra|now apply A]|]. split; [exact B|].
        destruct C as [->|(s & Hs & ->)]; [now left|right; exists s; split; [now right|reflexivity]]. }
  destruct (H l (nlowest, None)) as (A & B & C). split; [exact A|]. intros o Ho.
  destruct C as [C|(s & Hs & C)]; rewrite C in Ho |- *; cbn [fst snd] in Ho |- *; [discriminate Ho|]. injection Ho as <-. exists s. auto.
Qed.

Lemma wrap_id z : (- 2 ^ 31 <= z < 2 ^ 31)%Z -> int_of (size_of z) = z.
Proof. intros H. unfold int_of, size_of, two64. cbv zeta. destruct (_ <? _)%Z eqn:Q; lia. Qed.
Lemma radius_fits (r p c : Z) : (0 <= r -> 1 <= p -> 0 <= c -> c + r * p <= 2 ^ 31 -> 0 <= r <= 2 ^ 31)%Z.
Proof. intros. nia. Qed.

Section D.
  Variable measure : mat R -> mat R -> res (psr R).
  Variable refs : list (mat R).
  Variable idx : list Z.
  Variable B : mat R.
  Variables (p : nat) (fd : R) (radius : Z).
  Hypothesis Sh : shapes refs B p.
  Hypothesis Hsw : (0 <= radius * Z.of_nat p)%Z.
  Hypothesis Hr0 : (0 <= radius)%Z.
  Hypothesis Hfit : (Z.of_nat (ncols B) + radius * Z.of_nat p <= 2 ^ 31)%Z.
  (** the reference indices are positions in the degraded spectrogram, in increasing order *)
  Hypothesis Hidx : forall i, (i < length idx)%nat -> (0 <= idx_at idx i < Z.of_nat (ncols B))%Z.
  Hypothesis Hinc : forall i, (S i < length idx)%nat -> (idx_at idx i < idx_at idx (S i))%Z.
  Hypothesis Hle : forall i o r, (i < length refs)%nat -> (o < ncols B)%nat -> measure (ref_at refs i) (frames_at 0 B (Z.of_nat o) p) = Ret r -> ps_sim r <= 1.
  Hypothesis Hone : forall i, (i < length refs)%nat -> (i < length idx)%nat -> exists r, measure (ref_at refs i) (frames_at 0 B (idx_at idx i) p) = Ret r /\ ps_sim r = 1.

  Lemma perfect_matching l : find_most_optimal_deg_patches measure refs idx B fd radius = Ret l ->
    forall i x, nth_error l i = Some x -> (i < length refs)%nat /\ exists o r, (o < ncols B)%nat /\
      measure (ref_at refs i) (frames_at 0 B (Z.of_nat o) p) = Ret r /\ ps_sim r = 1 /\
      x = with_times r false (Z.of_nat o) (idx_at idx i) fd (nmul fd (nofZ (Z.of_nat p))).
  Proof.
    intros F. destruct (find_inv _ _ _ _ _ _ _ _ Sh F) as (n & rows & last & Hn & Hr & Hi & Hd & Hl & Hf & Hb). cbv zeta in *.
    pose proof (sh_p _ _ _ Sh) as HP. pose proof (sh_nc _ _ _ Sh) as HC.
    assert (ESW : int_of (size_of (size_of radius * Z.of_nat p)) = (radius * Z.of_nat p)%Z).
    { pose proof (radius_fits radius (Z.of_nat p) (Z.of_nat (ncols B)) Hr0 ltac:(lia) ltac:(lia) Hfit). rewrite (size_of_id radius) by lia. rewrite size_of_id by lia. rewrite int_of_id by lia. reflexivity. }
    rewrite ESW in *. set (sw := (radius * Z.of_nat p)%Z) in *.
    destruct (table_inv _ _ _ _ _ _ _ _ Hd) as [slides HT].
    set (V := fun i s => nth s (fst (nth i rows ([], []))) 0).
    assert (SL : forall i, (i <= n)%nat -> slides i = offsets (Z.max 0 (idx_at idx i - sw)) (Z.min (idx_at idx i + sw) (Z.of_nat (ncols B) - 1))).
    { intros i Hin. destruct (HT i ltac:(lia)) as (E & _). pose proof (Hidx i ltac:(lia)) as Q. unfold row_slides in E.
      rewrite int_of_id in E by lia. unfold fits_int in E. replace (_ && _) with true in E by lia.
      rewrite slide_loop_closed in E by lia. injection E as E. symmetry. exact E. }
    assert (IS : forall i, (i <= n)%nat -> In (Z.to_nat (idx_at idx i)) (slides i)).
    { intros i Hin. rewrite SL by exact Hin. pose proof (Hidx i ltac:(lia)). apply in_offsets; lia. }
    assert (DG : forall s deg, nth_error (map (fun o => frames_at n0 B (Z.of_nat o) p) (seq 0 (ncols B))) s = Some deg ->
      (s < ncols B)%nat /\ deg = frames_at 0 B (Z.of_nat s) p).
    { intros s deg E. assert (s < ncols B)%nat.
      { assert (Q : nth_error (map (fun o => frames_at n0 B (Z.of_nat o) p) (seq 0 (ncols B))) s <> None) by congruence; apply nth_error_Some in Q; rewrite map_length, seq_length in Q; exact Q. }
      split; [assumption|]. rewrite nth_error_map in E. rewrite (nth_error_nth' _ 0%nat) in E by (rewrite seq_length; assumption).
      rewrite seq_nth in E by assumption. cbn in E. congruence. }
    pose proof lowest_R as LOW. assert (P60 : 0 < IZR (2 ^ 60)) by (apply IZR_lt; reflexivity).
    assert (UB : forall i, (i <= n)%nat -> forall s, V i s <= INR (S i)).
    { induction i as [|i IH]; intros Hin s; destruct (HT _ ltac:(apply le_n_S; exact Hin)) as (_ & _ & _ & _ & H5 & H6).
      - destruct (in_dec Nat.eq_dec s (slides 0%nat)) as [Hs|Hs].
        + destruct (H5 s Hs) as (deg & r & E1 & E2 & E3). apply DG in E1. destruct E1 as [E1 ->]. cbn [dp_cell] in E3. injection E3 as E3 _.
          unfold V. change (n0 : R) with 0 in E3. rewrite E3. cbn. apply (Hle 0%nat s r); [lia|exact E1|exact E2].
        + destruct (H6 s Hs) as [E _]. unfold V. change (n0 : R) with 0 in E. rewrite E. cbn. lra.
      - specialize (IH ltac:(lia)). destruct (in_dec Nat.eq_dec s (slides (S i))) as [Hs|Hs].
        + destruct (H5 s Hs) as (deg & r & E1 & E2 & E3). apply DG in E1. destruct E1 as [E1 ->].
          pose proof (Hle (S i) s r ltac:(lia) E1 E2) as SR. cbn [dp_cell] in E3.
          destruct (back_R (fst (nth i rows ([], []))) (lower_limit (idx_at idx i) sw) s) as (A & _ & _). cbv zeta in A.
          destruct (back_search _ _ _) as [hi past] eqn:EB. rewrite S_INR. pose proof (pos_INR (S i)) as PI1.
          assert (HH : hi <= INR (S i)).
          { destruct A as [A|(b & _ & A)]; apply (f_equal fst) in A; cbn [fst] in A; rewrite A; [clear - LOW P60 PI1; lra|]. apply IH. }
          change (n0 : R) with 0 in E3. cbn [nltb nadd NumR] in E3.
          destruct (Rltb_spec (ps_sim r + hi) (nth s (fst (nth i rows ([], []))) 0)) as [C|C]; injection E3 as E3 _; unfold V; rewrite E3; [|lra].
          specialize (IH s). unfold V in IH. lra.
        + destruct (H6 s Hs) as [E _]. unfold V. change (n0 : R) with 0 in E. rewrite E. apply pos_INR. }
    assert (LO : forall i, (i <= n)%nat -> INR (S i) <= V i (Z.to_nat (idx_at idx i))).
    { induction i as [|i IH]; intros Hin; pose proof (IS _ Hin) as Hs; pose proof (Hidx _ ltac:(apply (Nat.le_trans _ (S n)); [apply le_n_S; exact Hin|exact Hi])) as HX;
        destruct (HT _ ltac:(apply le_n_S; exact Hin)) as (_ & _ & _ & _ & H5 & _); destruct (H5 _ Hs) as (deg & r & E1 & E2 & E3);
        apply DG in E1; destruct E1 as [E1 ->]; rewrite Z2Nat.id in E2 by lia.
      - destruct (Hone 0%nat ltac:(lia) ltac:(lia)) as (r' & R1 & R2). rewrite R1 in E2. injection E2 as <-.
        cbn [dp_cell] in E3. injection E3 as E3 _. unfold V. change (n0 : R) with 0 in E3. rewrite E3. cbn. lra.
      - destruct (Hone (S i) ltac:(lia) ltac:(lia)) as (r' & R1 & R2). rewrite R1 in E2. injection E2 as <-.
        specialize (IH ltac:(lia)). cbn [dp_cell] in E3. set (s := Z.to_nat (idx_at idx (S i))) in *.
        destruct (back_R (fst (nth i rows ([], []))) (lower_limit (idx_at idx i) sw) s) as (_ & A & _). cbv zeta in A.
        destruct (back_search _ _ _) as [hi past] eqn:EB. cbn [fst] in A. rewrite (S_INR (S i)).
        pose proof (Hidx i ltac:(lia)) as HX'. pose proof (Hinc i ltac:(lia)) as HY.
        assert (HH : V i (Z.to_nat (idx_at idx i)) <= hi).
        { apply A. unfold lower_limit. destruct (Z_lt_le_dec (idx_at idx i - sw) 0) as [C|C].
          - replace (int_of (size_of (idx_at idx i - sw))) with (idx_at idx i - sw)%Z; [unfold s; lia|].
            symmetry. apply wrap_id. lia.
          - rewrite size_of_id, int_of_id by lia. unfold s. lia. }
        change (n0 : R) with 0 in E3. cbn [nltb nadd NumR] in E3. rewrite R2 in E3.
        destruct (Rltb_spec (1 + hi) (nth s (fst (nth i rows ([], []))) 0)) as [C|C]; injection E3 as E3 _; unfold V; rewrite E3; lra. }
    assert (STEP : forall i s, (S i <= n)%nat -> V (S i) s = INR (S (S i)) ->
      exists b, nth s (rows_bt rows (S i)) 0%Z = Z.of_nat b /\ (b < s)%nat /\ V i b = INR (S i) /\ (s < ncols B)%nat /\
        forall r, measure (ref_at refs (S i)) (frames_at 0 B (Z.of_nat s) p) = Ret r -> ps_sim r = 1).
    { intros i s Hin E. destruct (HT _ ltac:(apply le_n_S; exact Hin)) as (_ & _ & _ & _ & H5 & H6). pose proof (pos_INR (S i)) as PI1. rewrite (S_INR (S i)) in E.
      destruct (in_dec Nat.eq_dec s (slides (S i))) as [Hs|Hs].
      2:{ exfalso. destruct (H6 s Hs) as [Q _]. unfold V in E. change (n0 : R) with 0 in Q. rewrite Q in E. lra. }
      destruct (H5 s Hs) as (deg & r & E1 & E2 & E3). apply DG in E1. destruct E1 as [E1 ->]. cbn [dp_cell] in E3.
      pose proof (Hle (S i) s r ltac:(lia) E1 E2) as SR. pose proof (UB i ltac:(lia)) as UBi.
      destruct (back_R (fst (nth i rows ([], []))) (lower_limit (idx_at idx i) sw) s) as (A & _ & _). cbv zeta in A.
      destruct (back_search _ _ _) as [hi past] eqn:EB.
      assert (HH : hi <= INR (S i)).
      { destruct A as [A|(b & _ & A)]; apply (f_equal fst) in A; cbn [fst] in A; rewrite A; [clear - LOW P60 PI1; lra|]. apply UBi. }
      change (n0 : R) with 0 in E3. cbn [nltb nadd NumR] in E3.
      destruct (Rltb_spec (ps_sim r + hi) (nth s (fst (nth i rows ([], []))) 0)) as [C|C]; injection E3 as E3 E4; unfold V in E; rewrite E3 in E.
      { specialize (UBi s). unfold V in UBi. lra. }
      destruct A as [A|(b & Hb' & A)]; [apply (f_equal fst) in A; cbn [fst] in A; rewrite A in E; lra|]. injection A as -> ->. exists b. rewrite E4. split; [reflexivity|]. split; [lia|].
      split; [unfold V; specialize (UBi b); unfold V in UBi; lra|]. split; [exact E1|].
      intros r' R'. rewrite E2 in R'. injection R' as <-. specialize (UBi b). unfold V in UBi. lra. }
    assert (FIRST : forall s, V 0%nat s = 1 -> nth s (rows_bt rows 0) 0%Z = (-1)%Z /\ (s < ncols B)%nat /\
        forall r, measure (ref_at refs 0) (frames_at 0 B (Z.of_nat s) p) = Ret r -> ps_sim r = 1).
    { intros s E. destruct (HT 0%nat ltac:(lia)) as (_ & _ & _ & _ & H5 & H6). destruct (in_dec Nat.eq_dec s (slides 0%nat)) as [Hs|Hs].
      2:{ exfalso. destruct (H6 s Hs) as [Q _]. unfold V in E. change (n0 : R) with 0 in Q. rewrite Q in E. lra. }
      destruct (H5 s Hs) as (deg & r & E1 & E2 & E3). apply DG in E1. destruct E1 as [E1 ->]. cbn [dp_cell] in E3. injection E3 as E3 E4.
      split; [exact E4|]. split; [exact E1|]. intros r' R'. rewrite E2 in R'. injection R' as <-. unfold V in E. change (n0 : R) with 0 in E3. lra. }
    assert (LAST : exists s, last = Z.of_nat s /\ V n s = INR (S n)).
    { unfold final_scan in Hf. pose proof (Hidx n ltac:(lia)) as HX. destruct (HT n ltac:(lia)) as (_ & LL & _).
      replace (Z.max 0 (int_of (size_of (idx_at idx n - sw)))) with (Z.max 0 (idx_at idx n - sw)) in Hf.
      2:{ rewrite wrap_id by lia. reflexivity. }
      rewrite (size_of_id sw) in Hf by lia. rewrite size_of_id in Hf by lia. rewrite LL in Hf.
      rewrite slide_loop_closed in Hf by lia.
      destruct (scan_R (fst (nth n rows ([], []))) (offsets (Z.max 0 (Z.max 0 (idx_at idx n - sw))) (Z.min (idx_at idx n + sw) (Z.of_nat (ncols B) - 1)))) as [A C].
      cbv zeta in A, C. destruct (snd (fold_left _ _ _)) as [o|] eqn:EO; [|discriminate]. injection Hf as <-.
      destruct (C o eq_refl) as (s & Hs & -> & ES). exists s. split; [reflexivity|].
      specialize (A (Z.to_nat (idx_at idx n))). assert (INo : V n (Z.to_nat (idx_at idx n)) <= V n s).
      { unfold V. rewrite <- ES. apply A. apply in_offsets; lia. }
      pose proof (LO n (le_n n)). pose proof (UB n (le_n n) s). lra. }
    destruct (backtrack_inv _ _ _ _ _ _ _ _ _ _ _ Hb) as (rs & E & Lr & HI). rewrite app_nil_r in E. subst l.
    destruct LAST as (sl & -> & VL).
    assert (TR : forall k, (k <= n)%nat -> exists s, tr (rows_bt rows) n (Z.of_nat sl) (n - k) = Z.of_nat s /\ V (n - k)%nat s = INR (S (n - k))).
    { induction k as [|k IH]; intros Hk; [rewrite Nat.sub_0_r, tr_same; eauto|].
      destruct (IH ltac:(lia)) as (s & T1 & T2). replace (n - k)%nat with (S (n - S k)) in T1, T2 by lia.
      destruct (STEP (n - S k)%nat s ltac:(lia) T2) as (b & B1 & B2 & B3 & _). exists b. split; [|exact B3].
      rewrite (tr_step measure (ref_at refs) (idx_at idx) (rows_bt rows) n (Z.of_nat sl) (n - S k)) by (clear - Hk; lia). rewrite T1, Nat2Z.id. exact B1. }
    intros i x Hx. assert (Hin : (i <= n)%nat) by (apply Nat.lt_succ_r; rewrite <- Lr; apply nth_error_Some; congruence).
    destruct (HI i Hin) as [_ (deg & r & H1 & H2 & H3)]. rewrite H3 in Hx. injection Hx as <-.
    split; [lia|]. destruct (TR (n - i)%nat ltac:(lia)) as (s & T1 & T2). replace (n - (n - i))%nat with i in T1, T2 by lia.
    assert (REFi : nrows (ref_at refs i) = nrows B /\ ncols (ref_at refs i) = p) by (apply (sh_ref _ _ _ Sh); apply nth_In; lia).
    assert (FACTS : (s < ncols B)%nat /\ nth s (rows_bt rows i) 0%Z <> Z.of_nat s /\
      (forall r, measure (ref_at refs i) (frames_at 0 B (Z.of_nat s) p) = Ret r -> ps_sim r = 1)).
    { destruct i as [|i]; [destruct (FIRST s T2) as (F1 & F2 & F3); rewrite F1; repeat split; [exact F2|lia|exact F3]|].
      destruct (STEP i s Hin T2) as (b & B1 & B2 & _ & B4 & B5). rewrite B1. repeat split; [exact B4|lia|exact B5]. }
    destruct FACTS as (F1 & F2 & F3). rewrite T1 in H1, H3 |- *.
    rewrite degraded_at_spec in H1; [|lia..]. injection H1 as <-. rewrite (proj2 REFi) in H2.
    exists s, r. split; [exact F1|]. split; [exact H2|]. split; [apply F3; exact H2|]. f_equal.
    unfold lost_at. rewrite T1, Nat2Z.id. lia.
  Qed.
End D.
