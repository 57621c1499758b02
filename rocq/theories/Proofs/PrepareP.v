(** Proofs about the preparation of spectrograms (C41). *)
From Coq Require Import ZArith List Bool Reals Lra Lia Arith.
From Verif Require Import Base.Res Base.Num Base.NumR Base.Lists Base.Mat Model.Amatrix Model.MiscMath
  Model.Spectrogram Spec.StatSpec Proofs.RealP.
Import ListNotations.
Open Scope R_scope.

Definition same_shape {A B} (M : mat A) (P : mat B) : Prop := nrows M = nrows P /\ ncols M = ncols P.

Lemma max_elem_ret (l : list R) : l <> [] -> exists m, max_elem l = Ret m.
Proof. destruct l; [contradiction|]. eexists; reflexivity. Qed.
Lemma min_elem_ret (l : list R) : l <> [] -> exists m, min_elem l = Ret m.
Proof. destruct l; [contradiction|]. eexists; reflexivity. Qed.

Lemma in_col_list (M : mat R) c x : In x (col_list M c) <-> exists r, (r < nrows M)%nat /\ x = at_ M r c.
Proof.
  unfold col_list. rewrite in_map_iff. split.
  - intros (r & <- & Hr). apply in_seq in Hr. exists r. split; [lia|reflexivity].
  - intros (r & Hr & ->). exists r. split; [reflexivity|]. apply in_seq. lia.
Qed.

(** the loudest entry of frame c in either matrix *)
Definition frame_peak (A B : mat R) (c : nat) (m : R) : Prop :=
  (exists r, (r < nrows A)%nat /\ m = at_ A r c \/ (r < nrows B)%nat /\ m = at_ B r c) /\
  (forall r, (r < nrows A)%nat -> at_ A r c <= m) /\ (forall r, (r < nrows B)%nat -> at_ B r c <= m).

Lemma set_col_spec (M : mat R) c v : (c < ncols M)%nat -> length v = nrows M ->
  exists M', m_set_col M (Z.of_nat c) v = Ret M' /\ wf M' /\ same_shape M M' /\
    forall r j, (r < nrows M)%nat -> (j < ncols M)%nat ->
      at_ M' r j = if Nat.eqb j c then nth r v 0 else at_ M r j.
Proof.
  intros Hc Hv. unfold m_set_col.
  replace ((0 <=? Z.of_nat c)%Z && (Z.of_nat c <? Z.of_nat (ncols M))%Z && Nat.eqb (length v) (nrows M)) with true.
  - eexists. split; [reflexivity|]. split; [apply tab_wf|]. split; [split; reflexivity|].
    intros r j Hr Hj. unfold at_ at 1. rewrite mget_tab by assumption. rewrite Nat2Z.id. reflexivity.
  - symmetry. rewrite !andb_true_iff. rewrite Z.leb_le, Z.ltb_lt, Nat.eqb_eq. lia.
Qed.

Lemma raise_frame_spec thr (A B : mat R) c :
  (0 < nrows A)%nat -> (0 < nrows B)%nat -> (c < ncols A)%nat -> (c < ncols B)%nat ->
  exists A' B' m, raise_frame thr (A, B) c = Ret (A', B') /\ wf A' /\ wf B' /\
    same_shape A A' /\ same_shape B B' /\ frame_peak A B c m /\
    (forall r j, (r < nrows A)%nat -> (j < ncols A)%nat ->
       at_ A' r j = if Nat.eqb j c then Rmax (m - thr) (at_ A r j) else at_ A r j) /\
    (forall r j, (r < nrows B)%nat -> (j < ncols B)%nat ->
       at_ B' r j = if Nat.eqb j c then Rmax (m - thr) (at_ B r j) else at_ B r j).
Proof.
  intros HA HB CA CB. unfold raise_frame.
  assert (NE : forall M : mat R, (0 < nrows M)%nat -> col_list M c <> []).
  { intros M H E. apply (f_equal (@length R)) in E. unfold col_list in E.
    rewrite map_length, seq_length in E. cbn in E. lia. }
  destruct (max_elem_ret _ (NE A HA)) as (ma & Ea). destruct (max_elem_ret _ (NE B HB)) as (mb & Eb).
  rewrite Ea, Eb. cbn [bind]. rewrite nmax_Rmax. cbn [nsub NumR].
  set (fl := Rmax ma mb - thr).
  destruct (set_col_spec A c (map (nmax fl) (col_list A c)) CA) as (A' & E1 & W1 & S1 & G1).
  { unfold col_list. rewrite !map_length, seq_length. reflexivity. }
  destruct (set_col_spec B c (map (nmax fl) (col_list B c)) CB) as (B' & E2 & W2 & S2 & G2).
  { unfold col_list. rewrite !map_length, seq_length. reflexivity. }
  rewrite E1, E2. cbn [bind]. exists A', B', (Rmax ma mb).
  destruct (max_elem_spec _ _ Ea) as [Ia La]. destruct (max_elem_spec _ _ Eb) as [Ib Lb].
  split; [reflexivity|]. split; [exact W1|]. split; [exact W2|]. split; [exact S1|]. split; [exact S2|].
  split.
  { split; [|split].
    - unfold Rmax. destruct (Rle_dec ma mb).
      + apply in_col_list in Ib. destruct Ib as (r0 & Hr & E). exists r0. right. auto.
      + apply in_col_list in Ia. destruct Ia as (r0 & Hr & E). exists r0. left. auto.
    - intros r Hr. apply Rle_trans with ma; [|apply Rmax_l]. apply La, in_col_list. eauto.
    - intros r Hr. apply Rle_trans with mb; [|apply Rmax_r]. apply Lb, in_col_list. eauto. }
  assert (NT : forall (M : mat R) r, (r < nrows M)%nat -> nth r (map (nmax fl) (col_list M c)) 0 = Rmax fl (at_ M r c)).
  { intros M r Hr. rewrite nth_indep with (d' := nmax fl 0)
      by (unfold col_list; rewrite !map_length, seq_length; assumption).
    rewrite map_nth, nmax_Rmax. f_equal. unfold col_list. rewrite nth_map_seq by assumption. reflexivity. }
  split.
  - intros r j Hr Hj. rewrite G1 by assumption. destruct (Nat.eqb_spec j c) as [->|]; [|reflexivity].
    apply NT; assumption.
  - intros r j Hr Hj. rewrite G2 by assumption. destruct (Nat.eqb_spec j c) as [->|]; [|reflexivity].
    apply NT; assumption.
Qed.

Lemma frame_peak_ext A B A' B' c m :
  same_shape A A' -> same_shape B B' ->
  (forall r, (r < nrows A)%nat -> at_ A' r c = at_ A r c) ->
  (forall r, (r < nrows B)%nat -> at_ B' r c = at_ B r c) ->
  frame_peak A' B' c m -> frame_peak A B c m.
Proof.
  intros [SA _] [SB _] EA EB ((r & H) & H1 & H2). rewrite <- SA in *. rewrite <- SB in *. split; [|split].
  - exists r. destruct H as [[H E]|[H E]]; [left|right]; (split; [exact H|]).
    + rewrite <- EA by assumption; exact E.
    + rewrite <- EB by assumption; exact E.
  - intros r' Hr. rewrite <- EA by assumption. auto.
  - intros r' Hr. rewrite <- EB by assumption. auto.
Qed.

Lemma raise_frames_spec thr is : forall (A B : mat R),
  wf A -> wf B -> (0 < nrows A)%nat -> (0 < nrows B)%nat -> NoDup is ->
  (forall c, In c is -> (c < ncols A)%nat /\ (c < ncols B)%nat) ->
  exists A' B' (m : nat -> R), raise_frames thr (A, B) is = Ret (A', B') /\ wf A' /\ wf B' /\
    same_shape A A' /\ same_shape B B' /\
    (forall c, In c is -> frame_peak A B c (m c)) /\
    (forall r j, (r < nrows A)%nat -> (j < ncols A)%nat ->
       at_ A' r j = if in_dec Nat.eq_dec j is then Rmax (m j - thr) (at_ A r j) else at_ A r j) /\
    (forall r j, (r < nrows B)%nat -> (j < ncols B)%nat ->
       at_ B' r j = if in_dec Nat.eq_dec j is then Rmax (m j - thr) (at_ B r j) else at_ B r j).
Proof.
  induction is as [|c is IH]; intros A B WA WB HA HB ND HC.
  - exists A, B, (fun _ => 0). split; [reflexivity|].
    split; [assumption|]. split; [assumption|]. split; [split; reflexivity|]. split; [split; reflexivity|].
    split; [intros c []|]. split; intros; reflexivity.
  - inversion ND as [|? ? Hnot ND']; subst.
    destruct (HC c (or_introl eq_refl)) as [C1 C2].
    destruct (raise_frame_spec thr A B c HA HB C1 C2) as (A1 & B1 & m & E & W1 & W2 & S1 & S2 & FP & GA & GB).
    pose proof S1 as [S1r S1c]. pose proof S2 as [S2r S2c].
    destruct (IH A1 B1 W1 W2) as (A2 & B2 & ms & E2 & X1 & X2 & T1 & T2 & FPs & GA2 & GB2).
    { rewrite <- S1r; assumption. } { rewrite <- S2r; assumption. } { exact ND'. }
    { intros c' Hc'. rewrite <- S1c, <- S2c. apply HC. right; assumption. }
    pose proof T1 as [T1r T1c]. pose proof T2 as [T2r T2c].
    exists A2, B2, (fun j => if Nat.eqb j c then m else ms j).
    cbn [raise_frames]. rewrite E. cbn [bind].
    split; [exact E2|]. split; [exact X1|]. split; [exact X2|].
    split; [split; congruence|]. split; [split; congruence|].
    split; [|split].
    + intros c' [<-|Hc']; [rewrite Nat.eqb_refl; exact FP|].
      destruct (Nat.eqb_spec c' c) as [->|Hne]; [contradiction|].
      specialize (FPs c' Hc'). apply (frame_peak_ext A B A1 B1); auto.
      * intros r Hr. rewrite GA by (auto; apply HC; right; assumption).
        apply Nat.eqb_neq in Hne. rewrite Hne. reflexivity.
      * intros r Hr. rewrite GB by (auto; apply HC; right; assumption).
        apply Nat.eqb_neq in Hne. rewrite Hne. reflexivity.
    + intros r j Hr Hj. rewrite GA2 by (rewrite <- ?S1r, <- ?S1c; assumption).
      destruct (Nat.eqb_spec j c) as [->|Hne].
      * destruct (in_dec Nat.eq_dec c is) as [Hin|_]; [contradiction|].
        destruct (in_dec Nat.eq_dec c (c :: is)) as [_|F]; [|exfalso; apply F; left; reflexivity].
        rewrite GA by assumption. rewrite Nat.eqb_refl. reflexivity.
      * rewrite GA by assumption. replace (Nat.eqb j c) with false by (symmetry; apply Nat.eqb_neq; assumption).
        destruct (in_dec Nat.eq_dec j is) as [Hin|Hnin];
          destruct (in_dec Nat.eq_dec j (c :: is)) as [Hin'|Hnin']; try reflexivity.
        -- exfalso; apply Hnin'; right; assumption.
        -- exfalso. destruct Hin' as [->|]; auto.
    + intros r j Hr Hj. rewrite GB2 by (rewrite <- ?S2r, <- ?S2c; assumption).
      destruct (Nat.eqb_spec j c) as [->|Hne].
      * destruct (in_dec Nat.eq_dec c is) as [Hin|_]; [contradiction|].
        destruct (in_dec Nat.eq_dec c (c :: is)) as [_|F]; [|exfalso; apply F; left; reflexivity].
        rewrite GB by assumption. rewrite Nat.eqb_refl. reflexivity.
      * rewrite GB by assumption. replace (Nat.eqb j c) with false by (symmetry; apply Nat.eqb_neq; assumption).
        destruct (in_dec Nat.eq_dec j is) as [Hin|Hnin];
          destruct (in_dec Nat.eq_dec j (c :: is)) as [Hin'|Hnin']; try reflexivity.
        -- exfalso; apply Hnin'; right; assumption.
        -- exfalso. destruct Hin' as [->|]; auto.
Qed.

Lemma convert_level x : convert_sample_to_db x = level x.
Proof.
  unfold convert_sample_to_db, level. cbn [neqb nabs nmul nofZ mlog10 NumR LibmR].
  change (@n0 R NumR) with 0. unfold Reqb.
  destruct (Req_EM_T (Rabs x) 0) as [E|E], (Req_EM_T x 0) as [F|F].
  - f_equal. f_equal. f_equal. unfold dbl_epsilon. cbn [ndiv nofZ NumR].
    change (2 ^ 52)%Z with 4503599627370496%Z. replace (2 ^ 52) with 4503599627370496 by lra. lra.
  - exfalso. apply F. destruct (Rcase_abs x); [rewrite Rabs_left in E|rewrite Rabs_right in E]; lra.
  - exfalso. apply E. rewrite F. apply Rabs_R0.
  - reflexivity.
Qed.

Lemma ln10_pos : 0 < ln 10.
Proof. rewrite <- ln_1. apply ln_increasing; lra. Qed.

Lemma level_mono x y : x <> 0 -> Rabs x <= Rabs y -> level x <= level y.
Proof.
  intros Hx H. unfold level. pose proof ln10_pos.
  assert (0 < Rabs x) by (apply Rabs_pos_lt; assumption).
  destruct (Req_EM_T x 0); [contradiction|].
  destruct (Req_EM_T y 0) as [->|]; [rewrite Rabs_R0 in H; lra|].
  apply Rmult_le_compat_l; [lra|]. unfold Rdiv. apply Rmult_le_compat_r.
  - left; apply Rinv_0_lt_compat; assumption.
  - destruct H; [left; apply ln_increasing; assumption|rewrite H; right; reflexivity].
Qed.

Lemma in_elems_at (M : mat R) x : wf M ->
  (In x (elems M) <-> exists r c, (r < nrows M)%nat /\ (c < ncols M)%nat /\ x = at_ M r c).
Proof.
  intros W. split.
  - intros H. destruct (In_nth _ _ 0 H) as (i & Hi & <-). rewrite W in Hi.
    assert (0 < nrows M)%nat by (destruct (nrows M); lia).
    exists (i mod nrows M)%nat, (i / nrows M)%nat.
    split; [apply Nat.mod_upper_bound; lia|]. split; [apply Nat.div_lt_upper_bound; lia|].
    unfold at_, mget. f_equal. rewrite Nat.mul_comm. apply Nat.div_mod. lia.
  - intros (r & c & Hr & Hc & ->). unfold at_, mget. apply nth_In. rewrite W. nia.
Qed.

(** the raised level of an entry before the common floor is subtracted *)
Lemma prepare_spec (A B : mat R) :
  wf A -> wf B -> (0 < nrows A)%nat -> (0 < nrows B)%nat -> (0 < ncols A)%nat -> (0 < ncols B)%nat ->
  exists A' B' (fl : nat -> R) low,
    prepare_spectrograms A B = Ret (A', B') /\ wf A' /\ wf B' /\ same_shape A A' /\ same_shape B B' /\
    (forall c, (c < Nat.min (ncols A) (ncols B))%nat -> exists peak, fl c = peak - 45 /\
       (forall r, (r < nrows A)%nat -> Rmax (-45) (level (at_ A r c)) <= peak) /\
       (forall r, (r < nrows B)%nat -> Rmax (-45) (level (at_ B r c)) <= peak) /\
       (exists r, (r < nrows A)%nat /\ peak = Rmax (-45) (level (at_ A r c)) \/
                  (r < nrows B)%nat /\ peak = Rmax (-45) (level (at_ B r c)))) /\
    (forall c, (Nat.min (ncols A) (ncols B) <= c)%nat -> fl c = -45) /\
    (forall r c, (r < nrows A)%nat -> (c < ncols A)%nat ->
       at_ A' r c = Rmax (fl c) (Rmax (-45) (level (at_ A r c))) - low) /\
    (forall r c, (r < nrows B)%nat -> (c < ncols B)%nat ->
       at_ B' r c = Rmax (fl c) (Rmax (-45) (level (at_ B r c))) - low) /\
    (forall r c, (r < nrows A)%nat -> (c < ncols A)%nat -> 0 <= at_ A' r c) /\
    (forall r c, (r < nrows B)%nat -> (c < ncols B)%nat -> 0 <= at_ B' r c) /\
    (exists r c, (r < nrows A)%nat /\ (c < ncols A)%nat /\ at_ A' r c = 0 \/
                 (r < nrows B)%nat /\ (c < ncols B)%nat /\ at_ B' r c = 0).
Proof.
  intros WA WB HA HB CA CB. unfold prepare_spectrograms.
  set (A0 := raise_floor kNoiseFloorAbsoluteDb (to_db A)).
  set (B0 := raise_floor kNoiseFloorAbsoluteDb (to_db B)).
  assert (WA0 : wf A0) by (apply mmap_wf, mmap_wf; assumption).
  assert (WB0 : wf B0) by (apply mmap_wf, mmap_wf; assumption).
  assert (GA0 : forall r c, (r < nrows A)%nat -> (c < ncols A)%nat -> at_ A0 r c = Rmax (-45) (level (at_ A r c))).
  { intros r c Hr Hc. unfold A0, raise_floor, to_db, at_.
    rewrite (mget_mmap n0) by (auto using mmap_wf). rewrite (mget_mmap n0) by auto.
    rewrite nmax_Rmax, convert_level. reflexivity. }
  assert (GB0 : forall r c, (r < nrows B)%nat -> (c < ncols B)%nat -> at_ B0 r c = Rmax (-45) (level (at_ B r c))).
  { intros r c Hr Hc. unfold B0, raise_floor, to_db, at_.
    rewrite (mget_mmap n0) by (auto using mmap_wf). rewrite (mget_mmap n0) by auto.
    rewrite nmax_Rmax, convert_level. reflexivity. }
  assert (SA0 : nrows A0 = nrows A /\ ncols A0 = ncols A) by (split; reflexivity).
  assert (SB0 : nrows B0 = nrows B /\ ncols B0 = ncols B) by (split; reflexivity).
  clearbody A0 B0. destruct SA0 as [RA0 LA0], SB0 as [RB0 LB0].
  unfold raise_floor_per_frame. rewrite LA0, LB0.
  set (is := seq 0 (Nat.min (ncols A) (ncols B))).
  destruct (raise_frames_spec kNoiseFloorRelativeToPeakDb is A0 B0 WA0 WB0)
    as (A1 & B1 & m & E & W1 & W2 & [S1r S1c] & [S2r S2c] & FP & GA & GB).
  { lia. } { lia. } { apply seq_NoDup. } { intros c Hc. apply in_seq in Hc. lia. }
  rewrite E. cbn [bind].
  assert (NE : forall M : mat R, wf M -> (0 < nrows M)%nat -> (0 < ncols M)%nat -> elems M <> []).
  { intros M W H1 H2 EE. unfold wf in W. rewrite EE in W. cbn in W. nia. }
  unfold spec_min.
  destruct (min_elem_ret _ (NE A1 W1 ltac:(lia) ltac:(lia))) as (la & Ela).
  destruct (min_elem_ret _ (NE B1 W2 ltac:(lia) ltac:(lia))) as (lb & Elb).
  rewrite Ela, Elb. cbn [bind]. rewrite nmin_Rmin.
  destruct (min_elem_spec _ _ Ela) as [Ia Ma]. destruct (min_elem_spec _ _ Elb) as [Ib Mb].
  set (low := Rmin la lb).
  assert (GS1 : forall r c, (r < nrows A)%nat -> (c < ncols A)%nat ->
             at_ (subtract_floor low A1) r c = at_ A1 r c - low).
  { intros r c Hr Hc. unfold subtract_floor, at_. rewrite (mget_mmap n0) by (auto; lia). reflexivity. }
  assert (GS2 : forall r c, (r < nrows B)%nat -> (c < ncols B)%nat ->
             at_ (subtract_floor low B1) r c = at_ B1 r c - low).
  { intros r c Hr Hc. unfold subtract_floor, at_. rewrite (mget_mmap n0) by (auto; lia). reflexivity. }
  assert (low_A : forall r c, (r < nrows A)%nat -> (c < ncols A)%nat -> low <= at_ A1 r c).
  { intros r c Hr Hc. apply Rle_trans with la; [apply Rmin_l|]. apply Ma, in_elems_at; [exact W1|].
    exists r, c. split; [lia|]. split; [lia|reflexivity]. }
  assert (low_B : forall r c, (r < nrows B)%nat -> (c < ncols B)%nat -> low <= at_ B1 r c).
  { intros r c Hr Hc. apply Rle_trans with lb; [apply Rmin_r|]. apply Mb, in_elems_at; [exact W2|].
    exists r, c. split; [lia|]. split; [lia|reflexivity]. }
  set (fl := fun c => if in_dec Nat.eq_dec c is then m c - 45 else -45).
  assert (FA : forall r c, (r < nrows A)%nat -> (c < ncols A)%nat ->
      at_ A1 r c = Rmax (fl c) (Rmax (-45) (level (at_ A r c)))).
  { intros r c Hr Hc. rewrite GA by lia. rewrite GA0 by assumption. unfold fl.
    destruct (in_dec Nat.eq_dec c is); [reflexivity|].
    rewrite (Rmax_right (-45) (Rmax _ _)); [reflexivity|apply Rmax_l]. }
  assert (FB : forall r c, (r < nrows B)%nat -> (c < ncols B)%nat ->
      at_ B1 r c = Rmax (fl c) (Rmax (-45) (level (at_ B r c)))).
  { intros r c Hr Hc. rewrite GB by lia. rewrite GB0 by assumption. unfold fl.
    destruct (in_dec Nat.eq_dec c is); [reflexivity|].
    rewrite (Rmax_right (-45) (Rmax _ _)); [reflexivity|apply Rmax_l]. }
  exists (subtract_floor low A1), (subtract_floor low B1), fl, low.
  split; [reflexivity|]. split; [apply mmap_wf; assumption|]. split; [apply mmap_wf; assumption|].
  split; [split; cbn; congruence|]. split; [split; cbn; congruence|].
  split.
  { intros c Hc. assert (Hin : In c is) by (apply in_seq; lia).
    exists (m c). split; [unfold fl; destruct (in_dec Nat.eq_dec c is); [reflexivity|contradiction]|].
    destruct (FP c Hin) as ((r & H) & H1 & H2). rewrite RA0 in H1, H. rewrite RB0 in H2, H.
    split; [intros r' Hr'; rewrite <- GA0 by lia; auto|].
    split; [intros r' Hr'; rewrite <- GB0 by lia; auto|].
    exists r. destruct H as [[H EE]|[H EE]]; [left|right]; (split; [exact H|]).
    - rewrite <- GA0 by lia. exact EE.
    - rewrite <- GB0 by lia. exact EE. }
  split.
  { intros c Hc. unfold fl. destruct (in_dec Nat.eq_dec c is) as [Hin|]; [|reflexivity].
    apply in_seq in Hin. lia. }
  split; [intros; rewrite GS1, FA by assumption; reflexivity|].
  split; [intros; rewrite GS2, FB by assumption; reflexivity|].
  split; [intros r c Hr Hc; rewrite GS1 by assumption; specialize (low_A r c Hr Hc); lra|].
  split; [intros r c Hr Hc; rewrite GS2 by assumption; specialize (low_B r c Hr Hc); lra|].
  unfold low, Rmin in *. destruct (Rle_dec la lb).
  - apply in_elems_at in Ia; [|exact W1]. destruct Ia as (r0 & c0 & Hr & Hc & EE).
    exists r0, c0. left. split; [lia|]. split; [lia|]. rewrite GS1 by lia. lra.
  - apply in_elems_at in Ib; [|exact W2]. destruct Ib as (r0 & c0 & Hr & Hc & EE).
    exists r0, c0. right. split; [lia|]. split; [lia|]. rewrite GS2 by lia. lra.
Qed.

(** consequences in the words of the property *)
Lemma prepare_properties (A B : mat R) :
  wf A -> wf B -> (0 < nrows A)%nat -> (0 < nrows B)%nat -> (0 < ncols A)%nat -> (0 < ncols B)%nat ->
  exists A' B',
    prepare_spectrograms A B = Ret (A', B') /\ wf A' /\ wf B' /\
    (nrows A' = nrows A /\ ncols A' = ncols A /\ nrows B' = nrows B /\ ncols B' = ncols B) /\
    (forall r c, (r < nrows A)%nat -> (c < ncols A)%nat -> 0 <= at_ A' r c) /\
    (forall r c, (r < nrows B)%nat -> (c < ncols B)%nat -> 0 <= at_ B' r c) /\
    (exists r c, (r < nrows A)%nat /\ (c < ncols A)%nat /\ at_ A' r c = 0 \/
                 (r < nrows B)%nat /\ (c < ncols B)%nat /\ at_ B' r c = 0) /\
    (forall c, (c < ncols A)%nat -> (c < ncols B)%nat ->
       forall X X' Y Y', (X = A /\ X' = A' \/ X = B /\ X' = B') -> (Y = A /\ Y' = A' \/ Y = B /\ Y' = B') ->
       forall r s, (r < nrows X)%nat -> (s < nrows Y)%nat ->
         at_ Y' s c - 45 <= at_ X' r c /\
         (level (at_ X r c) <= level (at_ Y s c) -> at_ X' r c <= at_ Y' s c)).
Proof.
  intros WA WB HA HB CA CB.
  destruct (prepare_spec A B WA WB HA HB CA CB)
    as (A' & B' & fl & low & E & WA' & WB' & [S1 S2] & [S3 S4] & HP & HO & GA & GB & NA & NB & Z).
  exists A', B'. split; [exact E|]. split; [exact WA'|]. split; [exact WB'|].
  split; [auto|]. split; [exact NA|]. split; [exact NB|]. split; [exact Z|].
  intros c Hca Hcb X X' Y Y' HX HY r s Hr Hs.
  destruct (HP c ltac:(lia)) as (peak & Efl & PA & PB & _).
  assert (GX : at_ X' r c = Rmax (fl c) (Rmax (-45) (level (at_ X r c))) - low).
  { destruct HX as [[-> ->]|[-> ->]]; auto. }
  assert (GY : at_ Y' s c = Rmax (fl c) (Rmax (-45) (level (at_ Y s c))) - low).
  { destruct HY as [[-> ->]|[-> ->]]; auto. }
  assert (PY : Rmax (-45) (level (at_ Y s c)) <= peak).
  { destruct HY as [[-> ->]|[-> ->]]; auto. }
  rewrite GX, GY, Efl. split.
  - pose proof (Rmax_l (peak - 45) (Rmax (-45) (level (at_ X r c)))).
    assert (Rmax (peak - 45) (Rmax (-45) (level (at_ Y s c))) <= peak) by (apply Rmax_lub; lra). lra.
  - intros HL. apply Rplus_le_compat_r. apply Rle_max_compat_l, Rle_max_compat_l. exact HL.
Qed.
