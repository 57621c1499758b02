(** Proofs about matrix helpers (C60, C61). *)
From Coq Require Import ZArith List Bool Reals Lra Lia Arith.
From Verif Require Import Base.Res Base.Num Base.NumR Base.Lists Base.Mat Model.Amatrix
  Spec.StatSpec Proofs.RealP Proofs.ConvP Proofs.StatP.
Import ListNotations.
Open Scope nat_scope.

Section Generic.
  Context {T : Type} {N : Num T}.

  Lemma transpose_spec (M : mat T) : wf M ->
    nrows (m_transpose M) = ncols M /\ ncols (m_transpose M) = nrows M /\ wf (m_transpose M) /\
    (forall r c, r < nrows M -> c < ncols M -> at_ (m_transpose M) c r = at_ M r c) /\
    m_transpose (m_transpose M) = M.
  Proof.
    intros W. split; [reflexivity|]. split; [reflexivity|]. split; [apply tab_wf|].
    assert (G : forall r c, r < nrows M -> c < ncols M -> at_ (m_transpose M) c r = at_ M r c).
    { intros r c Hr Hc. unfold m_transpose. rewrite at_tab by assumption. reflexivity. }
    split; [exact G|]. unfold m_transpose at 1. cbn [nrows ncols m_transpose tab].
    transitivity (tab (nrows M) (ncols M) (mget n0 M)).
    - apply (tab_ext n0). intros r c Hr Hc. rewrite G by assumption. reflexivity.
    - apply tab_mget. exact W.
  Qed.

  Lemma rows_ret (M : mat T) a b : a <= b -> b < nrows M ->
    m_rows M (Z.of_nat a) (Z.of_nat b) = Ret (tab (b - a + 1) (ncols M) (fun r c => at_ M (a + r) c)).
  Proof.
    intros H1 H2. unfold m_rows.
    replace (_ && _ && _) with true.
    - rewrite Nat2Z.id. repeat f_equal. lia.
    - symmetry. rewrite !andb_true_iff, !Z.leb_le, Z.ltb_lt. lia.
  Qed.

  Lemma join_ret (A B : mat T) : ncols A = ncols B ->
    m_join_vert A B = Ret (tab (nrows A + nrows B) (ncols A)
       (fun r c => if Nat.ltb r (nrows A) then at_ A r c else at_ B (r - nrows A) c)).
  Proof. intros E. unfold m_join_vert. rewrite E, Nat.eqb_refl. reflexivity. Qed.

  Lemma split_join (M : mat T) k : wf M -> 1 <= k < nrows M ->
    exists top bottom, m_rows M 0 (Z.of_nat k - 1) = Ret top /\
      m_rows M (Z.of_nat k) (Z.of_nat (nrows M) - 1) = Ret bottom /\
      nrows top = k /\ nrows bottom = nrows M - k /\ m_join_vert top bottom = Ret M.
  Proof.
    intros W Hk.
    replace (Z.of_nat k - 1)%Z with (Z.of_nat (k - 1)) by lia.
    replace (Z.of_nat (nrows M) - 1)%Z with (Z.of_nat (nrows M - 1)) by lia.
    change 0%Z with (Z.of_nat 0). rewrite !rows_ret by lia.
    eexists. eexists. split; [reflexivity|]. split; [reflexivity|]. cbn [nrows tab].
    split; [lia|]. split; [lia|]. rewrite join_ret by reflexivity. cbn [nrows ncols tab]. f_equal.
    replace (k - 1 - 0 + 1 + (nrows M - 1 - k + 1)) with (nrows M) by lia.
    transitivity (tab (nrows M) (ncols M) (mget n0 M)); [|apply tab_mget; exact W].
    apply (tab_ext n0). intros r c Hr Hc.
    destruct (Nat.ltb_spec r (k - 1 - 0 + 1)).
    - rewrite at_tab by lia. reflexivity.
    - rewrite at_tab by lia. unfold at_. f_equal. lia.
  Qed.

  Lemma join_split (A B : mat T) : wf A -> wf B -> ncols A = ncols B -> 1 <= nrows A -> 1 <= nrows B ->
    exists M, m_join_vert A B = Ret M /\ wf M /\ nrows M = nrows A + nrows B /\
      m_rows M 0 (Z.of_nat (nrows A) - 1) = Ret A /\
      m_rows M (Z.of_nat (nrows A)) (Z.of_nat (nrows A + nrows B) - 1) = Ret B.
  Proof.
    intros WA WB E HA HB. rewrite join_ret by exact E. eexists. split; [reflexivity|].
    split; [apply tab_wf|]. split; [reflexivity|].
    replace (Z.of_nat (nrows A) - 1)%Z with (Z.of_nat (nrows A - 1)) by lia.
    replace (Z.of_nat (nrows A + nrows B) - 1)%Z with (Z.of_nat (nrows A + nrows B - 1)) by lia.
    change 0%Z with (Z.of_nat 0). rewrite !rows_ret by (cbn [nrows tab]; lia). cbn [ncols tab]. split; f_equal.
    - replace (nrows A - 1 - 0 + 1) with (nrows A) by lia.
      transitivity (tab (nrows A) (ncols A) (mget n0 A)); [|apply tab_mget; exact WA].
      apply (tab_ext n0). intros r c Hr Hc. rewrite at_tab by lia.
      rewrite (proj2 (Nat.ltb_lt _ _)) by lia. reflexivity.
    - replace (nrows A + nrows B - 1 - nrows A + 1) with (nrows B) by lia. rewrite E.
      transitivity (tab (nrows B) (ncols B) (mget n0 B)); [|apply tab_mget; exact WB].
      apply (tab_ext n0). intros r c Hr Hc. rewrite at_tab by lia.
      rewrite (proj2 (Nat.ltb_ge _ _)) by lia. unfold at_. f_equal. lia.
  Qed.

  Lemma rc_lin (M : mat T) r c : wf M -> r < nrows M -> c < ncols M ->
    exists v, m_rc M (Z.of_nat r) (Z.of_nat c) = Ret v /\ m_lin M (c * nrows M + r) = Ret v /\
      nth_error (elems M) (c * nrows M + r) = Some v.
  Proof.
    intros W Hr Hc. exists (at_ M r c). split.
    - unfold m_rc. replace (_ && _ && _ && _) with true.
      + rewrite !Nat2Z.id. reflexivity.
      + symmetry. rewrite !andb_true_iff, !Z.leb_le, !Z.ltb_lt. lia.
    - assert (E : nth_error (elems M) (c * nrows M + r) = Some (at_ M r c)).
      { apply nth_error_nth'. rewrite W. nia. }
      split; [unfold m_lin; rewrite E; reflexivity|exact E].
  Qed.
  Lemma rc_out (M : mat T) r c :
    (r < 0 \/ Z.of_nat (nrows M) <= r \/ c < 0 \/ Z.of_nat (ncols M) <= c)%Z -> m_rc M r c = Throw.
  Proof.
    intros H. unfold m_rc. replace (_ && _ && _ && _) with false; [reflexivity|].
    symmetry. rewrite !andb_false_iff, !Z.leb_gt, !Z.ltb_ge. lia.
  Qed.
End Generic.

Open Scope R_scope.

Lemma stats_spec (M : mat R) : (0 < nrows M)%nat -> (0 < ncols M)%nat ->
  let row r := map (fun c => at_ M r c) (seq 0 (ncols M)) in
  let col c := map (fun r => at_ M r c) (seq 0 (nrows M)) in
  (forall r, (r < nrows M)%nat -> at_ (m_mean_rows M) r 0 = mean (row r) /\
                                  at_ (m_stddev_rows M) r 0 = stddev (row r)) /\
  (forall c, (c < ncols M)%nat -> at_ (m_mean_cols M) 0 c = mean (col c) /\
                                  at_ (m_stddev_cols M) 0 c = stddev (col c)).
Proof.
  intros HR HC row col. unfold m_mean_rows, m_stddev_rows, m_mean_cols, m_stddev_cols.
  replace (Nat.eqb (ncols M) 0) with false by (symmetry; apply Nat.eqb_neq; lia).
  replace (Nat.eqb (nrows M) 0) with false by (symmetry; apply Nat.eqb_neq; lia).
  split; intros i Hi; rewrite !at_tab by lia; rewrite vmean_mean, stddev_vvar; split; reflexivity.
Qed.

Lemma list_eqb_R (a b : list R) : length a = length b -> list_eqb a b = true -> a = b.
Proof.
  revert b. induction a as [|x a IH]; intros [|y b] L H; try discriminate; [reflexivity|].
  cbn [list_eqb neqb NumR] in H. destruct (Reqb x y) eqn:E; [|discriminate].
  apply Reqb_true in E. subst. f_equal. apply IH; [|exact H]. now injection L.
Qed.
Lemma list_eqb_refl (a : list R) : list_eqb a a = true.
Proof.
  induction a as [|x a IH]; [reflexivity|]. cbn [list_eqb neqb NumR].
  rewrite (proj2 (Reqb_true x x) eq_refl). exact IH.
Qed.
Lemma m_eqb_R (A B : mat R) : wf A -> wf B -> ncols A = ncols B -> (m_eqb A B = true <-> A = B).
Proof.
  intros WA WB EC. split.
  - unfold m_eqb. destruct (Nat.eqb_spec (nrows A) (nrows B)) as [ER|]; [|discriminate]. cbn [negb].
    rewrite EC, Nat.eqb_refl. cbn [negb]. intros H. apply list_eqb_R in H.
    + destruct A, B. cbn in *. congruence.
    + unfold wf in *. congruence.
  - intros <-. unfold m_eqb. rewrite !Nat.eqb_refl. apply list_eqb_refl.
Qed.
Lemma m_eqb_refuted : exists A B : mat R, wf A /\ wf B /\ m_eqb A B = true /\
  ncols A <> ncols B /\ at_ A 0 0 <> at_ B 0 0.
Proof.
  exists (MkMat 1 1 [1]), (MkMat 1 2 [2; 3]). split; [reflexivity|]. split; [reflexivity|].
  split; [reflexivity|]. split; [cbn; lia|]. cbn. lra.
Qed.
