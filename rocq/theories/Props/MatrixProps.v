(** Properties C60, C61: the matrix class. *)
From Coq Require Import ZArith List Bool Reals Lra Lia.
From Verif Require Import Base.Res Base.Num Base.NumR Base.Lists Base.Mat Model.Amatrix Spec.StatSpec
  Proofs.MatrixP.
Import ListNotations.
Open Scope nat_scope.

(** C60: transposition. *)
Theorem C60_transpose {T} {N : Num T} (M : mat T) : wf M ->
  nrows (m_transpose M) = ncols M /\ ncols (m_transpose M) = nrows M /\ wf (m_transpose M) /\
  (forall r c, r < nrows M -> c < ncols M -> at_ (m_transpose M) c r = at_ M r c) /\
  m_transpose (m_transpose M) = M.
Proof. exact (transpose_spec M). Qed.
Print Assumptions C60_transpose.
Example C60_transpose_example : m_transpose (MkMat 2 3 [1; 2; 3; 4; 5; 6]%R) = MkMat 3 2 [1; 3; 5; 2; 4; 6]%R.
Proof. reflexivity. Qed.

(** C60: cutting a matrix in two and joining the halves. *)
Theorem C60_split_join {T} {N : Num T} (M : mat T) k : wf M -> 1 <= k < nrows M ->
  exists top bottom, m_rows M 0 (Z.of_nat k - 1) = Ret top /\
    m_rows M (Z.of_nat k) (Z.of_nat (nrows M) - 1) = Ret bottom /\
    nrows top = k /\ nrows bottom = nrows M - k /\ m_join_vert top bottom = Ret M.
Proof. exact (split_join M k). Qed.
Print Assumptions C60_split_join.
Example C60_split_join_example : wf (MkMat 3 2 [1; 2; 3; 4; 5; 6]%R) /\ 1 <= 2 < 3.
Proof. split; [reflexivity|lia]. Qed.

(** C60: joining two matrices and cutting. *)
Theorem C60_join_split {T} {N : Num T} (A B : mat T) :
  wf A -> wf B -> ncols A = ncols B -> 1 <= nrows A -> 1 <= nrows B ->
  exists M, m_join_vert A B = Ret M /\ wf M /\ nrows M = nrows A + nrows B /\
    m_rows M 0 (Z.of_nat (nrows A) - 1) = Ret A /\
    m_rows M (Z.of_nat (nrows A)) (Z.of_nat (nrows A + nrows B) - 1) = Ret B.
Proof. exact (join_split A B). Qed.
Print Assumptions C60_join_split.
Example C60_join_split_example : wf (MkMat 1 2 [1; 2]%R) /\ wf (MkMat 2 2 [1; 2; 3; 4]%R).
Proof. split; reflexivity. Qed.

(** C60: column-major order; positions outside are refused. *)
Theorem C60_order {T} {N : Num T} (M : mat T) r c : wf M -> r < nrows M -> c < ncols M ->
  exists v, m_rc M (Z.of_nat r) (Z.of_nat c) = Ret v /\ m_lin M (c * nrows M + r) = Ret v /\
    nth_error (elems M) (c * nrows M + r) = Some v.
Proof. exact (rc_lin M r c). Qed.
Print Assumptions C60_order.
Example C60_order_example : wf (MkMat 2 3 [1; 2; 3; 4; 5; 6]%R) /\ m_rc (MkMat 2 3 [1; 2; 3; 4; 5; 6]%R) 1 2 = Ret 6%R.
Proof. split; reflexivity. Qed.
Theorem C60_outside {T} {N : Num T} (M : mat T) r c :
  (r < 0 \/ Z.of_nat (nrows M) <= r \/ c < 0 \/ Z.of_nat (ncols M) <= c)%Z -> m_rc M r c = Throw.
Proof. exact (rc_out M r c). Qed.
Print Assumptions C60_outside.
Example C60_outside_example : (Z.of_nat (nrows (MkMat 2 3 [1; 2; 3; 4; 5; 6]%R)) <= 2)%Z.
Proof. cbn. lia. Qed.

(** C60: means and standard deviations per row and per column. *)
Theorem C60_statistics (M : mat R) : 0 < nrows M -> 0 < ncols M ->
  let row r := map (fun c => at_ M r c) (seq 0 (ncols M)) in
  let col c := map (fun r => at_ M r c) (seq 0 (nrows M)) in
  (forall r, r < nrows M -> at_ (m_mean_rows M) r 0 = mean (row r) /\
                            at_ (m_stddev_rows M) r 0 = stddev (row r)) /\
  (forall c, c < ncols M -> at_ (m_mean_cols M) 0 c = mean (col c) /\
                            at_ (m_stddev_cols M) 0 c = stddev (col c)).
Proof. exact (stats_spec M). Qed.
Print Assumptions C60_statistics.
Example C60_statistics_example : 0 < nrows (MkMat 2 2 [1; 2; 3; 4]%R) /\ 0 < ncols (MkMat 2 2 [1; 2; 3; 4]%R).
Proof. cbn. lia. Qed.

(** C61 fails: a 1x1 and a 1x2 matrix with different elements compare equal. *)
Theorem C61_equality_refuted : exists A B : mat R, wf A /\ wf B /\ m_eqb A B = true /\
  ncols A <> ncols B /\ at_ A 0 0 <> at_ B 0 0.
Proof. exact m_eqb_refuted. Qed.
Print Assumptions C61_equality_refuted.

(** C61: with equal column counts equality means equality. *)
Theorem C61_equality_partial (A B : mat R) : wf A -> wf B -> ncols A = ncols B -> (m_eqb A B = true <-> A = B).
Proof. exact (m_eqb_R A B). Qed.
Print Assumptions C61_equality_partial.
Example C61_example : wf (MkMat 2 1 [1; 2]%R) /\ wf (MkMat 2 1 [1; 3]%R) /\ ncols (MkMat 2 1 [1; 2]%R) = ncols (MkMat 2 1 [1; 3]%R).
Proof. repeat split. Qed.
