(** Properties C102, C103: all members of the matrix class. *)
From Coq Require Import ZArith List Bool Reals Lia.
From Verif Require Import Base.Res Base.Num Base.NumR Base.Mat Model.Amatrix Spec.MatrixSpec Proofs.MatrixClassP.
Import ListNotations.
Open Scope nat_scope.

(** C102: one column; a constant matrix; data in column order, which must suffice. *)
Theorem C102_of_data {T} {N : Num T} (l : list T) nr nc (v : T) :
  holds (m_of_col l) (length l) 1 (fun r _ => nth r l n0) /\ holds (m_filled nr nc v) nr nc (fun _ _ => v) /\
  (length l < nr * nc -> m_of_data nr nc l = Ub) /\
  (nr * nc <= length l -> exists M, m_of_data nr nc l = Ret M /\ holds M nr nc (fun r c => nth (c * nr + r) l n0)).
Proof. exact (conj (of_col_holds l) (conj (tab_holds nr nc _) (of_data_cases nr nc l))). Qed.
Print Assumptions C102_of_data.
Example C102_of_data_example : m_of_data 2 2 [1; 2; 3; 4]%R = Ret (MkMat 2 2 [1; 2; 3; 4]%R) /\ @m_of_data R 2 2 [1; 2; 3]%R = Ub. Proof. split; reflexivity. Qed.
(** C102: a list of columns is taken over if all have one length; columns of different lengths throw; no column is undefined. *)
Theorem C102_of_columns {T} {N : Num T} (cs : list (list T)) :
  match m_of_cols cs with
  | Ret M => cs <> [] /\ (forall c, In c cs -> length c = nrows M) /\ holds M (nrows M) (length cs) (fun r c => nth r (nth c cs []) n0)
  | Throw => exists a b, In a cs /\ In b cs /\ length a <> length b
  | Ub => cs = []
  | Err _ => False
  end.
Proof. exact (of_cols_cases cs). Qed.
Print Assumptions C102_of_columns.
Example C102_of_columns_example : m_of_cols [[1; 2]; [3; 4]]%R = Ret (MkMat 2 2 [1; 2; 3; 4]%R) /\ m_of_cols [[1; 2]; [3]]%R = Throw. Proof. split; reflexivity. Qed.
(** C102: access by one index; only the non-const form is unchecked, and an assignment changes one element. *)
Theorem C102_linear_access {T} {N : Num T} (M : mat T) i :
  (i < length (elems M) -> m_lin M i = Ret (nth i (elems M) n0) /\ m_lin_mut M i = Ret (nth i (elems M) n0) /\
     forall v, exists M', m_lin_set M i v = Ret M' /\ nrows M' = nrows M /\ ncols M' = ncols M /\ elems M' = firstn i (elems M) ++ v :: skipn (S i) (elems M)) /\
  (length (elems M) <= i -> m_lin M i = Throw /\ m_lin_mut M i = Ub /\ forall v, m_lin_set M i v = Ub).
Proof. exact (lin_cases M i). Qed.
Print Assumptions C102_linear_access.
Example C102_linear_access_example : m_lin_set (MkMat 2 1 [1; 2]%R) 1 5%R = Ret (MkMat 2 1 [1; 5]%R) /\ m_lin_set (MkMat 2 1 [1; 2]%R) 2 5%R = Ub. Proof. split; reflexivity. Qed.
(** C102: assignment by row and column. *)
Theorem C102_assignment {T} {N : Num T} (M : mat T) r c v : wf M ->
  (below r (nrows M) -> below c (ncols M) -> exists M', m_rc_set M r c v = Ret M' /\
     holds M' (nrows M) (ncols M) (fun i j => if Nat.eqb i (Z.to_nat r) && Nat.eqb j (Z.to_nat c) then v else at_ M i j)) /\
  (~ (below r (nrows M) /\ below c (ncols M)) -> m_rc_set M r c v = Throw).
Proof. exact (rc_set_cases M r c v). Qed.
Print Assumptions C102_assignment.
Example C102_assignment_example : m_rc_set (MkMat 2 2 [1; 2; 3; 4]%R) 1 0 7%R = Ret (MkMat 2 2 [1; 7; 3; 4]%R). Proof. reflexivity. Qed.
(** C102: rows a to b, columns a to b, one column, a rectangle: with the ends, or an exception. *)
Theorem C102_rows {T} {N : Num T} (M : mat T) a b :
  ((0 <= a <= b)%Z -> below b (nrows M) -> exists P, m_rows M a b = Ret P /\ holds P (Z.to_nat (b - a + 1)) (ncols M) (fun r c => at_ M (Z.to_nat a + r) c)) /\
  (~ ((0 <= a <= b)%Z /\ below b (nrows M)) -> m_rows M a b = Throw).
Proof. exact (rows_cases M a b). Qed.
Print Assumptions C102_rows.
Theorem C102_columns {T} {N : Num T} (M : mat T) a b :
  ((0 <= a <= b)%Z -> below b (ncols M) -> exists P, m_cols M a b = Ret P /\ holds P (nrows M) (Z.to_nat (b - a + 1)) (fun r c => at_ M r (Z.to_nat a + c))) /\
  (~ ((0 <= a <= b)%Z /\ below b (ncols M)) -> m_cols M a b = Throw).
Proof. exact (cols_cases M a b). Qed.
Print Assumptions C102_columns.
Theorem C102_column {T} {N : Num T} (M : mat T) c :
  (below c (ncols M) -> exists P, m_get_col M c = Ret P /\ holds P (nrows M) 1 (fun r _ => at_ M r (Z.to_nat c))) /\ (~ below c (ncols M) -> m_get_col M c = Throw).
Proof. exact (get_col_cases M c). Qed.
Print Assumptions C102_column.
Theorem C102_span {T} {N : Num T} (M : mat T) r0 r1 c0 c1 :
  ((0 <= r0 <= r1)%Z -> below r1 (nrows M) -> (0 <= c0 <= c1)%Z -> below c1 (ncols M) ->
     exists P, m_span M r0 r1 c0 c1 = Ret P /\ holds P (Z.to_nat (r1 - r0 + 1)) (Z.to_nat (c1 - c0 + 1)) (fun r c => at_ M (Z.to_nat r0 + r) (Z.to_nat c0 + c))) /\
  (~ ((0 <= r0 <= r1)%Z /\ below r1 (nrows M) /\ (0 <= c0 <= c1)%Z /\ below c1 (ncols M)) -> m_span M r0 r1 c0 c1 = Throw).
Proof. exact (span_cases M r0 r1 c0 c1). Qed.
Print Assumptions C102_span.
Example C102_parts_example : let M := MkMat 3 2 [1; 2; 3; 4; 5; 6]%R in m_rows M 1 2 = Ret (MkMat 2 2 [2; 3; 5; 6]%R) /\ m_cols M 1 1 = Ret (MkMat 3 1 [4; 5; 6]%R) /\
  m_span M 0 1 1 1 = Ret (MkMat 2 1 [4; 5]%R) /\ m_span M 0 3 0 1 = Throw. Proof. repeat split; reflexivity. Qed.
(** C102: a row, part of a row, and the first column, as lists. *)
Theorem C102_row {T} {N : Num T} (M : mat T) r :
  (below r (nrows M) -> exists l, m_row M r = Ret l /\ length l = ncols M /\ forall c, c < ncols M -> nth_error l c = Some (at_ M (Z.to_nat r) c)) /\
  (~ below r (nrows M) -> m_row M r = Throw).
Proof. exact (row_cases M r). Qed.
Print Assumptions C102_row.
Theorem C102_row_part {T} {N : Num T} (M : mat T) r c0 c1 :
  (below r (nrows M) -> (0 <= c0 <= c1)%Z -> below c1 (ncols M) -> exists l, m_row_subset M r c0 c1 = Ret l /\ length l = Z.to_nat (c1 - c0 + 1) /\
     forall k, k < Z.to_nat (c1 - c0 + 1) -> nth_error l k = Some (at_ M (Z.to_nat r) (Z.to_nat c0 + k))) /\
  (~ (below r (nrows M) /\ (0 <= c0 <= c1)%Z /\ below c1 (ncols M)) -> m_row_subset M r c0 c1 = Throw).
Proof. exact (row_subset_cases M r c0 c1). Qed.
Print Assumptions C102_row_part.
Theorem C102_to_vector {T} {N : Num T} (M : mat T) :
  (0 < ncols M -> exists l, m_to_vector M = Ret l /\ length l = nrows M /\ forall r, r < nrows M -> nth_error l r = Some (at_ M r 0)) /\ (ncols M = 0 -> m_to_vector M = Throw).
Proof. exact (to_vector_cases M). Qed.
Print Assumptions C102_to_vector.
Example C102_lists_example : let M := MkMat 2 3 [1; 2; 3; 4; 5; 6]%R in m_row M 1 = Ret [2; 4; 6]%R /\ m_row_subset M 0 1 2 = Ret [3; 5]%R /\ m_to_vector M = Ret [1; 2]%R. Proof. repeat split; reflexivity. Qed.
(** C102: replacing a row or a column; the length must fit. *)
Theorem C102_set_row {T} {N : Num T} (M : mat T) r v :
  (below r (nrows M) -> length v = ncols M -> exists P, m_set_row M r v = Ret P /\ holds P (nrows M) (ncols M) (fun i c => if Nat.eqb i (Z.to_nat r) then nth c v n0 else at_ M i c)) /\
  (~ (below r (nrows M) /\ length v = ncols M) -> m_set_row M r v = Throw).
Proof. exact (set_row_cases M r v). Qed.
Print Assumptions C102_set_row.
Theorem C102_set_column {T} {N : Num T} (M : mat T) c v :
  (below c (ncols M) -> length v = nrows M -> exists P, m_set_col M c v = Ret P /\ holds P (nrows M) (ncols M) (fun r j => if Nat.eqb j (Z.to_nat c) then nth r v n0 else at_ M r j)) /\
  (~ (below c (ncols M) /\ length v = nrows M) -> m_set_col M c v = Throw).
Proof. exact (set_col_cases M c v). Qed.
Print Assumptions C102_set_column.
Example C102_set_example : m_set_row (MkMat 2 2 [1; 2; 3; 4]%R) 0 [8; 9]%R = Ret (MkMat 2 2 [8; 2; 9; 4]%R) /\ m_set_col (MkMat 2 2 [1; 2; 3; 4]%R) 1 [8; 9]%R = Ret (MkMat 2 2 [1; 2; 8; 9]%R) /\
  m_set_col (MkMat 2 2 [1; 2; 3; 4]%R) 1 [8]%R = Throw. Proof. repeat split; reflexivity. Qed.
(** C102: arithmetic with a number, absolute values, and element by element with a matrix of the same size. *)
Theorem C102_scalar {T} {N : Num T} (M : mat T) v : wf M ->
  holds (m_adds M v) (nrows M) (ncols M) (fun r c => nadd (at_ M r c) v) /\ holds (m_subs M v) (nrows M) (ncols M) (fun r c => nsub (at_ M r c) v) /\
  holds (m_muls M v) (nrows M) (ncols M) (fun r c => nmul (at_ M r c) v) /\ holds (m_divs M v) (nrows M) (ncols M) (fun r c => ndiv (at_ M r c) v) /\
  holds (m_abs M) (nrows M) (ncols M) (fun r c => nabs (at_ M r c)).
Proof. exact (scalar_ops M v). Qed.
Print Assumptions C102_scalar.
Theorem C102_elementwise {T} {N : Num T} (A B : mat T) op f : In (op, f) [(m_add, nadd); (m_sub, nsub); (m_pmul, nmul); (m_pdiv, ndiv)] ->
  (nrows A = nrows B -> ncols A = ncols B -> exists P, op A B = Ret P /\ holds P (nrows A) (ncols A) (fun r c => f (at_ A r c) (at_ B r c))) /\
  (nrows A <> nrows B \/ ncols A <> ncols B -> op A B = Throw).
Proof. exact (elementwise A B op f). Qed.
Print Assumptions C102_elementwise.
Example C102_arithmetic_example : m_add (MkMat 1 2 [1; 2]%R) (MkMat 2 1 [1; 2]%R) = Throw /\ wf (MkMat 1 2 [1; 2]%R). Proof. split; reflexivity. Qed.
(** C102: one matrix above another; a 0x0 matrix adds nothing. *)
Theorem C102_join {T} {N : Num T} (A B : mat T) : wf A -> wf B ->
  (ncols A = ncols B -> exists P, m_join_vert A B = Ret P /\ holds P (nrows A + nrows B) (ncols A) (fun r c => if Nat.ltb r (nrows A) then at_ A r c else at_ B (r - nrows A) c)) /\
  (ncols A <> ncols B -> nrows A = 0 -> ncols A = 0 -> m_join_vert A B = Ret B) /\ (ncols A <> ncols B -> nrows B = 0 -> ncols B = 0 -> m_join_vert A B = Ret A) /\
  (ncols A <> ncols B -> (nrows A <> 0 \/ ncols A <> 0) -> (nrows B <> 0 \/ ncols B <> 0) -> m_join_vert A B = Throw).
Proof. exact (join_cases A B). Qed.
Print Assumptions C102_join.
(** C102: rows in reverse order; a new size keeps what fits and adds zeros; the larger of the two sizes. *)
Theorem C102_shape {T} {N : Num T} (M : mat T) nr nc : wf M ->
  holds (m_flipud M) (nrows M) (ncols M) (fun r c => at_ M (nrows M - 1 - r) c) /\
  holds (m_resize M nr nc) nr nc (fun r c => if Nat.ltb r (nrows M) && Nat.ltb c (ncols M) then at_ M r c else n0) /\
  m_longest M = Nat.max (nrows M) (ncols M).
Proof. exact (reshape M nr nc). Qed.
Print Assumptions C102_shape.
(** C102: means and deviations of rows are one column, of columns one row; of nothing, nothing. *)
Theorem C102_statistics_shape {T} {N : Num T} (M : mat T) :
  nrows (m_mean_rows M) = nrows M /\ ncols (m_mean_rows M) = Nat.min 1 (ncols M) /\ nrows (m_mean_cols M) = Nat.min 1 (nrows M) /\ ncols (m_mean_cols M) = ncols M /\
  nrows (m_stddev_rows M) = nrows M /\ ncols (m_stddev_rows M) = Nat.min 1 (ncols M) /\ nrows (m_stddev_cols M) = Nat.min 1 (nrows M) /\ ncols (m_stddev_cols M) = ncols M /\
  Forall wf [m_mean_rows M; m_mean_cols M; m_stddev_rows M; m_stddev_cols M].
Proof. exact (stat_shapes M). Qed.
Print Assumptions C102_statistics_shape.
Example C102_shape_example : m_resize (MkMat 2 1 [1; 2]%R) 1 2 = MkMat 1 2 [1; 0]%R /\ m_flipud (MkMat 2 2 [1; 2; 3; 4]%R) = MkMat 2 2 [2; 1; 4; 3]%R /\
  m_join_vert (MkMat 1 1 [1]%R) (MkMat 1 1 [2]%R) = Ret (MkMat 2 1 [1; 2]%R) /\ ncols (m_mean_rows (MkMat 3 0 [] : mat R)) = 0. Proof. repeat split; reflexivity. Qed.

(** C103 fails: of a column of twelve the last six values are printed, and a column of nine throws. *)
Theorem C103_summary_refuted : exists a b l12 : list R, length l12 = 12 /\
  (exists x y z, print_summary (m_of_col l12) = Ret (x, y, z) /\ length z = 6) /\ length a = 9 /\ print_summary (m_of_col a) = Throw /\ length b = 4 /\ print_summary (m_of_col b) = Throw.
Proof. exact summary_refuted. Qed.
Print Assumptions C103_summary_refuted.
(** C103: what is printed of a column of any length. *)
Theorem C103_summary_partial {T} {N : Num T} (l : list T) : let n := Z.of_nat (length l) in (n < 2 ^ 63)%Z ->
  ((11 <= n)%Z -> print_summary (m_of_col l) = Ret (listed l 0 5, listed l (n / 2 - 4) (n / 2 + 6), listed l (n - 6) n)) /\
  ((8 <= n <= 10)%Z -> print_summary (m_of_col l) = Throw) /\
  ((5 <= n <= 7)%Z -> print_summary (m_of_col l) = Ret (listed l 0 5, [], if (n =? 5)%Z then [] else listed l (n - 6) n)) /\
  ((n < 5)%Z -> print_summary (m_of_col l) = Throw).
Proof. exact (summary_cases l). Qed.
Print Assumptions C103_summary_partial.
Example C103_example : listed [7; 8; 9]%R 1 3 = [(1%Z, 8); (2%Z, 9)]%R. Proof. reflexivity. Qed.
