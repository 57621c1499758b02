(** Property C118: the sample variance is never negative in binary64, so a standard deviation is never undefined. *)
From Coq Require Import ZArith List Bool Floats.
From Verif Require Import Base.Num Base.NumF Base.Mat Model.Amatrix Spec.VarSpec Proofs.VarCasesP.
Import ListNotations.

(** C118 for the variance of one row or column: [acc2 - acc3 * acc3 / n] subtracts two rounded numbers, yet never goes below zero. *)
Theorem C118_variance (l : list float) : (1 <= length l <= 64)%nat -> Forall ordinary l -> nonnegative (vvar l).
Proof. exact (variance_ordinary l). Qed.
Print Assumptions C118_variance.
(** C118 for StdDev of a matrix, by row and by column: no square root of a negative number. *)
Theorem C118_deviations (M : mat float) : wf M -> (1 <= nrows M)%nat -> (1 <= ncols M)%nat -> Forall ordinary (elems M) ->
  ((ncols M <= 64)%nat -> Forall nonnegative (elems (m_stddev_rows M))) /\ ((nrows M <= 64)%nat -> Forall nonnegative (elems (m_stddev_cols M))).
Proof. exact (deviations_ordinary M). Qed.
Print Assumptions C118_deviations.
(** six equal similarities: their computed mean differs from them, so no deviation computed is zero, and the variance is still zero; numbers beyond
    the bound can have an undefined variance *)
Example C118_example :
  let l := repeat 0.1%float 6 in
  (1 <= length l <= 64)%nat /\ Forall ordinary l /\ PrimFloat.eqb (vmean l) 0.1 = false /\ nonnegative (vvar l) /\ PrimFloat.eqb (vvar l) 0 = true /\
  ~ nonnegative (vvar [0x1p595; 0x1p595; 0x1p596])%float.
Proof.
  cbv zeta. refine (conj _ (conj _ (conj _ (conj _ (conj _ _))))); try (vm_compute; reflexivity).
  - cbn. split; repeat constructor.
  - repeat constructor; right; split; vm_compute; reflexivity.
  - split; vm_compute; reflexivity.
  - intros [H _]. vm_compute in H. discriminate H.
Qed.
