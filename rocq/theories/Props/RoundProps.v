(** Properties C93, C94: what rounding does to the similarity of two patches. *)
From Coq Require Import ZArith List Bool Reals Lra Lia Floats.
From Verif Require Import Base.Res Base.Num Base.NumF Base.Lists Base.Mat Model.Amatrix Model.Nsim
  Spec.SmoothSpec Spec.StatSpec Spec.RoundSpec Proofs.B64P Proofs.NsimRoundP Proofs.NsimRoundAllP Proofs.RoundCasesP Proofs.NsimAnyP.
Import ListNotations.
Open Scope R_scope.

(** C93 is false: for a reference of three frames of 50 and a degraded of 98, 8, 97 the computed similarity is more than 0.05
    below the exact one.  The variance of a constant patch does not come out as exactly 0, and it is multiplied by the other
    variance before the square root is taken. *)
Theorem C93_rounding_refuted : exists (A B : mat PrimFloat.float) p,
  moderate A /\ moderate B /\ nrows A = nrows B /\ ncols A = ncols B /\
  measure_patch_similarity A B = Ret p /\ fin (ps_sim p) /\
  FR (ps_sim p) + 5 / 100 <= patch_similarity (nrows A) (ncols A) (vals A) (vals B).
Proof. exact round_witness. Qed.
Print Assumptions C93_rounding_refuted.
Example C93_refuted_example : moderate flat_ref /\ moderate rough_deg.
Proof. split; [exact flat_moderate|exact rough_moderate]. Qed.

(** What holds: where both patches vary everywhere the computed similarity is within 4/1000000 of the exact one. *)
Theorem C93_rounding_partial (A B : mat PrimFloat.float) :
  moderate A -> moderate B -> nrows A = nrows B -> ncols A = ncols B ->
  (Z.of_nat (nrows A) <= 1000000)%Z -> (Z.of_nat (ncols A) <= 1000000)%Z -> varied A -> varied B ->
  exists p, measure_patch_similarity A B = Ret p /\ fin (ps_sim p) /\
    Rabs (FR (ps_sim p) - patch_similarity (nrows A) (ncols A) (vals A) (vals B)) <= 4 / 1000000.
Proof. exact (similarity_near_varied A B). Qed.
Print Assumptions C93_rounding_partial.
Example C93_example : moderate step_ref /\ moderate step_deg /\ varied step_ref /\ varied step_deg.
Proof. exact (conj (proj1 step_moderate) (conj (proj2 step_moderate) step_both)). Qed.

(** And the computed similarity of any patch with itself is within 3/1000000 of 1. *)
Theorem C93_identical (A : mat PrimFloat.float) :
  moderate A -> (Z.of_nat (nrows A) <= 1000000)%Z -> (Z.of_nat (ncols A) <= 1000000)%Z ->
  exists p, measure_patch_similarity A A = Ret p /\ fin (ps_sim p) /\ Rabs (FR (ps_sim p) - 1) <= 3 / 1000000.
Proof. exact (self_near A). Qed.
Print Assumptions C93_identical.
Example C93_identical_example : moderate flat_ref /\ (Z.of_nat (nrows flat_ref) <= 1000000)%Z.
Proof. split; [exact flat_moderate|discriminate]. Qed.

(** C94 is false: the computed similarity of a reference of 86 + 7/2^20 and 86 with a degraded of 100 and 65 is above 1.02. *)
Theorem C94_at_most_one_refuted : exists (A B : mat PrimFloat.float) p,
  moderate A /\ moderate B /\ nrows A = nrows B /\ ncols A = ncols B /\
  measure_patch_similarity A B = Ret p /\ fin (ps_sim p) /\ 102 / 100 < FR (ps_sim p).
Proof. exact above_one. Qed.
Print Assumptions C94_at_most_one_refuted.
Example C94_refuted_example : moderate tilted_ref /\ moderate slope_deg.
Proof. split; [exact tilted_moderate|exact slope_moderate]. Qed.

(** What holds: where both patches vary everywhere it is at most 1 + 4/1000000. *)
Theorem C94_at_most_one_partial (A B : mat PrimFloat.float) :
  moderate A -> moderate B -> nrows A = nrows B -> ncols A = ncols B ->
  (Z.of_nat (nrows A) <= 1000000)%Z -> (Z.of_nat (ncols A) <= 1000000)%Z -> varied A -> varied B ->
  exists p, measure_patch_similarity A B = Ret p /\ fin (ps_sim p) /\ -1 - 4 / 1000000 <= FR (ps_sim p) <= 1 + 4 / 1000000.
Proof. exact (similarity_range_varied A B). Qed.
Print Assumptions C94_at_most_one_partial.
Example C94_example : moderate step_ref /\ moderate step_deg /\ varied step_ref /\ varied step_deg.
Proof. exact (conj (proj1 step_moderate) (conj (proj2 step_moderate) step_both)). Qed.

(** And however flat the patches are, neither the similarity nor its mean in any band exceeds 4 in magnitude. *)
Theorem C94_at_most_four_partial (A B : mat PrimFloat.float) :
  moderate A -> moderate B -> nrows A = nrows B -> ncols A = ncols B ->
  (Z.of_nat (nrows A) <= 1000000)%Z -> (Z.of_nat (ncols A) <= 1000000)%Z ->
  exists p, measure_patch_similarity A B = Ret p /\ (fin (ps_sim p) /\ Rabs (FR (ps_sim p)) <= 4) /\
    Forall (fun x => fin x /\ Rabs (FR x) <= 4) (elems (ps_means p)).
Proof. exact (measure_any A B). Qed.
Print Assumptions C94_at_most_four_partial.
Example C94_at_most_four_example : moderate tilted_ref /\ moderate slope_deg /\
  exists p, measure_patch_similarity tilted_ref slope_deg = Ret p /\ Rabs (FR (ps_sim p)) <= 4.
Proof.
  refine (conj tilted_moderate (conj slope_moderate _)).
  destruct (measure_any tilted_ref slope_deg tilted_moderate slope_moderate eq_refl eq_refl ltac:(discriminate) ltac:(discriminate)) as (p & E & [_ B] & _). exists p. split; [exact E|exact B].
Qed.
