(** Spec: the exact similarity of two patches, the local variance of a patch, and patches of binary64 numbers. *)
From Coq Require Import Reals List Floats.
From Verif Require Import Base.Num Base.NumF Base.Mat Model.Amatrix Proofs.B64P Spec.SmoothSpec Spec.StatSpec.
Import ListNotations.
Open Scope R_scope.

(** mean over the bands of the mean over the frames of the similarity of the values *)
Definition patch_similarity (nr nc : nat) (x y : nat -> nat -> R) : R :=
  mean (map (fun r => mean (map (fun c => similarity nr nc x y r c) (seq 0 nc))) (seq 0 nr)).

(** variance of the nine neighbours of (r,c), by their weights *)
Definition local_variance (nr nc : nat) (x : nat -> nat -> R) (r c : nat) : R :=
  smooth nr nc (fun i j => x i j * x i j) r c - smooth nr nc x r c * smooth nr nc x r c.

(** the real values of a matrix of binary64 numbers *)
Definition vals (M : mat PrimFloat.float) (i j : nat) : R := FR (at_ M i j).

(** a non-empty matrix of finite numbers within 100 of 0 *)
Definition moderate (M : mat PrimFloat.float) : Prop :=
  (0 < nrows M)%nat /\ (0 < ncols M)%nat /\
  forall i j, (i < nrows M)%nat -> (j < ncols M)%nat -> fin (at_ M i j) /\ Rabs (FR (at_ M i j)) <= 100.

(** every local variance is at least 1/10000 *)
Definition varied (M : mat PrimFloat.float) : Prop :=
  forall r c, (r < nrows M)%nat -> (c < ncols M)%nat -> 1 / 10000 <= local_variance (nrows M) (ncols M) (vals M) r c.
