(** Samples as they come from integer recordings. *)
From Coq Require Import ZArith List Floats.
From Verif Require Import Base.Num Base.NumF Spec.StableSpec.

(** zero, or between 2^-31 and 1 in size *)
Definition pcm (x : float) : Prop := within 1 x /\ (PrimFloat.eqb x 0 = true \/ PrimFloat.leb 0x1p-31 (PrimFloat.abs x) = true).
