(** Spec: a number does not leave the range of the numbers it summarises (C119). *)
From Coq Require Import List Reals.
Open Scope R_scope.

(** v is at most d above the largest and at most d below the smallest of the numbers *)
Definition within_range (d v : R) (l : list R) : Prop := (exists x, In x l /\ v <= x + d) /\ (exists x, In x l /\ x - d <= v).
