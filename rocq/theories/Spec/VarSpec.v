(** Spec: the numbers whose sample variance is claimed never to be negative in binary64. *)
From Coq Require Import Floats.

(** zero, or of a magnitude from 2^-250 to 2^100 *)
Definition ordinary (x : float) : Prop :=
  PrimFloat.eqb x 0 = true \/ PrimFloat.leb 0x1p-250 (abs x) = true /\ PrimFloat.leb (abs x) 0x1p100 = true.
(** finite and at least zero *)
Definition nonnegative (x : float) : Prop := PrimFloat.is_finite x = true /\ PrimFloat.leb 0 x = true.
