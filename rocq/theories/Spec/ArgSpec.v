(** What std::arg returns, over the reals. *)
From Coq Require Import Reals.
Open Scope R_scope.

(** an angle of every non-zero complex number *)
Definition is_arg (arg : R * R -> R) : Prop :=
  forall x y, x * x + y * y <> 0 ->
    sqrt (x * x + y * y) * cos (arg (x, y)) = x /\ sqrt (x * x + y * y) * sin (arg (x, y)) = y.
