(** Spec: finite convolution sums of a difference equation. *)
From Coq Require Import Reals List.
Import ListNotations.
Open Scope R_scope.

(** sum of c[k] * s[t-k] over 0 <= k <= t, reading 0 outside the lists *)
Definition conv (c s : list R) (t : nat) : R :=
  fold_right Rplus 0 (map (fun k => nth k c 0 * nth (t - k) s 0) (seq 0 (S t))).
