(** Pure tones. *)
From Coq Require Import Reals ZArith List.
Import ListNotations.
Open Scope R_scope.

(** angle advanced per sample by a tone of [cf] Hz at [sr] samples per second *)
Definition tone_angle (sr : Z) (cf : R) : R := 2 * PI * cf / IZR sr.
(** sample k of the tone with amplitude sqrt (p^2 + q^2) *)
Definition tone (w p q : R) (k : nat) : R := p * cos (w * INR k) - q * sin (w * INR k).
Definition tone_signal (w p q : R) (n : nat) : list R := map (tone w p q) (seq 0 n).
