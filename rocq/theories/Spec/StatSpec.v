(** Spec: textbook statistics of lists of reals and the decibel level. *)
From Coq Require Import Reals List.
Import ListNotations.
Open Scope R_scope.

Definition total (l : list R) : R := fold_right Rplus 0 l.
Definition mean (l : list R) : R := total l / INR (length l).
(** unbiased variance and standard deviation (0 for fewer than two values) *)
Definition variance (l : list R) : R :=
  if Nat.ltb (length l) 2 then 0
  else total (map (fun x => (x - mean l) * (x - mean l)) l) / (INR (length l) - 1).
Definition stddev (l : list R) : R := sqrt (variance l).

(** level in dB of an amplitude, 2^-52 standing for silence *)
Definition level (x : R) : R := 10 * (ln (if Req_EM_T x 0 then / 2 ^ 52 else Rabs x) / ln 10).
