(** Spec: the rating of speech as a function of the similarity (C110). *)
From Coq Require Import Reals Floats.
From Verif Require Import Base.Num Base.NumF Proofs.B64P.
Open Scope R_scope.

(** the published fit, between 1 and 5; scaled, a similarity of 1 is rated 5 *)
Definition speech_rating (scaled : bool) (v : R) : R :=
  Rmin (Rmax ((-262.847869 + exp (0.0154302525 * (v + 361.063949))) * (if scaled then 10444345 / 2 ^ 23 else 1)) 1) 5.
(** the exponential function never decreases up to 200, and stays below 10^100 there *)
Definition increasing_exp (L : Libm float) : Prop := forall x y, fin x -> fin y -> FR x <= FR y -> FR y <= 200 ->
  fin (mexp x) /\ fin (mexp y) /\ FR (mexp x) <= FR (mexp y) /\ FR (mexp y) <= 10 ^ 100.
