(** What C101 asks of the elementary functions in binary64: 40 correct bits where they are used. *)
From Coq Require Import ZArith Reals Floats.
From Verif Require Import Base.Num Base.NumF Proofs.B64P Spec.UndefinedSpec Spec.StableSpec.
Open Scope R_scope.

(** 2^-40 *)
Definition dl : R := 1 / 1099511627776.
(** [fin x]: neither infinite nor undefined; [FR x] is the real number that [x] stands for *)
Record accurate (L : Libm float) : Prop := {
  acc_exp : forall x, fin x -> Rabs (FR x) <= 50 -> fin (mexp x) /\ Rabs (FR (mexp x) - exp (FR x)) <= dl * exp (FR x);
  acc_log : forall x, fin x -> 2 <= FR x <= 1000000000 -> fin (mlog x) /\ Rabs (FR (mlog x) - ln (FR x)) <= dl * ln (FR x);
  acc_cos : forall x, fin x -> Rabs (FR x) <= 50 -> fin (mcos x) /\ Rabs (FR (mcos x) - cos (FR x)) <= dl;
  acc_sin : forall x, fin x -> Rabs (FR x) <= 50 -> fin (msin x) /\ Rabs (FR (msin x) - sin (FR x)) <= dl;
  acc_pi : fin mpi /\ Rabs (FR mpi - PI) <= dl;
  acc_log10 : forall x, fin x -> 0 < FR x -> fin (mlog10 x) /\ Rabs (FR (mlog10 x) - ln (FR x) / ln 10) <= 1000 * dl;
  acc_pow10 : forall x, fin x -> Rabs (FR x) <= 50 -> fin (mpow10 x) /\ Rabs (FR (mpow10 x) - exp (FR x * ln 10)) <= dl * exp (FR x * ln 10);
  (* a cosine is never outside [-1, 1] *)
  cos_range : forall x, fin x -> within 1 (mcos x);
  (* zero, the infinities and what is undefined *)
  log10_zero : forall x, fin x -> FR x = 0 -> mlog10 x = neg_infinity;
  log10_undefined : forall x, undefined x -> undefined (mlog10 x);
  pow10_minus : fin (mpow10 neg_infinity) /\ FR (mpow10 neg_infinity) = 0;
  pow10_plus : mpow10 infinity = infinity;
  pow10_undefined : forall x, undefined x -> undefined (mpow10 x) }.
