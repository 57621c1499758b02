(** What C100 asks of a filter of the bank and of the cosine, in binary64. *)
From Coq Require Import ZArith List Bool Floats.
From Verif Require Import Base.Num Base.NumF Model.Erb Model.FilterBank.
Import ListNotations.

(** a number between -b and b *)
Definition within (b x : float) : Prop := PrimFloat.leb (PrimFloat.abs x) b = true.

(** a band whose denominator 1 + B1/z + B2/z^2 has its poles in the closed unit disk, whose first numerator,
    which is divided by the gain, is no larger than 2^150 and whose other numerators are no larger than 1 *)
Definition stable (c : erb_coeffs float) : Prop :=
  within 1 (e_B2 c) /\ PrimFloat.ltb (PrimFloat.abs (e_B1 c)) (1 + e_B2 c) = true /\
  Forall (within 0x1p150) [PrimFloat.div (e_A0 c) (e_gain c); PrimFloat.div (e_A11 c) (e_gain c); PrimFloat.div (e_A2 c) (e_gain c)] /\
  Forall (within 1) [e_A0 c; e_A12 c; e_A13 c; e_A14 c; e_A2 c].
(** all filters made for a sample rate *)
Definition stable_bank {L : Libm float} (speech : bool) (k : bank float) (sr : Z) : Prop :=
  Forall stable (fst (make_filters sr (bk_bands k) (bk_min k) (builder_max_freq speech sr))).
(** the cosine of a finite number is between -1 and 1; pi is at most 4 *)
Definition sane_cos {L : Libm float} : Prop := (forall x, PrimFloat.ltb (PrimFloat.abs x) infinity = true -> within 1 (mcos x)) /\ within 4 mpi.
