(** What C114 says about a filter of the bank: the values of its coefficients, how long its two poles ring and how much
    its four stages amplify. *)
From Coq Require Import ZArith List Reals Floats.
From Verif Require Import Base.Res Base.Num Base.NumF Base.NumR Model.Erb Model.FilterBank Spec.StatSpec Proofs.B64P.
Import ListNotations.
Open Scope R_scope.

(** the real values of the coefficients *)
Definition real_coeffs (c : erb_coeffs PrimFloat.float) : erb_coeffs R :=
  MkErb (FR (e_A0 c)) (FR (e_A11 c)) (FR (e_A12 c)) (FR (e_A13 c)) (FR (e_A14 c)) (FR (e_A2 c)) (FR (e_B0 c)) (FR (e_B1 c)) (FR (e_B2 c)) (FR (e_gain c)).

(** the poles are a conjugate pair inside the unit circle; their modulus and the imaginary part of the upper one *)
Definition damped (c : erb_coeffs R) : Prop := e_B1 c * e_B1 c < 4 * e_B2 c /\ e_B2 c < 1.
Definition radius (c : erb_coeffs R) : R := R_sqrt.sqrt (e_B2 c).
Definition height (c : erb_coeffs R) : R := R_sqrt.sqrt (e_B2 c - e_B1 c * e_B1 c / 4).

(** how much an error made in one step can add to later outputs, all steps together *)
Definition resonance (c : erb_coeffs R) : R := 2 / ((1 - radius c) * height c).

(** how much a stage with this numerator amplifies at most: |b0| and the modulus of the residue at the upper pole, summed *)
Definition stage_gain (c : erb_coeffs R) (b0 b1 b2 : R) : R :=
  let A := b1 - e_B1 c * b0 in
  let B := b2 - e_B2 c * b0 in
  Rabs b0 + R_sqrt.sqrt (e_B2 c * (A * A) - e_B1 c * (A * B) + B * B) / ((1 - radius c) * height c).

(** the four stages *)
Definition stage_gains (c : erb_coeffs R) : list R :=
  [stage_gain c (e_A0 c / e_gain c) (e_A11 c / e_gain c) (e_A2 c / e_gain c); stage_gain c (e_A0 c) (e_A12 c) (e_A2 c);
   stage_gain c (e_A0 c) (e_A13 c) (e_A2 c); stage_gain c (e_A0 c) (e_A14 c) (e_A2 c)].
Definition band_gain (c : erb_coeffs R) : R := fold_right Rmult 1 (stage_gains c).

(** a band of finite coefficients whose numbers are of moderate size *)
Definition moderate_band (c : erb_coeffs PrimFloat.float) : Prop :=
  Forall fin [e_A0 c; e_A11 c; e_A12 c; e_A13 c; e_A14 c; e_A2 c; e_B0 c; e_B1 c; e_B2 c; e_gain c] /\ FR (e_gain c) <> 0 /\
  damped (real_coeffs c) /\ resonance (real_coeffs c) <= 2 ^ 40 /\ Forall (fun g => / 2 ^ 100 <= g <= 2 ^ 80) (stage_gains (real_coeffs c)).

(** what rounding can change in the output of a band for an input within [-1,1] *)
Definition band_error (c : erb_coeffs R) : R := 1600 * (/ 2 ^ 53 * resonance c) * band_gain c.

(** root mean square *)
Definition sum_sq (l : list R) : R := total (map (fun x => x * x) l).
Definition rms (l : list R) : R := R_sqrt.sqrt (sum_sq l / INR (length l)).

(** the exact level of the output of a band started from rest *)
Definition exact_level (c : erb_coeffs R) (x : list R) : R :=
  match band_filter c zero_cond x with Ret (y, _) => rms y | _ => 0 end.
