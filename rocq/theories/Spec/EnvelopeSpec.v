(** The envelope of a signal as the magnitude of its analytic signal, and what is computed instead. *)
From Coq Require Import Reals ZArith List.
From Verif Require Import Base.NumR Model.Fft Spec.FftSpec.
Import ListNotations.
Open Scope R_scope.

Definition average (s : list R) : R := sum (length s) (smp s) / INR (length s).
(** the signal without its mean, followed by silence *)
Definition centred (s : list R) (i : nat) : R := if Nat.ltb i (length s) then smp s i - average s else 0.

(** sample j of the analytic signal of M samples: the negative frequencies removed, the positive ones
    doubled, transformed back *)
Definition analytic_re (M : nat) (x : nat -> R) (j : nat) : R :=
  (dft_re M x 0 + (-1) ^ j * dft_re M x (M / 2) +
   sum (M / 2 - 1) (fun i => let k := S i in 2 * (dft_re M x k * cos (angle M k j) - dft_im M x k * sin (angle M k j)))) / INR M.
Definition analytic_im (M : nat) (x : nat -> R) (j : nat) : R :=
  sum (M / 2 - 1) (fun i => let k := S i in 2 * (dft_re M x k * sin (angle M k j) + dft_im M x k * cos (angle M k j))) / INR M.
Definition hilbert_envelope (s : list R) : list R :=
  let M := fm_size (make_fft_manager (length s)) in
  map (fun j => sqrt (analytic_re M (centred s) j ^ 2 + analytic_im M (centred s) j ^ 2) + average s) (seq 0 (length s)).

(** what is computed: twice the deviation from the mean, less an alternating error, made positive *)
Definition alternating (s : list R) : R := sum (length s) (fun i => (-1) ^ i * centred s i).
Definition rectified (s : list R) : list R :=
  let M := fm_size (make_fft_manager (length s)) in
  let c := if Nat.eqb (length s) M then 1 else 2 in
  map (fun j => Rabs (2 * centred s j - (-1) ^ j * (c * alternating s / INR M)) + average s) (seq 0 (length s)).
