(** Spec: an FFT library of limited accuracy (C108). *)
From Coq Require Import ZArith List Reals Floats.
From Flocq Require Import Core.Core.
From Verif Require Import Base.Num Base.NumF Base.Cplx Model.Fft Spec.FftSpec Proofs.B64P.
Open Scope R_scope.

(** the exact values of the numbers of a list *)
Definition exact (l : list PrimFloat.float) : list R := map FR l.
(** square root of the sum of the squares *)
Definition size (l : list R) : R := R_sqrt.sqrt (sum (length l) (fun i => smp l i * smp l i)).

(** The library works to the relative accuracy [e] on the buffers the code gives it (powers of two from 32 on, of numbers of moderate size).
    - Numbers are stored to that accuracy.
    - The forward transform is right in the mean square: its error is at most [e] times the size of the exact spectrum.
    - Every output of the backward transform is right to [e] times the greatest it could be. *)
Record accurate_fft (e : R) (pf : pffft PrimFloat.float) : Prop := {
  fft_store : forall x, fin x -> Rabs (FR x) <= bpow radix2 120 ->
    fin (pf_f32 pf x) /\ Rabs (FR (pf_f32 pf x) - FR x) <= e * Rabs (FR x) + bpow radix2 (-126);
  fft_forward : forall k l, (5 <= k <= 31)%nat -> length l = (2 ^ k)%nat -> List.Forall fin l -> size (exact l) <= bpow radix2 50 ->
    length (pf_fwd pf l) = length l /\ List.Forall fin (pf_fwd pf l) /\
    sum (length l) (fun j => (FR (List.nth j (pf_fwd pf l) 0%float) - smp (packed_dft (length l) (smp (exact l))) j) ^ 2)
      <= e ^ 2 * (INR (length l) * (sum (length l) (fun i => smp (exact l) i ^ 2) + bpow radix2 (-100)));
  fft_backward : forall k l, (5 <= k <= 31)%nat -> length l = (2 ^ k)%nat -> List.Forall fin l -> sum (length l) (fun i => Rabs (smp (exact l) i)) <= bpow radix2 100 ->
    length (pf_bwd pf l) = length l /\ List.Forall fin (pf_bwd pf l) /\
    forall n, (n < length l)%nat ->
      Rabs (FR (List.nth n (pf_bwd pf l) 0%float) - List.nth n (inverse_packed (length l) (smp (exact l))) 0)
        <= e * (2 * sum (length l) (fun i => Rabs (smp (exact l) i)) + bpow radix2 (-60)) }.
