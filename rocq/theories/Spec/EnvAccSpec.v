(** Spec: an FFT library that is accurate in the mean square in both directions (C109). *)
From Coq Require Import ZArith List Bool Reals Floats.
From Flocq Require Import Core.Core.
From Verif Require Import Base.Num Base.NumF Base.Cplx Model.Fft Model.FilterBank Spec.FftSpec Spec.FftAccSpec Proofs.B64P.
Open Scope R_scope.

(** The error of the backward transform is also at most [e] times the greatest size its result can have. *)
Record accurate_transforms (e : R) (pf : pffft PrimFloat.float) : Prop := {
  transforms_fft : accurate_fft e pf;
  transforms_backward : forall k l, (5 <= k <= 31)%nat -> length l = (2 ^ k)%nat -> List.Forall fin l -> sum (length l) (fun i => Rabs (smp (exact l) i)) <= bpow radix2 100 ->
    sum (length l) (fun n => (FR (List.nth n (pf_bwd pf l) 0%float) - List.nth n (inverse_packed (length l) (smp (exact l))) 0) ^ 2)
      <= e ^ 2 * (4 * INR (length l) * (sum (length l) (fun i => smp (exact l) i ^ 2) + bpow radix2 (-100))) }.
(** distance of two signals of the same length: square root of the sum of the squared differences *)
Definition distance (a b : list R) : R := R_sqrt.sqrt (sum (length a) (fun i => (smp a i - smp b i) ^ 2)).

(** what the alignment by the lag [g] makes of the degraded recording, and the lag in seconds it reports:
    a lag of more than half the reference is ignored, a negative lag drops samples, a positive one puts silence in front *)
Definition moved_by (g : Z) (ref deg : audio PrimFloat.float) : audio PrimFloat.float * PrimFloat.float :=
  if (g =? 0)%Z || (Z.of_nat (length (au_data ref)) <? 2 * Z.abs g)%Z then (deg, n0)
  else (MkAudio (if (g <? 0)%Z then List.skipn (Z.to_nat (- g)) (au_data deg) else List.repeat n0 (Z.to_nat g) ++ au_data deg)%list (au_sr deg),
        ndiv (nofZ g) (nofZ (au_sr deg))).
