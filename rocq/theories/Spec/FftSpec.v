(** What an ideal FFT library computes (exact arithmetic), and what cross-correlation is. *)
From Coq Require Import Reals ZArith List.
From Verif Require Import Base.NumR Model.Fft.
Import ListNotations.
Open Scope R_scope.

(** [sum n f] = f 0 + ... + f (n-1) *)
Fixpoint sum (n : nat) (f : nat -> R) : R := match n with O => 0 | S k => sum k f + f k end.

(** sample or bin number [i] of a list, 0 outside *)
Definition smp (l : list R) (i : nat) : R := nth i l 0.

(** the discrete Fourier transform of M real samples: X_k = sum_n x_n exp(-2 pi i k n / M) *)
Definition angle (M k n : nat) : R := 2 * PI * INR k * INR n / INR M.
Definition dft_re (M : nat) (x : nat -> R) (k : nat) : R := sum M (fun n => x n * cos (angle M k n)).
Definition dft_im (M : nat) (x : nat -> R) (k : nat) : R := - sum M (fun n => x n * sin (angle M k n)).

(** the packed order of a real transform: re(0), re(M/2), re(1), im(1), re(2), im(2), ... *)
Definition packed_dft (M : nat) (x : nat -> R) : list R :=
  map (fun j => if Nat.eqb j 1 then dft_re M x (M / 2)
                else if Nat.even j then dft_re M x (j / 2) else dft_im M x (j / 2)) (seq 0 M).
(** the unscaled inverse: sum over the whole conjugate-symmetric spectrum given by the packed buffer [p] *)
Definition inverse_packed (M : nat) (p : nat -> R) : list R :=
  map (fun n => p 0%nat + p 1%nat * cos (PI * INR n) +
                sum (M / 2 - 1) (fun i => let k := S i in
                  2 * (p (2 * k)%nat * cos (angle M k n) - p (2 * k + 1)%nat * sin (angle M k n)))) (seq 0 M).

Definition ideal_fft : pffft R :=
  MkPffft (fun l => packed_dft (length l) (smp l)) (fun l => inverse_packed (length l) (smp l)) (fun x => x).

(** linear cross-correlation of two signals at lag [g]: sum over b of s1[b + g] * s2[b] *)
Definition smpZ (l : list R) (z : Z) : R := if (z <? 0)%Z then 0 else smp l (Z.to_nat z).
Definition cross_correlation (s1 s2 : list R) (g : Z) : R :=
  sum (length s2) (fun b => smpZ s1 (Z.of_nat b + g) * smp s2 b).
