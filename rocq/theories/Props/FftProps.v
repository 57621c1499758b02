(** Properties C50, C51: the wrappers around the FFT library. *)
From Coq Require Import ZArith List Bool Reals Lra Lia Floats.
From Verif Require Import Base.Res Base.Num Base.NumR Base.NumF Base.Lists Base.Cplx Model.MiscMath Model.Fft
  Spec.FftSpec Proofs.FftP Proofs.DftP Proofs.XcorrP.
Import ListNotations.
Open Scope R_scope.

(** C50: with an ideal FFT the forward wrapper gives all bins of the zero-padded signal. *)
Theorem C50_forward n (sig : list R) : (1 <= Z.of_nat n <= 2 ^ 31)%Z -> (n <= length sig)%nat ->
  let M := fm_size (make_fft_manager n) in
  let x := fun i => if Nat.ltb i n then smp sig i else 0 in
  forward1d ideal_fft (make_fft_manager n) sig = Ret (map (fun k => (dft_re M x k, dft_im M x k)) (seq 0 M)).
Proof. exact (forward_bins n sig). Qed.
Print Assumptions C50_forward.
(** The bins are conjugate symmetric. *)
Theorem C50_symmetric n (sig : list R) s k : (1 <= Z.of_nat n <= 2 ^ 31)%Z -> (n <= length sig)%nat ->
  forward1d ideal_fft (make_fft_manager n) sig = Ret s ->
  (1 <= k < length s)%nat -> nth (length s - k) s (0, 0) = (fst (nth k s (0, 0)), - snd (nth k s (0, 0))).
Proof. exact (forward_symmetric n sig s k). Qed.
Print Assumptions C50_symmetric.
(** The inverse wrapper gives the signal back. *)
Theorem C50_round_trip n (sig : list R) : (1 <= Z.of_nat n <= 2 ^ 31)%Z -> length sig = n ->
  exists s, forward1d ideal_fft (make_fft_manager n) sig = Ret s /\
            inverse1d ideal_fft (make_fft_manager n) s = Ret (map (fun x => (x, 0)) sig).
Proof. exact (round_trip n sig). Qed.
Print Assumptions C50_round_trip.
(** The packed layout: no information is lost in either direction. *)
Theorem C50_layout {T} {N : Num T} h (p : list T) s : length p = (2 * h)%nat -> (1 <= h)%nat ->
  unpack_spectrum p = Ret s -> pack_spectrum (2 * h) s = Ret p.
Proof. exact (pack_unpack h p s). Qed.
Print Assumptions C50_layout.
Theorem C50_layout_spectrum h (s : list (cplx R)) : (1 <= h)%nat -> length s = (2 * h)%nat ->
  snd (nth 0 s (0, 0)) = 0 -> snd (nth h s (0, 0)) = 0 ->
  (forall k, (1 <= k < h)%nat -> nth (2 * h - k) s (0, 0) = (fst (nth k s (0, 0)), - snd (nth k s (0, 0)))) ->
  exists p, pack_spectrum (2 * h) s = Ret p /\ unpack_spectrum p = Ret s.
Proof. exact (unpack_pack h s). Qed.
Print Assumptions C50_layout_spectrum.
Example C50_example : exists s, forward1d ideal_fft (make_fft_manager 3) [1; 2; -1] = Ret s /\
  inverse1d ideal_fft (make_fft_manager 3) s = Ret [(1, 0); (2, 0); (-1, 0)].
Proof. apply (round_trip 3 [1; 2; -1]); [cbn; lia|reflexivity]. Qed.
Example C50_layout_example : unpack_spectrum [nofZ 1; nofZ 4; nofZ 2; nofZ 3] =
  Ret [(nofZ 1, nofZ 0); (nofZ 2, nofZ 3); (nofZ 4, nofZ 0); (nofZ 2, nofZ (-3))] :> res (list (cplx PrimFloat.float)).
Proof. vm_compute. reflexivity. Qed.

(** C51: the size is the least power of two from 32 on that holds n samples. *)
Theorem C51_size n : (1 <= Z.of_nat n <= 2 ^ 31)%Z ->
  exists e, (5 <= e)%Z /\ Z.of_nat (fm_size (make_fft_manager n)) = (2 ^ e)%Z /\ (Z.of_nat n <= 2 ^ e)%Z /\
    forall e', (5 <= e')%Z -> (Z.of_nat n <= 2 ^ e')%Z -> (2 ^ e <= 2 ^ e')%Z.
Proof. exact (size_least n). Qed.
Print Assumptions C51_size.
(** The rounding up itself, for every 32-bit argument it can represent the result of. *)
Theorem C51_next_power (n : Z) : (1 <= n <= 2 ^ 31)%Z -> next_pow_two n = (2 ^ Z.log2_up n)%Z.
Proof. exact (next_pow_two_spec n). Qed.
Print Assumptions C51_next_power.
(** The block multiply, for every number type and every buffer length. *)
Theorem C51_multiply {T} {N : Num T} (g : T) (buf : list T) : simd_scalar_multiply g buf = map (fun x => nmul x g) buf.
Proof. exact (simd_spec g buf). Qed.
Print Assumptions C51_multiply.
Example C51_example : next_pow_two 100001 = 131072%Z /\ fm_size (make_fft_manager 3) = 32%nat /\
  simd_scalar_multiply (nofZ 2) (map nofZ [1; 2; 3; 4; 5; 6]%Z) = map nofZ [2; 4; 6; 8; 10; 12]%Z :> list PrimFloat.float.
Proof. repeat split; vm_compute; reflexivity. Qed.
