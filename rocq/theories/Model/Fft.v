(** Model of src/fft_manager.cc, src/fast_fourier_transform.cc, src/xcorr.cc and src/envelope.cc.

    PFFFT is external: the transforms are function arguments ([pffft]).  Its buffers hold 32-bit
    floats; the conversion double -> float -> double is the argument [pf_f32].  Signals are single
    columns, given as lists. *)
From Coq Require Import ZArith List Bool.
From Verif Require Import Base.Res Base.Num Base.Lists Base.Mat Base.Cplx Model.Amatrix Model.MiscMath.
Import ListNotations.
Open Scope nat_scope.

Section Fft.
  Context {T : Type} {N : Num T}.

  (** [pf_fwd buf]: pffft_transform_ordered(PFFFT_FORWARD) of a real buffer (canonical packed order:
      re(0), re(n/2), re(1), im(1), ...);  [pf_bwd buf]: pffft_zreorder(PFFFT_BACKWARD) followed by
      pffft_transform(PFFFT_BACKWARD) of such a packed buffer (unscaled). *)
  Record pffft := MkPffft { pf_fwd : list T -> list T; pf_bwd : list T -> list T; pf_f32 : T -> T }.

  (** fft_manager.h: fft_size_ and samples_per_channel_ *)
  Record fft_manager := MkFm { fm_size : nat; fm_samples : nat }.

  (** fft_manager.cc:30-37, kMinFftSize = 32 *)
  Definition make_fft_manager (samples : nat) : fft_manager :=
    MkFm (Z.to_nat (Z.max (next_pow_two (Z.of_nat samples)) 32)) samples.

  (** fft_manager.cc:116-131 SimdScalarMultiply (input and output are the same buffer, 106):
      first the whole chunks of 4, then the left-over samples one by one *)
  Definition mul_at (gain : T) (buf : list T) (i : nat) : list T :=
    upd buf i (nmul (nth i buf n0) gain).
  Definition simd_scalar_multiply (gain : T) (buf : list T) : list T :=
    let len := length buf in
    let chunks := len / 4 in
    let leftover := len mod 4 in
    let buf1 := fold_left (fun b i => fold_left (mul_at gain) [4 * i; 4 * i + 1; 4 * i + 2; 4 * i + 3] b)
                          (seq 0 chunks) buf in
    fold_left (mul_at gain) (seq (len - leftover) leftover) buf1.

  (** consecutive pairs of a packed buffer, fast_fourier_transform.cc:45-50 *)
  Fixpoint pairs (l : list T) : list (cplx T) :=
    match l with
    | a :: b :: t => (a, b) :: pairs t
    | _ => []
    end.
  Fixpoint unpairs (l : list (cplx T)) : list T :=
    match l with
    | [] => []
    | (a, b) :: t => a :: b :: unpairs t
    end.

  (** fast_fourier_transform.cc:52-63: take the Nyquist bin out of bin 0, append it, and mirror *)
  Definition unpack_spectrum (packed : list T) : res (list (cplx T)) :=
    match pairs packed with
    | [] => Ub
    | (re0, im0) :: rest =>
        Ret (((re0, n0) :: rest) ++ (im0, n0) :: map (fun z => (cre z, nmul (cim z) (nofZ (-1)))) (rev rest))
    end.

  (** fast_fourier_transform.cc:26-69 Forward1d; fft_manager.cc:58-77 FreqFromTimeDomain (zero pad to
      the FFT size).  Reading past the end of the input, or more samples than the FFT size, is
      undefined. *)
  Definition forward1d (pf : pffft) (fm : fft_manager) (sig : list T) : res (list (cplx T)) :=
    if Nat.ltb (length sig) (fm_samples fm) || Nat.ltb (fm_size fm) (fm_samples fm) then Ub
    else
      let time := map (pf_f32 pf) (firstn (fm_samples fm) sig) in
      let buf := time ++ repeat n0 (fm_size fm - fm_samples fm) in
      unpack_spectrum (pf_fwd pf buf).

  (** fast_fourier_transform.cc:71-82 Forward1d with zero padding to [points] *)
  Definition forward1d_points (pf : pffft) (fm : fft_manager) (sig : list T) (points : nat)
    : res (list (cplx T)) :=
    forward1d pf fm (firstn points sig ++ repeat n0 (points - length sig)).

  (** fast_fourier_transform.cc:87-98: pack the first half and put the Nyquist bin's real part into
      the imaginary part of bin 0 *)
  Definition pack_spectrum (size : nat) (spec : list (cplx T)) : res (list T) :=
    match nth_error spec (size / 2) with
    | None => Ub
    | Some nyq => Ret (upd (unpairs (firstn (size / 2) spec)) 1 (cre nyq))
    end.

  (** fast_fourier_transform.cc:84-125 Inverse1d; 79-98, 100-106 of fft_manager.cc *)
  Definition inverse1d (pf : pffft) (fm : fft_manager) (spec : list (cplx T)) : res (list (cplx T)) :=
    do packed <- pack_spectrum (fm_size fm) spec;
    let scale := ndiv n1 (nofnat (fm_size fm)) in
    let time := simd_scalar_multiply scale
                  (firstn (fm_samples fm) (pf_bwd pf (map (pf_f32 pf) packed))) in
    Ret (map (fun x => (x, n0)) time).

  (** fast_fourier_transform.cc:127-142 Inverse1dConjSym *)
  Definition inverse1d_conj_sym (pf : pffft) (fm : fft_manager) (spec : list (cplx T)) : res (list T) :=
    do z <- inverse1d pf fm spec; Ret (map cre z).

  (** *** xcorr.cc *)

  (** xcorr.cc:74-76: frexp gives the exponent e with 2^(e-1) <= x < 2^e *)
  Definition fft_points (n : nat) : nat :=
    Z.to_nat (2 ^ (Z.log2 (Z.abs (Z.of_nat n * 2 - 1)) + 1)).

  (** xcorr.cc:87-97 FFTPointwiseProduct *)
  Definition fft_pointwise_product (pf : pffft) (fm : fft_manager) (s1 s2 : list T) (points : nat)
    : res (list (cplx T)) :=
    do f2 <- forward1d_points pf fm s2 points;
    let f2c := map cconj f2 in
    do f1 <- forward1d_points pf fm s1 points;
    if Nat.eqb (length f1) (length f2c)
    then Ret (map (fun p => cmul (fst p) (snd p)) (combine f1 f2c))
    else Throw.

  (** xcorr.cc:59-71: pad the shorter signal with zeros *)
  Definition pad_to (n : nat) (l : list T) : list T := l ++ repeat n0 (n - length l).

  (** xcorr.cc:54-85 InverseFFTPointwiseProduct *)
  Definition inverse_fft_pointwise_product (pf : pffft) (s1 s2 : list T) : res (list T) :=
    let n := Nat.max (length s1) (length s2) in
    let points := fft_points n in
    let fm := make_fft_manager points in
    do prod <- fft_pointwise_product pf fm (pad_to n s1) (pad_to n s2) points;
    inverse1d_conj_sym pf fm prod.

  (** std::max_element and std::distance: index of the first maximal element *)
  Fixpoint argmax_from (best : T) (bi i : nat) (l : list T) : nat :=
    match l with
    | [] => bi
    | x :: t => if nltb best x then argmax_from x i (S i) t else argmax_from best bi (S i) t
    end.
  Definition argmax (l : list T) : nat :=
    match l with [] => 0 | x :: t => argmax_from x 0 1 t end.

  (** xcorr.cc:33-52 FindLowestLagIndex; with two empty signals max_lag is -1 and the iterators leave
      the vector *)
  Definition find_lowest_lag_index (pf : pffft) (s1 s2 : list T) : res Z :=
    let n := Nat.max (length s1) (length s2) in
    do v <- inverse_fft_pointwise_product pf s1 s2;
    if Nat.eqb n 0 || Nat.ltb (length v) n then Ub
    else
      let max_lag := n - 1 in
      let corrs := skipn (length v - max_lag) v ++ firstn (max_lag + 1) v in
      Ret (Z.of_nat (argmax corrs) - Z.of_nat max_lag)%Z.

  (** *** envelope.cc *)

  (** envelope.cc:49-62: the scaling vector for a signal of [n] samples and a spectrum of [m] bins *)
  Definition hilbert_scaling (n m : nat) : list T :=
    let s := repeat n0 m in
    let s := upd s 0 n1 in
    let s := if Nat.eqb n 0 then s
             else upd s (n / 2) (if Nat.eqb (n mod 2) 1 then nofZ 2 else n1) in
    let h := if Nat.eqb (n mod 2) 1 then (m + 1) / 2 else m / 2 in
    fold_left (fun s i => upd s i (nofZ 2)) (seq 1 (h - 1)) s.

  (** envelope.cc:41-72 Hilbert *)
  Definition hilbert (pf : pffft) (sig : list T) : res (list (cplx T)) :=
    let fm := make_fft_manager (length sig) in
    do f <- forward1d pf fm sig;
    let sc := hilbert_scaling (length sig) (length f) in
    let prod := map (fun p => cscale (fst p) (snd p)) (combine f sc) in
    inverse1d pf fm prod.

  (** envelope.cc:28-39 CalcUpperEnv.  The imaginary parts are literally 0.0 (fast_fourier_transform.cc:118),
      so std::abs is the absolute value of the real part. *)
  Definition calc_upper_env (pf : pffft) (sig : list T) : res (list T) :=
    let mean := vec_mean sig in
    do h <- hilbert pf (map (fun x => nsub x mean) sig);
    Ret (map (fun z => nadd (nabs (cre z)) mean) h).
End Fft.
Arguments pffft : clear implicits.
