(** Model of src/equivalent_rectangular_bandwidth.cc (with src/include/complex_valarray.h). *)
From Coq Require Import ZArith List Bool.
From Verif Require Import Base.Res Base.Num Base.Cplx Base.Lists Base.Mat Model.Amatrix.
Import ListNotations.
Open Scope Z_scope.

Section Erb.
  Context {T : Type} {N : Num T} {L : Libm T}.
  Local Open Scope num_scope.

  (** equivalent_rectangular_bandwidth.cc:45-46, 121-122 *)
  Definition earQ : T := ndec 926449 5.
  Definition minBW : T := ndec 247 1.

  (** equivalent_rectangular_bandwidth.cc:119-140 CalcUniformCenterFreqs *)
  Definition center_freqs (low high : T) (n : nat) : list T :=
    let a := - (earQ * minBW) in
    let b := - (mlog (high + earQ * minBW)) in
    let c := mlog (low + earQ * minBW) in
    let d := high + earQ * minBW in
    let e := (b + c) / nofnat n in
    map (fun i => a + mexp (nofnat (S i) * e) * d) (seq 0 n).

  (** one row of filter coefficients: A0 A11 A12 A13 A14 A2 B0 B1 B2 gain *)
  Record erb_coeffs := MkErb {
    e_A0 : T; e_A11 : T; e_A12 : T; e_A13 : T; e_A14 : T; e_A2 : T;
    e_B0 : T; e_B1 : T; e_B2 : T; e_gain : T }.

  (** M_SQRT-like constants of lines 64-65, 74-76: pow(2.0, 1.5), sqrt(3 +- 2^1.5) *)
  Definition p15 : T := nsqrt (nofZ 8).    (* pow(2, 1.5) = sqrt 8 *)
  Definition s1 : T := nsqrt (nofZ 3 - p15).
  Definition s2 : T := nsqrt (nofZ 3 + p15).

  (** equivalent_rectangular_bandwidth.cc:49-99 for one channel with centre frequency [cf].
      cf, B, B1, B2, expBT and the A's are std::complex with zero imaginary part in the code; they are
      represented here by their real part.  pow(x, order) with order = 1.0 is x.  x^4.0 is written as
      a product; gain is the modulus. *)
  Definition erb_channel (sr : Z) (cf : T) : erb_coeffs :=
    let erb := cf / earQ + minBW in
    let B := ndec 1019 3 * nofZ 2 * mpi * erb in
    let T_ := nofZ 1 / nofZ sr in
    let expBT := mexp (B * T_) in
    let B1 := nofZ (-2) * mcos (nofZ 2 * cf * mpi * T_) / expBT in
    let B2 := mexp (B * T_ * nofZ (-2)) in
    let b1 := msin (cf * nofZ 2 * mpi * T_) * T_ in
    let bPos := b1 * nofZ 2 * s2 in
    let bNeg := b1 * nofZ 2 * s1 in
    let a := mcos (cf * nofZ 2 * mpi * T_) * nofZ 2 * T_ in
    let A11 := - (a / expBT + bPos / expBT) / nofZ 2 in
    let A12 := - (a / expBT - bPos / expBT) / nofZ 2 in
    let A13 := - (a / expBT + bNeg / expBT) / nofZ 2 in
    let A14 := - (a / expBT - bNeg / expBT) / nofZ 2 in
    let xExp := cexp (n0, nofZ 4 * cf * mpi * T_) in
    let x01 := cscale xExp (nofZ (-2) * T_) in
    let x02 := cscale (cexp (- (B * T_), nofZ 2 * cf * mpi * T_)) (nofZ 2 * T_) in
    let xCos := mcos (nofZ 2 * cf * mpi * T_) in
    let xSin := msin (nofZ 2 * cf * mpi * T_) in
    let x1 := cadd x01 (cscale x02 (xCos - s1 * xSin)) in
    let x2 := cadd x01 (cscale x02 (xCos + s1 * xSin)) in
    let x3 := cadd x01 (cscale x02 (xCos - s2 * xSin)) in
    let x4 := cadd x01 (cscale x02 (xCos + s2 * xSin)) in
    let x5 := cadd (csub (cofr (nofZ (-2) / mexp (nofZ 2 * B * T_))) (cscale xExp (nofZ 2)))
                   (cscale (cadd (cofr n1) xExp) (nofZ 2 / mexp (B * T_))) in
    let x5_4 := cmul (cmul x5 x5) (cmul x5 x5) in
    let gain := cabs (cdiv (cmul (cmul (cmul x1 x2) x3) x4) x5_4) in
    MkErb T_ A11 A12 A13 A14 n0 n1 B1 B2 gain.

  (** equivalent_rectangular_bandwidth.cc:26-40: the upper frequency is capped at sample_rate / 2 *)
  Definition capped_high (sr : Z) (high : T) : T :=
    let half := nofZ sr / nofZ 2 in
    if nltb half high then half else high.

  (** equivalent_rectangular_bandwidth.cc:26-117 MakeFilters: coefficients and centre frequencies,
      highest band first *)
  Definition make_filters (sr : Z) (n : nat) (low high : T) : list erb_coeffs * list T :=
    let cfs := center_freqs low (capped_high sr high) n in
    (map (erb_channel sr) cfs, cfs).
End Erb.
Arguments erb_coeffs : clear implicits.
