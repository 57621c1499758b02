(** Array-level model of src/include/complex_valarray.h, src/complex_valarray.cc, of MakeFilters in
    src/equivalent_rectangular_bandwidth.cc, of src/gammatone_filterbank.cc and of Build in
    src/gammatone_spectrogram_builder.cc: the std::valarrays and matrices the code really uses, with
    every unchecked subscript ([Ub] out of range).  Model/Erb.v and Model/FilterBank.v describe the same
    functions band by band; Props/BankArraysProps.v relates the two. *)
From Coq Require Import ZArith List Bool.
From Verif Require Import Base.Res Base.Num Base.Cplx Base.Lists Base.Mat Model.Amatrix Model.MiscMath
  Model.Window Model.SignalFilter Model.Erb Model.Spectrogram Model.FilterBank.
Import ListNotations.
Open Scope Z_scope.

Section Arrays.
  Context {T : Type} {N : Num T} {L : Libm T}.
  Variable carg : cplx T -> T.     (* std::arg *)
  Local Open Scope num_scope.

  (** std::valarray / std::vector operator[]: unchecked *)
  Definition rd {A : Type} (v : list A) (i : nat) : res A :=
    match nth_error v i with Some x => Ret x | None => Ub end.
  (** unchecked store *)
  Definition wr {A : Type} (v : list A) (i : nat) (x : A) : res (list A) :=
    if Nat.ltb i (length v) then Ret (upd v i x) else Ub.
  (** for (i = 0; i < n; i++) out[i] = f(i), [out] having n elements *)
  Fixpoint fill {A : Type} (f : nat -> res A) (is : list nat) : res (list A) :=
    match is with
    | [] => Ret []
    | i :: t => do x <- f i; do xs <- fill f t; Ret (x :: xs)
    end.
  Definition for_each {A : Type} (n : nat) (f : nat -> res A) : res (list A) := fill f (seq 0 n).

  (** complex_valarray.h:28-30 *)
  Definition cva : Type := list (cplx T).
  (** complex_valarray.h:35-47: real parts given, imaginary parts zero *)
  Definition va_of (v : list T) : cva := map cofr v.
  (** complex_valarray.h:51-57, 67-73, 75-81, 91-97, 99-105, 115-121, 139-145, 151-173 and
      complex_valarray.cc:21-35: operators with one array operand *)
  Definition va1 (f : cplx T -> cplx T) (v : cva) : res cva := for_each (length v) (fun i => do a <- rd v i; Ret (f a)).
  (** complex_valarray.h:59-65, 83-89, 107-113, 123-129: operators with two array operands, subscripting
      the second by the size of the first *)
  Definition va2 (f : cplx T -> cplx T -> cplx T) (v w : cva) : res cva :=
    for_each (length v) (fun i => do a <- rd v i; do b <- rd w i; Ret (f a b)).
  (** complex_valarray.h:175-189 abs, ToDoubleVector *)
  Definition va_abs (v : cva) : res (list T) := for_each (length v) (fun i => do a <- rd v i; Ret (cabs a)).
  Definition va_real (v : cva) : res (list T) := for_each (length v) (fun i => do a <- rd v i; Ret (cre a)).

  (** std::pow(double, double), taken to be exp(y log x) (positive x only occur) *)
  Definition dpow (x y : T) : T := mexp (y * mlog x).
  (** std::pow(complex, double) as in libstdc++: real power of a positive real, otherwise polar form *)
  Definition cpow (z : cplx T) (y : T) : cplx T :=
    if neqb (cim z) n0 && nltb n0 (cre z) then cofr (dpow (cre z) y)
    else
      let m := mexp (y * mlog (cabs z)) in
      let a := y * carg z in
      (m * mcos a, m * msin a).
  (** std::sin(complex), std::cos(complex) *)
  Definition ccosh (x : T) : T := (mexp x + mexp (- x)) / nofZ 2.
  Definition csinh (x : T) : T := (mexp x - mexp (- x)) / nofZ 2.
  Definition csin (z : cplx T) : cplx T := (msin (cre z) * ccosh (cim z), mcos (cre z) * csinh (cim z)).
  Definition ccos (z : cplx T) : cplx T := (mcos (cre z) * ccosh (cim z), - (msin (cre z) * csinh (cim z))).
  (** complex + double, complex / double *)
  Definition cadd_r (z : cplx T) (x : T) : cplx T := (cre z + x, cim z).
  Definition cdiv_r (z : cplx T) (x : T) : cplx T := (cre z / x, cim z / x).

  Definition scale (x : T) (v : cva) : res cva := va1 (fun z => cscale z x) v.     (* v * x, x * v *)
  Definition over (v : cva) (x : T) : res cva := va1 (fun z => cdiv_r z x) v.       (* v / x *)

  (** equivalent_rectangular_bandwidth.cc:26-117 MakeFilters, statement by statement: the ten vectors of
      filterCoeffs and centerFreqs.  [y] of line 93 is not used by the code. *)
  Definition make_filters_arrays (sr : Z) (n : nat) (low high : T) : res (list (list T) * list T) :=
    let cf1 := center_freqs low (capped_high sr high) n in
    let cf := va_of cf1 in
    let order := nofZ 1 in
    do B <- for_each n (fun i => do c <- rd cf i;
              let erb := cpow (cadd_r (cpow (cdiv_r c earQ) order) (dpow minBW order)) (nofZ 1 / order) in
              Ret (cscale erb (ndec 1019 3 * nofZ 2 * mpi)));
    let T_ := nofZ 1 / nofZ sr in
    do BT <- scale T_ B;
    do expBT <- va1 cexp BT;
    do B1 <- for_each (length B) (fun i => do c <- rd cf i; do e <- rd expBT i;
              Ret (cdiv (cscale (ccos (cscale (cscale (cscale c (nofZ 2)) mpi) T_)) (nofZ (-2))) e));
    do BT2 <- scale (nofZ (-2)) BT;
    do B2 <- va1 cexp BT2;
    do w1 <- scale (nofZ 2) cf; do w2 <- scale mpi w1; do w <- scale T_ w2;
    do sw <- va1 csin w;
    do b1 <- scale T_ sw;
    do b1_2 <- scale (nofZ 2) b1;
    do bPos <- scale (nsqrt (nofZ 3 + dpow (nofZ 2) (ndec 15 1))) b1_2;
    do bNeg <- scale (nsqrt (nofZ 3 + - dpow (nofZ 2) (ndec 15 1))) b1_2;
    do cw <- va1 ccos w;
    do a2 <- scale (nofZ 2) cw; do a <- scale T_ a2;
    do ae <- va2 cdiv a expBT;
    do pe <- va2 cdiv bPos expBT;
    do ne <- va2 cdiv bNeg expBT;
    do s11 <- va2 cadd ae pe; do m11 <- va1 copp s11; do A11 <- over m11 (nofZ 2);
    do s12 <- va2 csub ae pe; do m12 <- va1 copp s12; do A12 <- over m12 (nofZ 2);
    do s13 <- va2 cadd ae ne; do m13 <- va1 copp s13; do A13 <- over m13 (nofZ 2);
    do s14 <- va2 csub ae ne; do m14 <- va1 copp s14; do A14 <- over m14 (nofZ 2);
    let p1 := dpow (nofZ 2) (nofZ 3 / nofZ 2) in
    let s1 := nsqrt (nofZ 3 - p1) in
    let s2 := nsqrt (nofZ 3 + p1) in
    do q1 <- va1 (fun z => cmul z (n0, nofZ 4)) cf; do q2 <- scale mpi q1; do q3 <- scale T_ q2;
    do xExp <- va1 cexp q3;
    do x01a <- scale (nofZ (-2)) xExp; do x01 <- scale T_ x01a;
    do mBT <- va1 copp BT;
    do r1 <- va1 (fun z => cmul z (n0, nofZ 2)) cf; do r2 <- scale mpi r1; do r3 <- scale T_ r2;
    do r4 <- va2 cadd mBT r3; do r5 <- va1 cexp r4; do r6 <- scale (nofZ 2) r5; do x02 <- scale T_ r6;
    do xCos <- va1 ccos w;
    do xSin <- va1 csin w;
    do s1x <- scale s1 xSin;
    do s2x <- scale s2 xSin;
    do x12 <- va2 csub xCos s1x; do p1x <- va2 cmul x02 x12; do x1 <- va2 cadd x01 p1x;
    do x22 <- va2 cadd xCos s1x; do p2x <- va2 cmul x02 x22; do x2 <- va2 cadd x01 p2x;
    do x32 <- va2 csub xCos s2x; do p3x <- va2 cmul x02 x32; do x3 <- va2 cadd x01 p3x;
    do x42 <- va2 cadd xCos s2x; do p4x <- va2 cmul x02 x42; do x4 <- va2 cadd x01 p4x;
    do B_2 <- scale (nofZ 2) B; do B_2T <- scale T_ B_2; do e2 <- va1 cexp B_2T;
    do u1 <- va1 (fun z => cdiv (cofr (nofZ (-2))) z) e2;
    do u2 <- scale (nofZ 2) xExp;
    do u3 <- va2 csub u1 u2;
    do u4 <- va1 (fun z => cadd_r z (nofZ 1)) xExp; do u5 <- scale (nofZ 2) u4;
    do eBT <- va1 cexp BT; do u6 <- va2 cdiv u5 eBT;
    do x5 <- va2 cadd u3 u6;
    do g1 <- va2 cmul x1 x2; do g2 <- va2 cmul g1 x3; do g3 <- va2 cmul g2 x4;
    do g4 <- va1 (fun z => cpow z (nofZ 4)) x5;
    do g5 <- va2 cdiv g3 g4;
    do gain <- va_abs g5;
    do A11r <- va_real A11; do A12r <- va_real A12; do A13r <- va_real A13; do A14r <- va_real A14;
    do B1r <- va_real B1; do B2r <- va_real B2; do cfr <- va_real cf;
    Ret ([repeat T_ n; A11r; A12r; A13r; A14r; repeat n0 n; repeat (nofZ 1) n; B1r; B2r; gain], cfr).

  (** gammatone_filterbank.h:90-117: number of bands, minimum frequency, the four valarrays of
      conditions and the ten valarrays of coefficients in the order A0 A11 A12 A13 A14 A2 B0 B1 B2 gain *)
  Record vbank := MkVBank {
    vb_bands : nat; vb_min : T;
    vb_c1 : list (list T); vb_c2 : list (list T); vb_c3 : list (list T); vb_c4 : list (list T);
    vb_coef : list (list T) }.

  (** gammatone_filterbank.cc:37-42 *)
  Definition vreset (k : vbank) : vbank :=
    let z := repeat [n0; n0] (vb_bands k) in MkVBank (vb_bands k) (vb_min k) z z z z (vb_coef k).

  (** amatrix.cc:224-226 GetColumn followed by 353-357 ToValArray: cols(c, c) is checked *)
  Definition column_array (M : mat T) (c : Z) : res (list T) := do C <- m_cols M c c; m_to_vector C.
  (** gammatone_filterbank.cc:44-56 SetFilterCoefficients *)
  Definition vset (k : vbank) (M : mat T) : res vbank :=
    do cs <- fill (fun j => column_array M (Z.of_nat j)) (seq 0 10);
    Ret (MkVBank (vb_bands k) (vb_min k) (vb_c1 k) (vb_c2 k) (vb_c3 k) (vb_c4 k) cs).

  (** gammatone_filterbank.cc:65-90: one pass of the loop over the channels *)
  Definition vchan (sig : list T) (st : mat T * vbank) (ch : nat) : res (mat T * vbank) :=
    let '(out, k) := st in
    let co j := do a <- rd (vb_coef k) j; rd a ch in
    do A0 <- co 0%nat; do A11 <- co 1%nat; do A12 <- co 2%nat; do A13 <- co 3%nat; do A14 <- co 4%nat;
    do A2 <- co 5%nat; do B0 <- co 6%nat; do B1 <- co 7%nat; do B2 <- co 8%nat; do g <- co 9%nat;
    let b := [B0; B1; B2] in
    do i1 <- rd (vb_c1 k) ch;
    do '(y1, f1) <- signal_filter [A0 / g; A11 / g; A2 / g] b sig i1;
    do c1 <- wr (vb_c1 k) ch f1;
    do i2 <- rd (vb_c2 k) ch;
    do '(y2, f2) <- signal_filter [A0; A12; A2] b y1 i2;
    do c2 <- wr (vb_c2 k) ch f2;
    do i3 <- rd (vb_c3 k) ch;
    do '(y3, f3) <- signal_filter [A0; A13; A2] b y2 i3;
    do c3 <- wr (vb_c3 k) ch f3;
    do i4 <- rd (vb_c4 k) ch;
    do '(y4, f4) <- signal_filter [A0; A14; A2] b y3 i4;
    do c4 <- wr (vb_c4 k) ch f4;
    do out' <- m_set_row out (Z.of_nat ch) y4;
    Ret (out', MkVBank (vb_bands k) (vb_min k) c1 c2 c3 c4 (vb_coef k)).
  Fixpoint vchans (sig : list T) (st : mat T * vbank) (chs : list nat) : res (mat T * vbank) :=
    match chs with
    | [] => Ret st
    | ch :: t => do st' <- vchan sig st ch; vchans sig st' t
    end.
  (** gammatone_filterbank.cc:58-93 ApplyFilter *)
  Definition vapply (k : vbank) (sig : list T) : res (mat T * vbank) :=
    vchans sig (m_new (vb_bands k) (length sig), k) (seq 0 (vb_bands k)).

  (** gammatone_spectrogram_builder.cc:69-90: one frame into one column *)
  Definition vframe (w : window T) (hop : nat) (sig : list T) (st : mat T * vbank) (i : nat) : res (mat T * vbank) :=
    let '(out, k) := st in
    let start := (i * hop)%nat in
    if Nat.ltb (length sig) (start + w_size w) then Ub      (* std::slice past the end *)
    else
      do wf <- apply_hann w (firstn (w_size w) (skipn start sig));
      do '(F, k') <- vapply (vreset k) wf;
      let means := m_mean_rows (mmap nsq F) in
      let roots := mmap nsqrt means in
      (* matrix_.col(i) = matrix: one column of the right height *)
      if negb (Nat.eqb (ncols roots) 1) then Throw
      else do out' <- m_set_col out (Z.of_nat i) (elems roots); Ret (out', k').
  Fixpoint vframes (w : window T) (hop : nat) (sig : list T) (st : mat T * vbank) (is : list nat) : res (mat T * vbank) :=
    match is with
    | [] => Ret st
    | i :: t => do st' <- vframe w hop sig st i; vframes w hop sig st' t
    end.

  (** gammatone_spectrogram_builder.cc:38-103 Build; the signal is the single column [au_data].  The bank
      is the one left behind: unchanged if the coefficients cannot be made, reset if the signal is
      refused. *)
  Definition vbuild (speech : bool) (k : vbank) (s : audio T) (w : window T) : vbank * res (spectrogram T) :=
    let prepared :=
      do '(cols, cfs) <- make_filters_arrays (au_sr s) (vb_bands k) (vb_min k) (builder_max_freq speech (au_sr s));
      do M <- m_of_cols cols;
      do k' <- vset k (m_flipud M);
      Ret (vreset k', rev cfs) in
    match prepared with
    | Ret (k1, cfb) =>
        let n := length (au_data s) in
        match hop_size w with
        | None => (k1, Ub)
        | Some hop =>
            if Nat.leb n (w_size w) then (k1, Err InvalidArgument)
            else if Z.leb hop 0 then (k1, Ub)
            else
              let num_cols := (1 + (n - w_size w) / Z.to_nat hop)%nat in
              match vframes w (Z.to_nat hop) (au_data s) (m_new (vb_bands k1) num_cols, k1) (seq 0 num_cols) with
              | Ret (out, k2) => (k2, Ret (MkSpec out cfb))
              | Err c => (k1, Err c)
              | Throw => (k1, Throw)
              | Ub => (k1, Ub)
              end
        end
    | Err c => (k, Err c)
    | Throw => (k, Throw)
    | Ub => (k, Ub)
    end.
End Arrays.
Arguments vbank : clear implicits.
