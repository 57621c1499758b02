(** Model of src/gammatone_filterbank.cc and src/gammatone_spectrogram_builder.cc. *)
From Coq Require Import ZArith List Bool.
From Verif Require Import Base.Res Base.Num Base.Cplx Base.Lists Base.Mat Model.Amatrix Model.MiscMath
  Model.Window Model.SignalFilter Model.Erb Model.Spectrogram.
Import ListNotations.
Open Scope Z_scope.

Section FilterBank.
  Context {T : Type} {N : Num T} {L : Libm T}.

  (** audio_signal.h:26-46: data_matrix restricted to one column, and sample_rate *)
  Record audio := MkAudio { au_data : list T; au_sr : Z }.

  (** gammatone_filterbank.h: band count, minimum frequency, the four conditions per band and the
      coefficients per band (lowest band first after the flip) *)
  Record bank := MkBank {
    bk_bands : nat;
    bk_min : T;
    bk_cond : list (list T * list T * list T * list T);
    bk_coef : list (erb_coeffs T) }.

  Definition zero_cond : list T * list T * list T * list T :=
    ([n0; n0], [n0; n0], [n0; n0], [n0; n0]).

  (** gammatone_filterbank.cc:24-31 constructor: zero conditions, no coefficients yet *)
  Definition bank_init (n : nat) (min_freq : T) : bank :=
    MkBank n min_freq (repeat zero_cond n) [].

  (** gammatone_filterbank.cc:37-42 ResetFilterConditions *)
  Definition reset_conditions (k : bank) : bank :=
    MkBank (bk_bands k) (bk_min k) (repeat zero_cond (bk_bands k)) (bk_coef k).

  (** gammatone_filterbank.cc:44-56 SetFilterCoefficients *)
  Definition set_coefficients (k : bank) (cs : list (erb_coeffs T)) : bank :=
    MkBank (bk_bands k) (bk_min k) (bk_cond k) cs.

  (** gammatone_filterbank.cc:65-92: the four cascaded biquads of one band *)
  Definition band_filter (c : erb_coeffs T) (cond : list T * list T * list T * list T) (sig : list T)
    : res (list T * (list T * list T * list T * list T)) :=
    let '(f1, f2, f3, f4) := cond in
    let g := e_gain c in
    let a1 := [ndiv (e_A0 c) g; ndiv (e_A11 c) g; ndiv (e_A2 c) g] in
    let a2 := [e_A0 c; e_A12 c; e_A2 c] in
    let a3 := [e_A0 c; e_A13 c; e_A2 c] in
    let a4 := [e_A0 c; e_A14 c; e_A2 c] in
    let b := [e_B0 c; e_B1 c; e_B2 c] in
    do '(y1, g1) <- signal_filter a1 b sig f1;
    do '(y2, g2) <- signal_filter a2 b y1 f2;
    do '(y3, g3) <- signal_filter a3 b y2 f3;
    do '(y4, g4) <- signal_filter a4 b y3 f4;
    Ret (y4, (g1, g2, g3, g4)).

  Fixpoint bands_filter (cs : list (erb_coeffs T)) (conds : list (list T * list T * list T * list T))
           (n : nat) (sig : list T) : res (list (list T) * list (list T * list T * list T * list T)) :=
    match n, cs, conds with
    | O, _, rest => Ret ([], rest)
    | S n', c :: cs', f :: fs' =>
        do '(y, f') <- band_filter c f sig;
        do '(ys, fs'') <- bands_filter cs' fs' n' sig;
        Ret (y :: ys, f' :: fs'')
    | S _, _, _ => Ub
    end.

  (** gammatone_filterbank.cc:58-95 ApplyFilter: one output row per band (rows kept as lists; the code
      stores them with SetRow in a num_bands x signal.size() matrix, whose lengths always agree) *)
  Definition apply_filter (k : bank) (sig : list T) : res (list (list T) * bank) :=
    do '(ys, fs) <- bands_filter (bk_coef k) (bk_cond k) (bk_bands k) sig;
    Ret (ys, MkBank (bk_bands k) (bk_min k) fs (bk_coef k)).

  (** gammatone_spectrogram_builder.cc:82-87: RMS of each row *)
  Definition row_rms (y : list T) : T := nsqrt (vmean (map nsq y)).

  (** gammatone_spectrogram_builder.cc:69-90: one spectrogram column per frame *)
  Fixpoint build_frames (w : window T) (hop : nat) (sig : list T) (is : list nat) (k : bank)
    : res (list (list T) * bank) :=
    match is with
    | [] => Ret ([], k)
    | i :: t =>
        let start := (i * hop)%nat in
        if Nat.ltb (length sig) (start + w_size w) then Ub      (* std::slice past the end *)
        else
          do wf <- apply_hann w (firstn (w_size w) (skipn start sig));
          do '(ys, k') <- apply_filter (reset_conditions k) wf;
          do '(cols, k'') <- build_frames w hop sig t k';
          Ret (map row_rms ys :: cols, k'')
    end.

  (** gammatone_spectrogram_builder.cc:32 kSpeechModeMaxFreq, 42 *)
  Definition builder_max_freq (speech : bool) (sr : Z) : T :=
    if speech then nofZ 8000 else ndiv (nofZ sr) (nofZ 2).

  (** gammatone_spectrogram_builder.cc:44-53: the bank with this signal's coefficients *)
  Definition prepared_bank (speech : bool) (k : bank) (sr : Z) : bank * list T :=
    let '(cs, cfs) := make_filters sr (bk_bands k) (bk_min k) (builder_max_freq speech sr) in
    (reset_conditions (set_coefficients k (rev cs)), rev cfs).

  (** gammatone_spectrogram_builder.cc:38-103 Build.  The filter bank is a member of the builder and
      keeps its conditions and coefficients between calls; the new bank is returned whatever the
      outcome. *)
  Definition build (speech : bool) (k : bank) (s : audio) (w : window T)
    : bank * res (spectrogram T) :=
    let '(k1, cfb) := prepared_bank speech k (au_sr s) in
    let n := length (au_data s) in
    match hop_size w with
    | None => (k1, Ub)
    | Some hop =>
        if Nat.leb n (w_size w) then (k1, Err InvalidArgument)
        else if hop <=? 0 then (k1, Ub)                         (* division by zero *)
        else
          let num_cols := (1 + (n - w_size w) / Z.to_nat hop)%nat in
          match build_frames w (Z.to_nat hop) (au_data s) (seq 0 num_cols) k1 with
          | Ret (cols, k2) =>
              (k2, Ret (MkSpec (MkMat (bk_bands k) num_cols (concat cols)) cfb))
          | Err c => (k1, Err c)
          | Throw => (k1, Throw)
          | Ub => (k1, Ub)
          end
    end.
End FilterBank.
Arguments audio : clear implicits.
Arguments bank : clear implicits.
