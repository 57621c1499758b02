(** Model of src/spectrogram.cc and of MiscAudio::PrepareSpectrogramsForComparison. *)
From Coq Require Import ZArith List Bool.
From Verif Require Import Base.Res Base.Num Base.Lists Base.Mat Model.Amatrix Model.MiscMath.
Import ListNotations.
Open Scope Z_scope.

Section Spectrogram.
  Context {T : Type} {N : Num T} {L : Libm T}.

  (** include/spectrogram.h: data_ and center_freq_bands_ *)
  Record spectrogram := MkSpec { sp_data : mat T; sp_cfb : list T }.

  (** std::numeric_limits<double>::epsilon() = 2^-52 *)
  Definition dbl_epsilon : T := ndiv (nofZ 1) (nofZ (2 ^ 52)).

  (** spectrogram.cc:75-82 ConvertSampleToDb *)
  Definition convert_sample_to_db (x : T) : T :=
    let a := if neqb (nabs x) n0 then dbl_epsilon else nabs x in
    nmul (nofZ 10) (mlog10 a).

  (** spectrogram.cc:28-31 ConvertToDb; 42-45 RaiseFloor (std::max(new_floor, d)); 37-40 SubtractFloor *)
  Definition to_db (M : mat T) : mat T := mmap convert_sample_to_db M.
  Definition raise_floor (floor : T) (M : mat T) : mat T := mmap (nmax floor) M.
  Definition subtract_floor (floor : T) (M : mat T) : mat T := mmap (fun x => nsub x floor) M.

  (** spectrogram.cc:33-35 Minimum *)
  Definition spec_min (M : mat T) : res T := min_elem (elems M).

  (** spectrogram.cc:56-71: one iteration of RaiseFloorPerFrame for frame i of both spectrograms *)
  Definition raise_frame (thr : T) (AB : mat T * mat T) (i : nat) : res (mat T * mat T) :=
    let '(A, B) := AB in
    let fa := col_list A i in
    let fb := col_list B i in
    do ma <- max_elem fa;
    do mb <- max_elem fb;
    let floor_db := nsub (nmax ma mb) thr in
    do A' <- m_set_col A (Z.of_nat i) (map (nmax floor_db) fa);
    do B' <- m_set_col B (Z.of_nat i) (map (nmax floor_db) fb);
    Ret (A', B').

  Fixpoint raise_frames (thr : T) (AB : mat T * mat T) (is : list nat) : res (mat T * mat T) :=
    match is with
    | [] => Ret AB
    | i :: t => do AB' <- raise_frame thr AB i; raise_frames thr AB' t
    end.

  (** spectrogram.cc:47-73 RaiseFloorPerFrame *)
  Definition raise_floor_per_frame (thr : T) (A B : mat T) : res (mat T * mat T) :=
    raise_frames thr (A, B) (seq 0 (Nat.min (ncols A) (ncols B))).

  (** misc_audio.cc:35-36 *)
  Definition kNoiseFloorRelativeToPeakDb : T := nofZ 45.
  Definition kNoiseFloorAbsoluteDb : T := nofZ (-45).

  (** misc_audio.cc:167-186 PrepareSpectrogramsForComparison *)
  Definition prepare_spectrograms (A B : mat T) : res (mat T * mat T) :=
    let A := to_db A in
    let B := to_db B in
    let A := raise_floor kNoiseFloorAbsoluteDb A in
    let B := raise_floor kNoiseFloorAbsoluteDb B in
    do '(A, B) <- raise_floor_per_frame kNoiseFloorRelativeToPeakDb A B;
    do ra <- spec_min A;
    do rb <- spec_min B;
    let lowest := nmin ra rb in
    Ret (subtract_floor lowest A, subtract_floor lowest B).
End Spectrogram.
Arguments spectrogram : clear implicits.
