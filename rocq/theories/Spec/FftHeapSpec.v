(** What a caller of the FFT wrappers must provide, and what is left of the memory afterwards. *)
From Coq Require Import ZArith List.
From Verif Require Import Base.Res Base.Num Base.Cplx Model.Fft Model.FftHeap.
Import ListNotations.
Open Scope nat_scope.

Section Spec.
  Context {T : Type} {N : Num T}.
  (** the signal has the samples the manager was made for; the spectrum reaches the Nyquist bin *)
  Definition fits (samples : nat) (c : fft_call T) : Prop :=
    match c with
    | Forward sig => samples <= length sig
    | Inverse spec => fm_size (make_fft_manager samples) / 2 < length spec
    end.
  (** the same call with buffers as values *)
  Definition by_value (fwd zre inv : list T -> list T) (f32 : T -> T) (samples : nat) (c : fft_call T) : res (list (cplx T)) :=
    let pf := MkPffft fwd (fun b => inv (zre b)) f32 in
    match c with
    | Forward sig => forward1d pf (make_fft_manager samples) sig
    | Inverse spec => inverse1d pf (make_fft_manager samples) spec
    end.
  (** the blocks alive, with their contents, are the same *)
  Definition same_memory (h h' : heap T) : Prop := forall i, nth i h' None = nth i h None.
  Definition same_lengths (f : list T -> list T) : Prop := forall l, length (f l) = length l.
End Spec.
