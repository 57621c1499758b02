(** Model of src/analysis_window.cc and src/include/analysis_window.h. *)
From Coq Require Import ZArith List Bool.
From Verif Require Import Base.Res Base.Num Base.Lists.
Import ListNotations.
Open Scope Z_scope.

Section Window.
  Context {T : Type} {N : Num T} {L : Libm T}.

  (** analysis_window.h: size and overlap (window_duration is only used by the constructor) *)
  Record window := MkWin { w_size : nat; w_overlap : T }.

  (** analysis_window.cc:22-26: size = static_cast<size_t>(round(sample_rate * 0.08)) *)
  Definition window_size (sr : Z) : option Z := nround (nmul (nofZ sr) (ndec 8 2)).

  (** visqol_manager.cc:49 kOverlap, 173: AnalysisWindow window{sample_rate, kOverlap} *)
  Definition kOverlap : T := ndec 25 2.
  Definition make_window (sr : Z) : res window :=
    match window_size sr with
    | Some z => if 0 <=? z then Ret (MkWin (Z.to_nat z) kOverlap) else Ub
    | None => Ub
    end.

  (** size_t hop_size = window.size * window.overlap (gammatone_spectrogram_builder.cc:56;
      visqol.cc:78 converts the same product to size_t) *)
  Definition hop_size (w : window) : option Z := ntrunc (nmul (nofnat (w_size w)) (w_overlap w)).

  (** analysis_window.cc:36 *)
  Definition hann (size i : nat) : T :=
    nsub (ndec 5 1)
         (nmul (ndec 5 1)
               (mcos (ndiv (nmul (nmul (nofZ 2) mpi) (nofnat i)) (nofZ (Z.of_nat size - 1))))).

  (** analysis_window.cc:28-44 ApplyHannWindow: the loops run to [size] and index the signal and the
      result, both of the signal's length; a shorter signal is read out of bounds; for a longer one
      the rest of the result keeps the zero it was value-initialised with *)
  Definition apply_hann (w : window) (sig : list T) : res (list T) :=
    let n := w_size w in
    if Nat.ltb (length sig) n then Ub
    else Ret (map (fun i => if Nat.ltb i n then nmul (hann n i) (nth i sig n0) else n0)
                  (seq 0 (length sig))).
End Window.
Arguments window : clear implicits.
