(** Model of the two GetDuration functions: WavReader's (from the header) and AudioSignal's (from the samples). *)
From Coq Require Import ZArith List.
From Verif Require Import Base.Res Base.Num Base.Mat Model.Amatrix Model.Wav.
Open Scope Z_scope.

Section Duration.
  Context {T : Type} {N : Num T}.

  (** wav_reader.cc:257-260: size_t division, then division by the int sample rate as a double *)
  Definition wav_duration (w : wav_info) : T := ndiv (nofZ (wv_total w / wv_channels w)) (nofZ (wv_rate w)).

  (** audio_signal.h:42-44: rows over the size_t sample rate as a double; reading a rate never set is undefined *)
  Definition signal_duration (s : loaded T) : res T :=
    match ld_sr s with
    | Some r => Ret (ndiv (nofZ (Z.of_nat (nrows (ld_data s)))) (nofZ r))
    | None => Ub
    end.
End Duration.
