(** Model of the warnings VisqolManager logs about its input (src/visqol_manager.cc). *)
From Coq Require Import ZArith List Bool.
From Verif Require Import Base.Res Base.Num Base.Lists Base.Mat Model.Window Model.FilterBank Model.MiscAudio Model.Alignment Model.Visqol Model.Manager.
Import ListNotations.
Open Scope Z_scope.

Section Warnings.
  Context {T : Type} {N : Num T}.

  (** the three warnings of visqol_manager.cc:246-250, 265-268 and 273-276; the first one prints both durations with "%.2f",
      here they are kept as numbers *)
  Inductive warning := DurationsDiffer (ref deg : T) | AboveSpeechRate | NotAudioRate.

  (** audio_signal.h:42-44 GetDuration *)
  Definition audio_duration (s : audio T) : T := ndiv (nofnat (length (au_data s))) (nofZ (au_sr s)).

  (** visqol_manager.cc:50 *)
  Definition kDurationMismatchTolerance : T := n1.

  (** visqol_manager.cc:242-251 *)
  Definition duration_warnings (ref deg : audio T) : list warning :=
    let r := audio_duration ref in
    let d := audio_duration deg in
    if nltb kDurationMismatchTolerance (nabs (nsub r d)) then [DurationsDiffer r d] else [].

  (** visqol_manager.cc:262-278, constants from lines 42-43 *)
  Definition rate_warnings (speech : bool) (ref : audio T) : list warning :=
    if speech then (if 16000 <? au_sr ref then [AboveSpeechRate] else [])
    else (if au_sr ref =? 48000 then [] else [NotAudioRate]).

  (** visqol_manager.cc:240-281 ValidateInputAudio: what it logs (what it returns is [validate] in Model/Manager.v).
      The durations are looked at before the sample rates are compared, the rates after. *)
  Definition validate_warnings (m : manager T) (ref deg : audio T) : list warning :=
    duration_warnings ref deg ++
    match validate ref deg with
    | Some _ => []
    | None => rate_warnings (st_speech (mg_settings m)) ref
    end.

  (** visqol_manager.cc:155-160: Run validates only if the manager is initialised *)
  Definition run_warnings (m : manager T) (ref deg : audio T) : list warning :=
    if negb (mg_init m) then [] else validate_warnings m ref deg.
End Warnings.
Arguments warning : clear implicits.
