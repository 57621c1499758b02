(** Property C112: the warnings about the input. *)
From Coq Require Import ZArith List Bool Reals Floats.
From Verif Require Import Base.Res Base.Num Base.NumR Base.NumF Base.Mat Model.Window Model.FilterBank Model.MiscAudio Model.Alignment Model.Visqol Model.Manager Model.Warnings
  Spec.ManagerSpec Spec.WarningSpec Proofs.ToyRunP Proofs.RoundedLibmP Proofs.AccurateCasesP Proofs.WarningP Proofs.WarningCasesP.
Import ListNotations.
Open Scope Z_scope.

(** C112 is false in binary64: recordings of 32002 and 16002 samples at 16000 Hz differ by exactly one second, and any initialised manager warns. *)
Theorem C112_durations_refuted : exists (ref deg : audio PrimFloat.float), au_sr ref = au_sr deg /\ ~ durations_differ ref deg /\
  forall m : manager PrimFloat.float, mg_init m = true -> warned_duration (run_warnings m ref deg).
Proof. exact second_witness. Qed.
Print Assumptions C112_durations_refuted.
Example C112_refuted_example : mg_init (plain_manager false) = true. Proof. exact (proj1 (proj2 (plain_reached false))). Qed.

(** What holds in binary64: with the same rate and durations that do not differ by exactly one second the warning is right. *)
Theorem C112_durations_partial (m : manager PrimFloat.float) (ref deg : audio PrimFloat.float) : mg_init m = true -> au_sr ref = au_sr deg -> 1 <= au_sr ref <= 2 ^ 30 ->
  Z.of_nat (length (au_data ref)) <= 2 ^ 40 -> Z.of_nat (length (au_data deg)) <= 2 ^ 40 ->
  Z.abs (Z.of_nat (length (au_data ref)) - Z.of_nat (length (au_data deg))) <> au_sr ref ->
  (warned_duration (run_warnings m ref deg) <-> durations_differ ref deg).
Proof. exact (float_durations m ref deg). Qed.
Print Assumptions C112_durations_partial.
(** one sample more than a second is warned about, one sample less is not *)
Example C112_example : mg_init (plain_manager false) = true /\
  warned_duration (run_warnings (plain_manager false) (quiet 32003) (quiet 16002)) /\ ~ warned_duration (run_warnings (plain_manager false) (quiet 32001) (quiet 16002)).
Proof. exact around_second. Qed.

(** Without rounding the warning is right for any two positive rates. *)
Theorem C112_exact (m : manager R) (ref deg : audio R) : mg_init m = true -> 0 < au_sr ref -> 0 < au_sr deg ->
  (warned_duration (run_warnings m ref deg) <-> durations_differ ref deg).
Proof. exact (exact_durations m ref deg). Qed.
Print Assumptions C112_exact.
Example C112_exact_example : durations_differ (MkAudio [0%R; 0%R; 0%R; 0%R] 1) (MkAudio [0%R; 0%R] 2). Proof. reflexivity. Qed.

(** The warnings about the rate, in any arithmetic: only where both rates agree, above 16000 Hz for speech and for all but 48000 Hz for audio. *)
Theorem C112_rates {T : Type} {N : Num T} (m : manager T) (ref deg : audio T) : mg_init m = true ->
  (In AboveSpeechRate (run_warnings m ref deg) <-> au_sr ref = au_sr deg /\ st_speech (mg_settings m) = true /\ 16000 < au_sr ref) /\
  (In NotAudioRate (run_warnings m ref deg) <-> au_sr ref = au_sr deg /\ st_speech (mg_settings m) = false /\ au_sr ref <> 48000).
Proof. exact (rates_warned m ref deg). Qed.
Print Assumptions C112_rates.
Example C112_rates_example : mg_init (plain_manager false) = true /\ st_speech (mg_settings (plain_manager false)) = true. Proof. split; reflexivity. Qed.

(** The warning about the durations comes first and shows the duration of the reference and then that of the degraded recording, in any arithmetic. *)
Theorem C112_shown {T : Type} {N : Num T} (m : manager T) (ref deg : audio T) r d : In (DurationsDiffer r d) (run_warnings m ref deg) ->
  mg_init m = true /\ r = ndiv (nofnat (length (au_data ref))) (nofZ (au_sr ref)) /\ d = ndiv (nofnat (length (au_data deg))) (nofZ (au_sr deg)) /\
  hd_error (run_warnings m ref deg) = Some (DurationsDiffer r d).
Proof. exact (shown_durations m ref deg r d). Qed.
Print Assumptions C112_shown.
Example C112_shown_example :
  In (DurationsDiffer 2%float 0.75%float) (run_warnings (plain_manager false) (MkAudio (repeat 0%float 8) 4) (MkAudio (repeat 0%float 3) 4)).
Proof. vm_compute. left. reflexivity. Qed.
