(** Property C74: signals that are long enough are compared. *)
From Coq Require Import ZArith List Bool Reals.
From Verif Require Import Base.Res Base.Num Base.NumR Model.Window Model.FilterBank Model.Fft Model.MiscAudio Model.Mappers Model.Visqol Model.Manager
  Spec.ManagerSpec Spec.TotalSpec Proofs.FftP Proofs.TotalP Proofs.TotalCasesP.
Import ListNotations.
Open Scope Z_scope.

(** C74: in exact arithmetic, with either mode and any options. *)
Theorem C74_long_enough_signals_compare {L : Libm R} (w : world R) (m : manager R) ref deg :
  keeps_length (w_fft w) -> mg_init m = true -> reachable m ->
  let sr := au_sr ref in let st := mg_settings m in
  au_sr deg = sr -> 44 <= sr < 2 ^ 31 ->
  Z.of_nat (length (au_data ref)) < 2 ^ 29 -> Z.of_nat (length (au_data deg)) < 2 ^ 29 ->
  Z.of_nat (length (au_data ref)) + 2 * window_samples sr < 2 * Z.of_nat (length (au_data deg)) ->
  (if st_speech st then 29 else 45) <= frames_in sr (length (au_data ref)) ->
  (st_speech st = true -> window_samples sr mod 4 = 0 /\ window_samples sr < 2 ^ 24) ->
  1 <= st_radius st -> frames_in sr (length (au_data ref)) + st_radius st * (if st_speech st then 20 else 30) <= 2 ^ 31 ->
  can_predict (st_mapper st) -> exists msg, snd (run w m ref deg) = Ret msg.
Proof. exact (run_returns_at w m ref deg). Qed.
Print Assumptions C74_long_enough_signals_compare.

(** C74 at the default settings of audio mode: 48000 samples per second, search radius 60; 46080 samples are 0.96 seconds. *)
Theorem C74_audio_48000 {L : Libm R} (w : world R) (m : manager R) ref deg : keeps_length (w_fft w) -> mg_init m = true -> reachable m ->
  st_speech (mg_settings m) = false -> st_radius (mg_settings m) = 60 -> can_predict (st_mapper (mg_settings m)) ->
  au_sr ref = 48000 -> au_sr deg = 48000 -> 46080 <= Z.of_nat (length (au_data ref)) < 2 ^ 29 -> Z.of_nat (length (au_data deg)) < 2 ^ 29 ->
  Z.of_nat (length (au_data ref)) + 7680 < 2 * Z.of_nat (length (au_data deg)) -> exists msg, snd (run w m ref deg) = Ret msg.
Proof. exact (run_audio_48000 w m ref deg). Qed.
Print Assumptions C74_audio_48000.

(** the theorem applied: both modes at 50 samples per second (window 4, hop 1), with all alignment switched on, on a ramp *)
Example C74_example (speech : bool) :
  reachable (total_manager speech) /\ mg_init (total_manager speech) = true /\ st_speech (mg_settings (total_manager speech)) = speech /\
  can_predict (st_mapper (mg_settings (total_manager speech))).
Proof. exact (total_reached speech). Qed.
Example C74_runs (speech : bool) :
  exists msg, snd (run total_world (total_manager speech) (ramp (if speech then 32 else 48)) (ramp 50)) = Ret msg.
Proof. exact (total_runs speech). Qed.
Example C74_lengths : window_samples 48000 = 3840 /\ hop_samples 48000 = 960 /\ frames_in 50 48 = 45 /\ frames_in 50 32 = 29 /\
  window_samples 16000 mod 4 = 0 /\ window_samples 44100 mod 4 = 0 /\ window_samples 11025 mod 4 = 2.
Proof. repeat split. Qed.
