(** Property C101: recordings of integer samples, compared in binary64 with accurate elementary functions. *)
From Coq Require Import ZArith List Bool Floats.
From Verif Require Import Base.Res Base.Num Base.NumF Base.Mat Model.Window Model.Erb Model.FilterBank Model.Fft Model.MiscAudio Model.Spectrogram Model.Mappers Model.Visqol Model.Manager
  Spec.ManagerSpec Spec.TotalSpec Spec.UndefinedSpec Spec.StableSpec Spec.LibmSpec Spec.PcmSpec Proofs.FftP Proofs.ToyRunP Proofs.AccurateRunP Proofs.RoundedLibmP Proofs.AccurateCasesP.
Import ListNotations.
Open Scope Z_scope.

(** C101 for the filters: those of both modes are stable at every sample rate from 4000 to 262144 Hz. *)
Theorem C101_filters_stable {L : Libm float} speech sr : accurate L -> 4000 <= sr <= 262144 -> stable_bank speech (fresh_bank speech) sr.
Proof. exact (accurate_bank_at speech sr). Qed.
Print Assumptions C101_filters_stable.
(** C101 for the level: minus infinity for silence, otherwise between -300 and 110 dB. *)
Theorem C101_level {L : Libm float} (s : audio float) : accurate L -> Forall pcm (au_data s) -> 1 <= Z.of_nat (length (au_data s)) < 2 ^ 30 ->
  (Forall (fun x => PrimFloat.eqb x 0 = true) (au_data s) /\ sound_pressure_level s = neg_infinity) \/ from_to (-300) 110 (sound_pressure_level s).
Proof. exact (level_cases s). Qed.
Print Assumptions C101_level.
(** C101 for a silent degraded recording: scaled to the level of the reference, each of its samples is undefined. *)
Theorem C101_silence_becomes_undefined {L : Libm float} (ref d : audio float) : accurate L -> Forall pcm (au_data ref) ->
  1 <= Z.of_nat (length (au_data ref)) < 2 ^ 30 -> 1 <= Z.of_nat (length (au_data d)) < 2 ^ 30 ->
  Forall (fun x => PrimFloat.eqb x 0 = true) (au_data d) -> Forall undefined (au_data (scale_to_match_spl ref d)).
Proof. exact (silent_undefined ref d). Qed.
Print Assumptions C101_silence_becomes_undefined.
(** C101 for a comparison: silence or not, nothing undefined happens; without the second alignment a result is returned, with
    it a result is returned or armadillo throws (see C73). *)
Theorem C101_comparison_defined {L : Libm float} (w : world float) (m : manager float) ref deg :
  accurate L -> keeps_length (w_fft w) -> mg_init m = true -> reachable m ->
  let sr := au_sr ref in let st := mg_settings m in
  au_sr deg = sr -> 4000 <= sr <= 262144 ->
  Z.of_nat (length (au_data ref)) < 2 ^ 29 -> Z.of_nat (length (au_data deg)) < 2 ^ 29 ->
  Z.of_nat (length (au_data ref)) + 2 * window_samples sr < 2 * Z.of_nat (length (au_data deg)) ->
  (if st_speech st then 29 else 45) <= frames_in sr (length (au_data ref)) ->
  (st_speech st = true -> window_samples sr mod 4 = 0) ->
  1 <= st_radius st -> frames_in sr (length (au_data ref)) + st_radius st * (if st_speech st then 20 else 30) <= 2 ^ 31 ->
  can_predict (st_mapper st) -> Forall pcm (au_data ref) -> Forall pcm (au_data deg) ->
  (exists msg, snd (run w m ref deg) = Ret msg) \/ (st_no_realign st = false /\ snd (run w m ref deg) = Throw).
Proof. exact (run_accurate w m ref deg). Qed.
Print Assumptions C101_comparison_defined.
(** correctly rounded functions are accurate *)
Example C101_functions : accurate rounded_libm. Proof. exact rounded_accurate. Qed.
(** a speech recording of 2700 samples at 4000 Hz, compared with itself and with silence *)
Example C101_example : pcm 0.5 /\ pcm 0 /\
  ((exists msg, snd (run (L:=rounded_libm) run_world (plain_manager true) (tone 0.5) (tone 0.5)) = Ret msg) \/
   (true = true /\ snd (run (L:=rounded_libm) run_world (plain_manager true) (tone 0.5) (tone 0.5)) = Throw)) /\
  ((exists msg, snd (run (L:=rounded_libm) run_world (plain_manager false) (tone 0.5) (tone 0)) = Ret msg) \/
   (false = true /\ snd (run (L:=rounded_libm) run_world (plain_manager false) (tone 0.5) (tone 0)) = Throw)).
Proof. exact (conj half_pcm (conj pcm_0 (conj (tone_runs 0.5 true half_pcm) (tone_runs 0 false pcm_0)))). Qed.
