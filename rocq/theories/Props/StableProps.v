(** Property C100: the filter bank in binary64. *)
From Coq Require Import ZArith List Bool Floats.
From Verif Require Import Base.Res Base.Num Base.NumF Base.Mat Model.Window Model.Erb Model.FilterBank Model.Fft Model.Spectrogram Model.Mappers Model.Visqol Model.Manager
  Spec.ManagerSpec Spec.TotalSpec Spec.UndefinedSpec Spec.StableSpec Proofs.FftP Proofs.ToyRunP Proofs.FiniteCasesP Proofs.StableCasesP.
Import ListNotations.
Open Scope Z_scope.

(** C100 for one band: samples up to 2^100 give an output up to 2^426, rounding errors included. *)
Theorem C100_band_bounded (c : erb_coeffs float) sig : stable c -> Z.of_nat (length sig) <= 2 ^ 20 -> Forall (within 0x1p100) sig ->
  exists y f, band_filter c zero_cond sig = Ret (y, f) /\ length y = length sig /\ Forall (within 0x1p426) y.
Proof. exact (band_within c sig). Qed.
Print Assumptions C100_band_bounded.
(** C100 for the spectrogram: every entry is a finite number that is not negative. *)
Theorem C100_spectrogram_finite {L : Libm float} speech (k : bank float) (s : audio float) w sp : sane_cos -> 2 <= Z.of_nat (w_size w) <= 2 ^ 20 ->
  stable_bank speech k (au_sr s) -> Forall (within 0x1p100) (au_data s) -> snd (build speech k s w) = Ret sp ->
  Forall (from_to 0 0x1p500) (elems (sp_data sp)).
Proof. exact (spectrogram_within speech k s w sp). Qed.
Print Assumptions C100_spectrogram_finite.
(** C100 for a comparison: nothing is undefined; without the second alignment a result is returned, with it a result is
    returned or armadillo throws (see C73). *)
Theorem C100_comparison_defined {L : Libm float} (w : world float) (m : manager float) ref deg :
  sane_log mlog10 -> sane_cos -> keeps_length (w_fft w) -> mg_init m = true -> reachable m ->
  let sr := au_sr ref in let st := mg_settings m in
  au_sr deg = sr -> 44 <= sr <= 13000000 ->
  Z.of_nat (length (au_data ref)) < 2 ^ 29 -> Z.of_nat (length (au_data deg)) < 2 ^ 29 ->
  Z.of_nat (length (au_data ref)) + 2 * window_samples sr < 2 * Z.of_nat (length (au_data deg)) ->
  (if st_speech st then 29 else 45) <= frames_in sr (length (au_data ref)) ->
  (st_speech st = true -> window_samples sr mod 4 = 0) ->
  1 <= st_radius st -> frames_in sr (length (au_data ref)) + st_radius st * (if st_speech st then 20 else 30) <= 2 ^ 31 ->
  can_predict (st_mapper st) -> stable_bank (st_speech st) (mg_bank m) sr ->
  Forall (within 0x1p100) (au_data ref) -> (forall x, compared w m ref deg x -> Forall (within 0x1p100) (au_data x)) ->
  (exists msg, snd (run w m ref deg) = Ret msg) \/ (st_no_realign st = false /\ snd (run w m ref deg) = Throw).
Proof. exact (run_stable w m ref deg). Qed.
Print Assumptions C100_comparison_defined.
(** the filters of the audio mode at 48 kHz and of the speech mode at 16 kHz, with elementary functions by power series *)
Example C100_filters : sane_cos (L:=t_libm) /\ stable_bank (L:=t_libm) false (fresh_bank false) 48000 /\ stable_bank (L:=t_libm) true (fresh_bank true) 16000 /\ num_bands false = 32%nat.
Proof. exact (conj (proj1 t_sane) (conj audio_stable (conj speech_stable eq_refl))). Qed.
(** a comparison with the second alignment *)
Example C100_example : stable_bank (L:=step_libm) true (mg_bank fine_manager) 50 /\ st_no_realign (mg_settings fine_manager) = false /\
  ((exists msg, snd (run (L:=step_libm) run_world fine_manager (loud_audio 1 1) (loud_audio 1 2)) = Ret msg) \/
   snd (run (L:=step_libm) run_world fine_manager (loud_audio 1 1) (loud_audio 1 2)) = Throw).
Proof. exact (conj step_stable (conj eq_refl fine_runs)). Qed.
