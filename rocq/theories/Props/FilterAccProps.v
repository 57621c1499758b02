(** Property C114: the filter bank in binary64 is accurate. *)
From Coq Require Import ZArith List Bool Reals Floats.
From Verif Require Import Base.Res Base.Num Base.NumF Base.NumR Base.Mat Model.Amatrix Model.Window Model.Erb Model.Spectrogram Model.FilterBank
  Spec.StableSpec Spec.FilterAccSpec Proofs.B64P Proofs.BankP Proofs.StableCasesP Proofs.FilterLevelP.
Import ListNotations.
Open Scope R_scope.

(** C114 for the output of a band: with samples up to X, no output is further than band_error * X from what the filter with the
    same coefficients gives in exact arithmetic, whatever the number of samples. *)
Theorem C114_band (c : erb_coeffs PrimFloat.float) (X : R) (x : list PrimFloat.float) : moderate_band c -> / 2 ^ 100 <= X <= 2 ^ 100 ->
  Forall (fun v => fin v /\ Rabs (FR v) <= X) x ->
  exists y f yr fr, band_filter c zero_cond x = Ret (y, f) /\ band_filter (real_coeffs c) zero_cond (map FR x) = Ret (yr, fr) /\
    Forall2 (fun a b => fin a /\ Rabs (FR a - b) <= band_error (real_coeffs c) * X /\ Rabs b <= band_gain (real_coeffs c) * X) y yr.
Proof. exact (band_accurate c X x). Qed.
Print Assumptions C114_band.
(** the 50 Hz band of the audio mode at 48 kHz, where the filter rings longest *)
Example C114_band_example : moderate_band low_band /\ band_error (real_coeffs low_band) <= 3 / 10000000 /\ band_gain (real_coeffs low_band) <= 17.
Proof. exact (conj low_moderate low_error). Qed.

(** C114 for the level of a band. *)
Theorem C114_level (c : erb_coeffs PrimFloat.float) (x : list PrimFloat.float) : moderate_band c -> (0 < length x)%nat -> (Z.of_nat (length x) <= 2 ^ 20)%Z ->
  Forall (within 1) x ->
  exists y f, band_filter c zero_cond x = Ret (y, f) /\ fin (row_rms y) /\
    Rabs (FR (row_rms y) - exact_level (real_coeffs c) (map FR x)) <= band_error (real_coeffs c) + / 2 ^ 29 * band_gain (real_coeffs c) + / 2 ^ 400.
Proof. exact (level_accurate c x). Qed.
Print Assumptions C114_level.
Example C114_level_example : Forall (within 1) [1; -0.5; 0.25]%float. Proof. repeat constructor. Qed.

(** C114 for the entries of a spectrogram: each is that close to the exact level of its windowed frame. *)
Theorem C114_spectrogram {L : Libm PrimFloat.float} (speech : bool) (k : bank PrimFloat.float) (s : audio PrimFloat.float) (w : window PrimFloat.float)
  (sp : spectrogram PrimFloat.float) (b t : nat) : sane_cos -> (2 <= Z.of_nat (w_size w) <= 2 ^ 20)%Z ->
  Forall (within 1) (au_data s) -> snd (build speech k s w) = Ret sp -> (b < nrows (sp_data sp))%nat -> (t < ncols (sp_data sp))%nat ->
  let c := nth b (rev (fst (make_filters (au_sr s) (bk_bands k) (bk_min k) (builder_max_freq speech (au_sr s))))) (erb_channel 0 0%float) in moderate_band c ->
  exists h f, hop_size w = Some h /\ apply_hann w (frame w (au_data s) (t * Z.to_nat h)) = Ret f /\ fin (at_ (sp_data sp) b t) /\
    Rabs (FR (at_ (sp_data sp) b t) - exact_level (real_coeffs c) (map FR f)) <= band_error (real_coeffs c) + / 2 ^ 29 * band_gain (real_coeffs c) + / 2 ^ 400.
Proof. exact (fun SC => entries_accurate SC speech k s w sp b t). Qed.
Print Assumptions C114_spectrogram.
(** three frames of this band *)
Example C114_spectrogram_example : sane_cos (L:=t_libm) /\ Forall (within 1) (au_data low_audio) /\
  (exists sp, snd (build (L:=t_libm) false low_bank low_audio low_window) = Ret sp /\ nrows (sp_data sp) = 1%nat /\ ncols (sp_data sp) = 3%nat) /\
  moderate_band (nth 0 (rev (fst (make_filters (L:=t_libm) (au_sr low_audio) (bk_bands low_bank) (bk_min low_bank) (builder_max_freq false (au_sr low_audio))))) (erb_channel (L:=t_libm) 0 0%float)).
Proof. split; [exact (proj1 t_sane)|]. split; [repeat constructor|]. split; [exact low_built|]. change (moderate_band low_filters). rewrite low_made. exact low_moderate. Qed.
