(** Property C115: the filter banks of the program are accurate in binary64 with accurate elementary functions. *)
From Coq Require Import ZArith List Bool Reals Floats.
From Verif Require Import Base.Res Base.Num Base.NumF Base.NumR Base.Mat Model.Amatrix Model.Window Model.Erb Model.FilterBank Model.Spectrogram Model.Visqol Model.Manager
  Spec.ManagerSpec Spec.LibmSpec Spec.StableSpec Spec.FilterAccSpec Proofs.B64P Proofs.BankP Proofs.RoundedLibmP Proofs.AccurateCasesP Proofs.FilterBankAccP.
Import ListNotations.
Open Scope R_scope.

(** C115 for the filters: at every sample rate from 4000 to 262144 Hz and with up to 32 bands, each filter is one that C114 speaks
    about, and none amplifies more than 3500 times. *)
Theorem C115_filters {L : Libm PrimFloat.float} (speech : bool) (sr : Z) (n : nat) : accurate L -> (4000 <= sr <= 262144)%Z -> (1 <= n <= 32)%nat ->
  Forall (fun c => moderate_band c /\ band_gain (real_coeffs c) <= 3500) (fst (make_filters sr n kMinimumFreq (builder_max_freq speech sr))).
Proof. exact (fun A => filters_moderate A speech sr n). Qed.
Print Assumptions C115_filters.
Example C115_filters_example : accurate rounded_libm /\ length (fst (make_filters (L:=rounded_libm) 48000 32 kMinimumFreq (builder_max_freq false 48000))) = 32%nat.
Proof. split; [exact rounded_accurate|reflexivity]. Qed.

(** C115 for their error: up to 48 kHz, no output for an input within [-1,1] is further than 6 millionths from the exact one. *)
Theorem C115_error {L : Libm PrimFloat.float} (speech : bool) (sr : Z) (n : nat) : accurate L -> (4000 <= sr <= 48000)%Z -> (1 <= n <= 32)%nat ->
  Forall (fun c => band_error (real_coeffs c) <= 6 / 1000000) (fst (make_filters sr n kMinimumFreq (builder_max_freq speech sr))).
Proof. exact (fun A => filters_error A speech sr n). Qed.
Print Assumptions C115_error.
Example C115_error_example : exists c l, fst (make_filters (L:=rounded_libm) 16000 21 kMinimumFreq (builder_max_freq true 16000)) = c :: l.
Proof. eexists _, _. reflexivity. Qed.

(** C115 for a spectrogram built by a manager of the program: every entry is within 1/100000 of the level that the filter of its
    band gives in exact arithmetic for its windowed frame. *)
Theorem C115_spectrogram {L : Libm PrimFloat.float} (m : manager PrimFloat.float) (s : audio PrimFloat.float) (w : window PrimFloat.float) (sp : spectrogram PrimFloat.float) (b t : nat) :
  accurate L -> reachable m -> (4000 <= au_sr s <= 48000)%Z -> (2 <= Z.of_nat (w_size w) <= 2 ^ 20)%Z -> Forall (within 1) (au_data s) ->
  let speech := st_speech (mg_settings m) in
  snd (build speech (mg_bank m) s w) = Ret sp -> (b < nrows (sp_data sp))%nat -> (t < ncols (sp_data sp))%nat ->
  let c := nth b (rev (fst (make_filters (au_sr s) (bk_bands (mg_bank m)) (bk_min (mg_bank m)) (builder_max_freq speech (au_sr s))))) (erb_channel 0 0%float) in
  exists h f, hop_size w = Some h /\ apply_hann w (frame w (au_data s) (t * Z.to_nat h)) = Ret f /\ fin (at_ (sp_data sp) b t) /\
    Rabs (FR (at_ (sp_data sp) b t) - exact_level (real_coeffs c) (map FR f)) <= 1 / 100000.
Proof. exact (fun A => spectrogram_accurate A m s w sp b t). Qed.
Print Assumptions C115_spectrogram.
(** 2700 samples at 4000 Hz in speech mode: 21 bands and 30 frames *)
Example C115_spectrogram_example : accurate rounded_libm /\ reachable (L:=rounded_libm) (plain_manager true) /\ Forall (within 1) (au_data (tone 0.5%float)) /\
  exists sp, snd (build (L:=rounded_libm) (st_speech (mg_settings (plain_manager true))) (mg_bank (plain_manager true)) (tone 0.5%float) tone_window) = Ret sp /\
    nrows (sp_data sp) = 21%nat /\ ncols (sp_data sp) = 30%nat.
Proof. exact (conj rounded_accurate (conj (proj1 (plain_reached true)) (conj tone_within tone_built))). Qed.
