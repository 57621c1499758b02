(** Properties C01-C08: initialising an object and measuring with it; short signals. *)
From Coq Require Import ZArith List Bool String Reals Lra Lia Floats.
From Verif Require Import Base.Res Base.Num Base.NumR Base.NumF Base.Lists Model.Amatrix Model.Window Model.FilterBank Model.Fft Model.Alignment
  Model.MiscAudio Model.Mappers Model.Visqol Model.Manager Spec.ManagerSpec Spec.ApiSpec Spec.AlignSpec Spec.FftSpec
  Proofs.FftP Proofs.CodesP Proofs.ApiP Proofs.ShortP Proofs.ApiRP Proofs.ToyRunP Proofs.ApiCasesP Proofs.FineRunP.
Import ListNotations.
Open Scope Z_scope.

Section Any.
  (** for every number type and every libm *)
  Context {T : Type} {N : Num T} {L : Libm T}.

  (** C01: no audio section. *)
  Theorem C01_no_audio_section w (p : api T) c : cf_audio c = None -> create w p c = (p, Some InvalidArgument).
  Proof. exact (create_no_audio w p c). Qed.

  (** C01: rate 0, or a rate other than 48000 with neither speech mode nor the override. *)
  Theorem C01_rate_rejected w (p : api T) c sr : cf_audio c = Some sr -> - 2 ^ 31 <= sr < 2 ^ 31 -> rate_rejected c sr ->
    snd (create w p c) = Some InvalidArgument /\ ap_manager (fst (create w p c)) = ap_manager p.
  Proof. exact (create_rejected w p c sr). Qed.

  (** C01: otherwise the status is that of loading the model; on success these are the settings. *)
  Theorem C01_otherwise_load_status w (p : api T) c sr : cf_audio c = Some sr -> - 2 ^ 31 <= sr < 2 ^ 31 -> ~ rate_rejected c sr ->
    snd (create w p c) = load_status w c /\ ap_sr (fst (create w p c)) = Some (size_of sr) /\
    st_speech (mg_settings (ap_manager (fst (create w p c)))) = asks_speech c /\
    st_radius (mg_settings (ap_manager (fst (create w p c)))) = radius_used c /\
    st_no_realign (mg_settings (ap_manager (fst (create w p c)))) = false /\
    mg_no_global (ap_manager (fst (create w p c))) = false /\
    (load_status w c = None -> mg_init (ap_manager (fst (create w p c))) = true /\
       Some (st_mapper (mg_settings (ap_manager (fst (create w p c))))) = loaded_mapper w c).
  Proof. exact (create_loads w p c sr). Qed.

  (** C02, manager: no Init has succeeded. *)
  Theorem C02_never_initialised (m : manager T) : history false m -> forall w,
    (forall ref deg, run w m ref deg = (m, deg, Err Aborted)) /\ (forall rp dp, run_files w m rp dp = (m, Err Aborted)).
  Proof. exact (never_initialised m). Qed.

  (** C02, manager: some Init has succeeded. *)
  Theorem C02_once_initialised (m : manager T) : history true m -> forall w,
    (forall ref deg, snd (run w m ref deg) <> Err Aborted) /\ (forall rp dp, snd (run_files w m rp dp) <> Err Aborted).
  Proof. exact (once_initialised m). Qed.

  (** C02, API: the same provided some Create was given an audio section. *)
  Theorem C02_api_partial (p : api T) : forall w ref deg,
    (api_history false true p -> measure w p ref deg = (p, Err Aborted)) /\
    (forall s, api_history true s p -> snd (measure w p ref deg) <> Err Aborted).
  Proof. exact (fun w ref deg => conj (fun H => api_never_initialised true p H w ref deg) (fun s H => api_once_initialised s p H w ref deg)). Qed.

  (** C02 as stated fails: with no such Create the sample rate was never written, and Measure reads it. *)
  Theorem C02_uninitialised_rate_refuted (p : api T) : api_history false false p -> forall w ref deg,
    measure w p ref deg = (p, Ub).
  Proof. exact (api_never_initialised false p). Qed.

  (** C03 as stated fails, whatever was measured: after a failed Init with the same settings, a comparison that gave
      a result before is undefined. *)
  Theorem C03_failed_load_refuted b w (m : manager T) a m' c ref deg m1 d1 x : history b m -> init w m a = (m', Some c) ->
    ia_speech a = st_speech (mg_settings m) -> ia_radius a = st_radius (mg_settings m) ->
    ia_no_realign a = st_no_realign (mg_settings m) -> ia_no_global a = mg_no_global m ->
    forall w', run w' m ref deg = (m1, d1, Ret x) -> snd (run w' m' ref deg) = Ub.
  Proof. exact (failed_load_breaks b w m a m' c ref deg m1 d1 x). Qed.

  (** C03, what does hold: an object that was never initialised stays that way, and after a failed Init no comparison
      gives a result (until another Init succeeds). *)
  Theorem C03_failed_init_partial b w (m : manager T) a m' c : history b m -> init w m a = (m', Some c) ->
    (b = false -> forall w' ref deg, run w' m' ref deg = (m', deg, Err Aborted)) /\
    (forall m'', measured m' m'' -> forall w' ref deg x, snd (run w' m'' ref deg) <> Ret x).
  Proof.
    exact (fun H E => conj (fun B w' ref deg => proj1 (never_initialised m' (eq_ind b (fun q => history q m') (h_init_fail b w m a m' c H E) false B) w') ref deg)
                           (fun m'' M => failed_init_useless b w m a m' c m'' H E M)).
  Qed.

  (** C04: different rates. *)
  Theorem C04_rates_differ w (m : manager T) ref deg : mg_init m = true -> au_sr ref <> au_sr deg ->
    run w m ref deg = (m, deg, Err InvalidArgument).
  Proof. exact (rates_differ w m ref deg). Qed.

  (** C04: equal rates.  Without the second alignment, InvalidArgument means that there is less than a window of
      reference or of (globally aligned) degraded signal, or, in audio mode, fewer than 45 reference frames: never the
      rate, never a difference in duration.  (With the second alignment: the two
      theorems further down.) *)
  Theorem C04_rates_equal_not_realigned w (m : manager T) ref deg : mg_init m = true -> au_sr ref = au_sr deg -> st_no_realign (mg_settings m) = true ->
    snd (run w m ref deg) = Err InvalidArgument ->
    exists win aligned lag, make_window (au_sr ref) = Ret win /\
      (if mg_no_global m then Ret (deg, n0) else globally_align (w_fft w) ref deg) = Ret (aligned, lag) /\
      ((List.length (au_data ref) <= w_size win)%nat \/ (List.length (au_data aligned) <= w_size win)%nat \/
       (st_speech (mg_settings m) = false /\
        exists h, hop_size win = Some h /\ 1 <= h /\ (frame_number (List.length (au_data ref)) (w_size win) h < 45)%nat)).
  Proof. exact (run_invalid w m ref deg). Qed.

  (** C05: any comparisons in between leave the next outcome (and the rewritten degraded signal) unchanged. *)
  Theorem C05_history_irrelevant b (m m' : manager T) : history b m -> measured m m' -> forall w,
    (forall ref deg, snd (run w m' ref deg) = snd (run w m ref deg) /\ snd (fst (run w m' ref deg)) = snd (fst (run w m ref deg))) /\
    (forall rp dp, snd (run_files w m' rp dp) = snd (run_files w m rp dp)).
  Proof. exact (measured_same b m m'). Qed.
  Theorem C05_api b s (p p' : api T) : api_history b s p -> api_measured p p' -> forall w ref deg,
    snd (measure w p' ref deg) = snd (measure w p ref deg).
  Proof. exact (api_measured_same b s p p'). Qed.
  (** C05: only the latest successful Init counts. *)
  Theorem C05_latest_configuration b b' (m m' : manager T) w a w' : history b m -> history b' m' ->
    snd (init w m a) = None -> forall ref deg,
    snd (run w' (fst (init w m a)) ref deg) = snd (run w' (fst (init w m' a)) ref deg).
  Proof. exact (same_configuration b b' m m' w a w'). Qed.

  (** C06: the degraded argument after Run, whatever the outcome. *)
  Theorem C06_degraded_argument w (m : manager T) ref deg m' deg' r : run w m ref deg = (m', deg', r) ->
    (mg_init m = false -> deg' = deg) /\ (au_sr ref <> au_sr deg -> deg' = deg) /\
    (deg' = deg \/ exists aligned lag, (if mg_no_global m then Ret (deg, n0) else globally_align (w_fft w) ref deg) = Ret (aligned, lag) /\
        (deg' = aligned \/ deg' = scale_to_match_spl ref aligned) /\ (forall x, r = Ret x -> deg' = scale_to_match_spl ref aligned)).
  Proof. exact (run_degraded w m ref deg m' deg' r). Qed.

  (** C07: audio mode. *)
  Theorem C07_short_audio_partial w (m : manager T) ref deg win aligned lag h : mg_init m = true -> reachable m -> au_sr ref = au_sr deg ->
    st_speech (mg_settings m) = false -> make_window (au_sr ref) = Ret win -> hop_size win = Some h -> 1 <= h ->
    (if mg_no_global m then Ret (deg, n0) else globally_align (w_fft w) ref deg) = Ret (aligned, lag) ->
    (List.length (au_data ref) <= w_size win)%nat \/ (List.length (au_data aligned) <= w_size win)%nat \/
      (frame_number (List.length (au_data ref)) (w_size win) h < 45)%nat ->
    snd (run w m ref deg) = Err InvalidArgument.
  Proof. exact (short_audio w m ref deg win aligned lag h). Qed.

  (** C08 as stated fails: in speech mode every reference of more than a window but fewer than 29 frames ends in an
      exception. *)
  Theorem C08_short_speech_refuted w (m : manager T) ref deg win aligned lag h psl : mg_init m = true -> reachable m -> au_sr ref = au_sr deg ->
    st_speech (mg_settings m) = true -> make_window (au_sr ref) = Ret win -> hop_size win = Some h -> 1 <= h ->
    w_overlap win = ndec 25 2 -> ntrunc (nmul (nofnat 20) (nmul (nofnat (w_size win)) (ndec 25 2))) = Some psl ->
    (if mg_no_global m then Ret (deg, n0) else globally_align (w_fft w) ref deg) = Ret (aligned, lag) ->
    (w_size win < List.length (au_data ref))%nat -> (w_size win < List.length (au_data aligned))%nat ->
    (frame_number (List.length (au_data ref)) (w_size win) h < 29)%nat ->
    snd (run w m ref deg) = Throw.
  Proof. exact (short_speech w m ref deg win aligned lag h psl). Qed.

  (** C08, what does hold: no more than one window is rejected with a status (in either mode). *)
  Theorem C08_window_partial w (m : manager T) ref deg win aligned lag h : mg_init m = true -> au_sr ref = au_sr deg ->
    make_window (au_sr ref) = Ret win -> hop_size win = Some h -> 1 <= h ->
    (if mg_no_global m then Ret (deg, n0) else globally_align (w_fft w) ref deg) = Ret (aligned, lag) ->
    (List.length (au_data ref) <= w_size win)%nat \/ (List.length (au_data aligned) <= w_size win)%nat ->
    snd (run w m ref deg) = Err InvalidArgument.
  Proof. exact (short_window w m ref deg win aligned lag h). Qed.
End Any.
Print Assumptions C01_no_audio_section.
Print Assumptions C01_rate_rejected.
Print Assumptions C01_otherwise_load_status.
Print Assumptions C02_never_initialised.
Print Assumptions C02_once_initialised.
Print Assumptions C02_api_partial.
Print Assumptions C02_uninitialised_rate_refuted.
Print Assumptions C03_failed_load_refuted.
Print Assumptions C03_failed_init_partial.
Print Assumptions C04_rates_differ.
Print Assumptions C04_rates_equal_not_realigned.
Print Assumptions C05_history_irrelevant.
Print Assumptions C05_api.
Print Assumptions C05_latest_configuration.
Print Assumptions C06_degraded_argument.
Print Assumptions C07_short_audio_partial.
Print Assumptions C08_short_speech_refuted.
Print Assumptions C08_window_partial.

(** C01: a negative rate is not 0 and not 48000; speech mode accepts it. *)
Example C01_negative_rate : ~ rate_rejected (speech_config (-1)) (-1) /\ rate_rejected (MkConfig (Some (-1)) None) (-1).
Proof. split; [intros [H|(_ & H & _)]; discriminate|right; repeat split; discriminate]. Qed.
Example C01_default_paths : model_used "/w" (MkConfig (Some 48000) None) = "/w/model/libsvm_nu_svr_model.txt"%string /\
  radius_used (MkConfig None None) = 60 /\ radius_used (speech_config 50) = -1.
Proof. repeat split. Qed.
Example C02_example : history (L:=run_libm) false (manager_new (T:=PrimFloat.float)) /\ history (L:=run_libm) true run_manager /\
  api_history (L:=run_libm) false true (fst (create run_world api_new (speech_config 0))) /\ api_history (L:=run_libm) false false (api_new (T:=PrimFloat.float)).
Proof.
  split; [constructor|]. split; [apply run_manager_history|]. split; [|constructor].
  exact (a_create_fail false false run_world api_new (speech_config 0) _ InvalidArgument a_new eq_refl).
Qed.

(** C03: one such case, evaluated, and one through the API: Create with sample rate 0 is refused, but what was
    measured before is not measured any more. *)
Theorem C03_reinit_case_refuted : exists m', init run_world run_manager lattice_args = (m', Some Unknown) /\
  (exists x, snd (run (L:=run_libm) run_world run_manager (run_audio 1) (run_audio 2)) = Ret x) /\
  snd (run (L:=run_libm) run_world m' (run_audio 1) (run_audio 2)) = Ub.
Proof. exact failed_reinit. Qed.
Print Assumptions C03_reinit_case_refuted.
Theorem C03_rate_kept_refuted : exists p', create run_world toy_api (speech_config 0) = (p', Some InvalidArgument) /\
  (exists x, snd (measure (L:=run_libm) run_world toy_api (toy_samples 1) (toy_samples 2)) = Ret x) /\
  forall L ref deg x, snd (measure (L:=L) run_world p' ref deg) <> Ret x.
Proof. exact rejected_rate_kept. Qed.
Print Assumptions C03_rate_kept_refuted.

(** C04: equal rates, with or without the second alignment; exact arithmetic and binary64, every FFT that keeps the
    length of its buffer. *)
Theorem C04_rates_equal {L : Libm R} w (m : manager R) ref deg : keeps_length (w_fft w) -> mg_init m = true -> reachable m ->
  au_sr ref = au_sr deg -> - 2 ^ 31 <= au_sr ref < 2 ^ 31 ->
  1 <= Z.of_nat (List.length (au_data ref)) < 2 ^ 29 -> 1 <= Z.of_nat (List.length (au_data deg)) < 2 ^ 29 ->
  snd (run w m ref deg) = Err InvalidArgument ->
  exists (win : window R) aligned lag, make_window (au_sr ref) = Ret win /\
    (if mg_no_global m then Ret (deg, n0) else globally_align (w_fft w) ref deg) = Ret (aligned, lag) /\
    ((List.length (au_data ref) <= w_size win)%nat \/ (List.length (au_data aligned) <= w_size win)%nat \/
     (st_speech (mg_settings m) = false /\
      exists h, hop_size win = Some h /\ 1 <= h /\ (frame_number (List.length (au_data ref)) (w_size win) h < 45)%nat)).
Proof. exact (run_invalid_R w m ref deg). Qed.
Print Assumptions C04_rates_equal.
Theorem C04_rates_equal_binary64 {L : Libm PrimFloat.float} w (m : manager PrimFloat.float) ref deg : keeps_length (w_fft w) ->
  mg_init m = true -> reachable m -> au_sr ref = au_sr deg -> - 2 ^ 31 <= au_sr ref < 2 ^ 31 ->
  1 <= Z.of_nat (List.length (au_data ref)) < 2 ^ 29 -> 1 <= Z.of_nat (List.length (au_data deg)) < 2 ^ 29 ->
  snd (run w m ref deg) = Err InvalidArgument ->
  exists (win : window PrimFloat.float) aligned lag, make_window (au_sr ref) = Ret win /\
    (if mg_no_global m then Ret (deg, n0) else globally_align (w_fft w) ref deg) = Ret (aligned, lag) /\
    ((List.length (au_data ref) <= w_size win)%nat \/ (List.length (au_data aligned) <= w_size win)%nat \/
     (st_speech (mg_settings m) = false /\
      exists h, hop_size win = Some h /\ 1 <= h /\ (frame_number (List.length (au_data ref)) (w_size win) h < 45)%nat)).
Proof. exact (run_invalid_F w m ref deg). Qed.
Print Assumptions C04_rates_equal_binary64.
Example C04_realigning_example : exists m, history (L:=run_libm) true m /\ st_no_realign (mg_settings m) = false /\
  keeps_length (w_fft svr_world) /\ snd (run (L:=run_libm) svr_world m (click 4 2) (click 4 2)) = Err InvalidArgument.
Proof. exact short_realigning. Qed.
Example C04_example : mg_init audio_manager = true /\ st_no_realign (mg_settings audio_manager) = true /\ au_sr (click 48 20) = au_sr (click 4 2) /\
  au_sr (click 48 20) <> au_sr (MkAudio [1%float] 51).
Proof. repeat split. discriminate. Qed.
(** C05: the object after one comparison. *)
Example C05_example : exists m', m' <> run_manager /\ measured (L:=run_libm) run_manager m'.
Proof.
  destruct (run (L:=run_libm) run_world run_manager (MkAudio [1%float] 50) (MkAudio [1%float] 50)) as [[m' d] r] eqn:E. exists m'. split.
  - intros ->. assert (F : fst (fst (run (L:=run_libm) run_world run_manager (MkAudio [1%float] 50) (MkAudio [1%float] 50))) = run_manager) by (rewrite E; reflexivity).
    apply (f_equal (fun q => List.length (bk_coef (mg_bank q)))) in F. vm_compute in F. discriminate.
  - eapply me_run; [apply me_none|exact E].
Qed.

(** C06 in exact arithmetic: the degraded signal shifted as in C31, times one positive factor. *)
Theorem C06_scaled_aligned w (m : manager R) ref deg m' deg' x : keeps_length (w_fft w) ->
  1 <= Z.of_nat (List.length (au_data ref)) < 2 ^ 30 -> 1 <= Z.of_nat (List.length (au_data deg)) < 2 ^ 30 ->
  run w m ref deg = (m', deg', Ret x) ->
  exists aligned lag f, aligned_by ref deg aligned lag /\ (mg_no_global m = true -> aligned = deg) /\ (0 < f)%R /\
    au_data deg' = map (fun s => s * f)%R (au_data aligned) /\ au_sr deg' = au_sr deg.
Proof. exact (run_degraded_R w m ref deg m' deg' x). Qed.
Print Assumptions C06_scaled_aligned.
Example C06_example : exists m d x, run (L:=run_libm) run_world run_manager (run_audio 1) (run_audio 2) = (m, d, Ret x).
Proof. destruct toy_result as (m & d & x & E & _). exists m, d, x. exact E. Qed.

(** C07 as stated fails: both signals empty; and a degraded signal of one window, which alignment makes longer. *)
Theorem C07_empty_refuted (L : Libm PrimFloat.float) :
  run svr_world audio_manager (MkAudio [] 50) (MkAudio [] 50) = (audio_manager, MkAudio [] 50, Ub).
Proof. exact (empty_pair L). Qed.
Print Assumptions C07_empty_refuted.
Theorem C07_padded_refuted (L : Libm PrimFloat.float) :
  make_window 50 = Ret (MkWin 4 (kOverlap : PrimFloat.float)) /\ List.length (au_data (click 4 2)) = 4%nat /\
  snd (run svr_world audio_manager (click 48 20) (click 4 2)) <> Err InvalidArgument.
Proof. exact (conj (proj1 window_50) (conj eq_refl (short_degraded_accepted L))). Qed.
Print Assumptions C07_padded_refuted.
Example C07_example : history (L:=run_libm) true audio_manager /\ st_speech (mg_settings audio_manager) = false /\
  (frame_number 47 4 1 < 45)%nat.
Proof. split; [apply audio_manager_history|]. split; [reflexivity|]. apply Nat.ltb_lt. reflexivity. Qed.

(** C08: one such case. *)
Theorem C08_case_refuted : exists m', init run_world manager_new run_args = (m', None) /\
  let ref := MkAudio (repeat 1%float 31) 50 in
  snd (run (L:=run_libm) run_world m' ref ref) = Throw.
Proof. exact short_speech_case. Qed.
Print Assumptions C08_case_refuted.
