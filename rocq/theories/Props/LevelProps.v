(** Properties C90 and C91: the level of the recordings, and what a similarity of 1 means. *)
From Coq Require Import ZArith List Bool Reals.
From Verif Require Import Base.Res Base.Num Base.NumR Base.Mat Model.Fft Model.Window Model.FilterBank Model.Spectrogram Model.Nsim Model.Visqol Model.Manager
  Spec.AudioSpec Spec.LoudSpec Spec.MatchSpec Spec.ManagerSpec Spec.TotalSpec Spec.IdentitySpec Spec.PolaritySpec Spec.LevelSpec
  Proofs.DftP Proofs.TotalCasesP Proofs.PolarityCasesP Proofs.NsimOneP Proofs.OneRunP Proofs.LevelRunP Proofs.LevelCasesP Proofs.LevelBothP.
Import ListNotations.
Open Scope Z_scope.

(** C90 as stated is false: there are recordings that are declared identical when both are quiet and different when both are
    loud. Here the reference is silent up to a last sample, the degraded recording is constant. *)
Theorem C90_level_refuted : exists quiet loud, (0 < quiet)%R /\ (quiet < loud)%R /\ forall g, (0 < g)%R ->
  exists msg, snd (run total_world plain_manager (louder g spike) (louder g (constant 50 1))) = Ret msg /\
    ((g <= quiet)%R -> no_difference 32 msg) /\ ((loud <= g)%R -> ~ no_difference 32 msg).
Proof. exact level_matters. Qed.
Print Assumptions C90_level_refuted.

(** for every mode, sample rate and length there is a level below which everything is declared identical, whatever the
    degraded recording: the floor of the spectrograms at -45 dB is an absolute one *)
Theorem C90_quiet_is_perfect (speech : bool) (sr : Z) (N : nat) : 44 <= sr < 2 ^ 31 -> exists eps, (0 < eps)%R /\
  forall (w : world R) (m : manager R) (ref deg : audio R) msg, st_speech (mg_settings m) = speech -> au_sr ref = sr ->
    reachable m -> long_enough (mg_settings m) ref -> within eps ref -> (0 < energy (au_data ref))%R ->
    let n' := length (au_data (snd (fst (run w m ref deg)))) in
    (length (au_data ref) <= n' <= N)%nat ->
    frames_in sr n' + st_radius (mg_settings m) * (if speech then 20 else 30) <= 2 ^ 31 ->
    snd (run w m ref deg) = Ret msg -> no_difference (if speech then 21 else 32) msg.
Proof. exact (quiet_perfect speech sr N). Qed.
Print Assumptions C90_quiet_is_perfect.

(** above that level, in every band of every frame of both recordings, the level has no influence (exact arithmetic, second
    alignment off) *)
Theorem C90_loud_partial (w : world R) (m : manager R) (ref deg : audio R) (g : R) win R1 D1 msg :
  homogeneous (w_fft w) -> reachable m -> st_no_realign (mg_settings m) = true -> (1 <= g)%R -> (0 < energy (au_data ref))%R ->
  make_window (au_sr ref) = Ret win ->
  snd (build (st_speech (mg_settings m)) (mg_bank m) ref win) = Ret R1 -> all_audible R1 ->
  snd (build (st_speech (mg_settings m)) (mg_bank m) (snd (fst (run w m ref deg))) win) = Ret D1 -> all_audible D1 ->
  snd (run w m ref deg) = Ret msg -> snd (run w m (louder g ref) (louder g deg)) = Ret msg.
Proof. exact (level_removed w m ref deg g win R1 D1 msg). Qed.
Print Assumptions C90_loud_partial.

(** such recordings exist *)
Example C90_example : homogeneous (w_fft total_world) /\ st_no_realign (mg_settings plain_manager) = true /\ exists c msg win R1 D1, (0 < c)%R /\
  let ref := constant 50 c in let deg := constant 52 1 in
  snd (run total_world plain_manager ref deg) = Ret msg /\ (0 < energy (au_data ref))%R /\ make_window 50 = Ret win /\
  snd (build false (mg_bank plain_manager) ref win) = Ret R1 /\ all_audible R1 /\
  snd (build false (mg_bank plain_manager) (snd (fst (run total_world plain_manager ref deg))) win) = Ret D1 /\ all_audible D1.
Proof. exact (conj ideal_is_homogeneous (conj eq_refl audible_example)). Qed.
(** and so do quiet ones *)
Example C90_quiet_example (g : R) : (0 < g)%R -> within g (louder g spike) /\ (0 < energy (au_data (louder g spike)))%R /\
  long_enough (mg_settings plain_manager) (louder g spike).
Proof. exact (fun H => conj (spike_within g H) (conj (spike_energy g H) (spike_long g))). Qed.

(** C91: two patches of the same shape have similarity 1 exactly when they are equal *)
Theorem C91_one_means_identical (A B : mat R) p : wf A -> wf B -> (0 < nrows A)%nat -> (0 < ncols A)%nat -> nrows A = nrows B -> ncols A = ncols B ->
  measure_patch_similarity A B = Ret p -> (ps_sim p = 1%R <-> A = B).
Proof. exact (measure_one A B p). Qed.
Print Assumptions C91_one_means_identical.

(** C91: in a comparison without second alignment, a patch reported with similarity 1 is, cell for cell, the frames of the
    degraded spectrogram at the offset it was matched with; if those frames are the same, 1 is reported, unless the patch was
    given up (0) *)
Theorem C91_patches_of_a_run (w : world R) (m : manager R) (ref deg : audio R) msg : reachable m -> st_no_realign (mg_settings m) = true ->
  long_enough (mg_settings m) ref ->
  let st := mg_settings m in let sr := au_sr ref in let d' := snd (fst (run w m ref deg)) in let p := patch_size (st_speech st) in
  window_samples sr < Z.of_nat (length (au_data d')) -> frames_in sr (length (au_data d')) < 2 ^ 31 ->
  snd (run w m ref deg) = Ret msg ->
  exists win R1 D1 A B idx (off : nat -> nat), make_window sr = Ret win /\
    snd (build (st_speech st) (mg_bank m) ref win) = Ret R1 /\ snd (build (st_speech st) (mg_bank m) d' win) = Ret D1 /\
    prepare_spectrograms (sp_data R1) (sp_data D1) = Ret (A, B) /\ patch_starts p (Z.of_nat (ncols A)) idx /\ ms_patches msg <> [] /\
    forall i q, nth_error (ms_patches msg) i = Some q -> (i < length idx)%nat /\ (off i < ncols B)%nat /\
      let same := frames_at 0%R A (nth i idx 0) p = frames_at 0%R B (Z.of_nat (off i)) p in
      (pm_sim q = 1%R -> same) /\ (same -> pm_sim q = 1%R \/ pm_sim q = 0%R).
Proof. exact (run_patches w m ref deg msg). Qed.
Print Assumptions C91_patches_of_a_run.

Example C91_example : (exists p, measure_patch_similarity (MkMat 1 2 [0%R; 1%R]) (MkMat 1 2 [0%R; 2%R]) = Ret p /\ ps_sim p <> 1%R) /\
  forall g, (0 < g)%R -> long_enough (mg_settings plain_manager) (louder g spike) /\
    exists msg, snd (run total_world plain_manager (louder g spike) (louder g (constant 50 1))) = Ret msg.
Proof. exact (conj differs_example (fun g _ => conj (spike_long g) (spike_returns g))). Qed.
