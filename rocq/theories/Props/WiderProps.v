(** Property C92: the search radius. *)
From Coq Require Import ZArith List Bool Reals Lia Floats.
From Verif Require Import Base.Res Base.Num Base.NumR Base.NumF Base.Mat Model.Fft Model.Window Model.FilterBank Model.Spectrogram Model.Nsim
  Model.PatchCreator Model.Selector Model.Mappers Model.Visqol Model.Manager
  Spec.AudioSpec Spec.LoudSpec Spec.MatchSpec Spec.ManagerSpec Spec.TotalSpec Spec.IdentitySpec Spec.PolaritySpec Spec.LevelSpec Spec.WiderSpec
  Proofs.TotalCasesP Proofs.PolarityCasesP Proofs.LevelCasesP Proofs.WiderP Proofs.CoverP Proofs.WiderCasesP.
Import ListNotations.
Open Scope Z_scope.

(** C92 as stated is false: a radius of 2 patch lengths gives a total that is smaller by more than 0.2 than the one a radius of
    1 gives, on spectrograms of one band (binary64, the similarity measure of the code). Offsets outside the search window of a
    patch count as a total of 0, and that is read as if it had been reached. *)
Theorem C92_wider_refuted : patch_starts 2 (Z.of_nat (ncols narrow_ref)) [0; 8] /\ exists refs a b a' b',
  create_patches 2 narrow_ref [0; 8] = Ret refs /\
  find_most_optimal_deg_patches measure_patch_similarity refs [0; 8] narrow_deg (nofZ 1) 1 = Ret [a; b] /\
  find_most_optimal_deg_patches measure_patch_similarity refs [0; 8] narrow_deg (nofZ 1) 2 = Ret [a'; b'] /\
  nltb (nadd (ndec 2 1) (nadd (ps_sim a') (ps_sim b'))) (nadd (ps_sim a) (ps_sim b)) = true.
Proof. exact wider_is_worse. Qed.
Print Assumptions C92_wider_refuted.

(** it holds, for the whole comparison, when all similarities of patches of the two spectrograms are positive (exact
    arithmetic, second alignment off): the number of patches stays, vnsim does not fall, and neither does the score in speech
    mode *)
Theorem C92_wider_partial (w : world R) (m m' : manager R) (ref deg : audio R) msg msg' win R1 D1 A B :
  reachable m -> reachable m' -> same_but_radius m m' -> st_no_realign (mg_settings m) = true ->
  long_enough (mg_settings m) ref -> long_enough (mg_settings m') ref -> st_radius (mg_settings m) <= st_radius (mg_settings m') ->
  let st := mg_settings m in let sr := au_sr ref in let d' := snd (fst (run w m ref deg)) in let p := patch_size (st_speech st) in
  window_samples sr < Z.of_nat (length (au_data d')) -> frames_in sr (length (au_data d')) < 2 ^ 31 ->
  make_window sr = Ret win -> snd (build (st_speech st) (mg_bank m) ref win) = Ret R1 -> snd (build (st_speech st) (mg_bank m) d' win) = Ret D1 ->
  prepare_spectrograms (sp_data R1) (sp_data D1) = Ret (A, B) -> always_positive p A B ->
  snd (run w m ref deg) = Ret msg -> snd (run w m' ref deg) = Ret msg' ->
  length (ms_patches msg) = length (ms_patches msg') /\ (ms_vnsim msg <= ms_vnsim msg')%R /\
  (forall s, st_mapper st = MSpeech s -> (ms_moslqo msg <= ms_moslqo msg')%R).
Proof. exact (run_wider w m m' ref deg msg msg' win R1 D1 A B). Qed.
Print Assumptions C92_wider_partial.
Example C92_example : same_but_radius plain_manager wide_manager /\ st_radius (mg_settings plain_manager) < st_radius (mg_settings wide_manager) /\
  exists g msg msg' win R1 D1 A B, (0 < g)%R /\ let ref := louder g spike in let deg := louder g (constant 50 1) in
  let d' := snd (fst (run total_world plain_manager ref deg)) in
  long_enough (mg_settings plain_manager) ref /\ long_enough (mg_settings wide_manager) ref /\
  window_samples 50 < Z.of_nat (length (au_data d')) /\ frames_in 50 (length (au_data d')) < 2 ^ 31 /\
  make_window 50 = Ret win /\ snd (build false (mg_bank plain_manager) ref win) = Ret R1 /\ snd (build false (mg_bank plain_manager) d' win) = Ret D1 /\
  prepare_spectrograms (sp_data R1) (sp_data D1) = Ret (A, B) /\ always_positive 30 A B /\
  snd (run total_world plain_manager ref deg) = Ret msg /\ snd (run total_world wide_manager ref deg) = Ret msg'.
Proof. exact wide_example. Qed.

(** once the radius reaches over both recordings its value has no influence on the result: for every number type (binary64
    included), both modes, with the second alignment on or off *)
Theorem C92_reaching_radius {T} {N : Num T} {L : Libm T} (w : world T) (m : manager T) r' (ref deg : audio T) win h :
  make_window (au_sr ref) = Ret win -> hop_size win = Some h -> 1 <= h ->
  let p := patch_size (st_speech (mg_settings m)) in let r := st_radius (mg_settings m) in
  let frames (s : audio T) := frame_count (w_size win) h (length (au_data s)) in
  Z.of_nat p <= frames ref ->
  (forall s, s = ref \/ s = snd (fst (run w m ref deg)) -> reaches r p (frames s) /\ reaches r' p (frames s)) ->
  snd (run w (with_radius r' m) ref deg) = snd (run w m ref deg).
Proof. exact (run_cover w m r' ref deg win h). Qed.
Print Assumptions C92_reaching_radius.
(** recordings of up to 36 seconds at 48 kHz in audio mode with the radius 60 of the command line: 1797 frames *)
Example C92_reaching_example : exists win : window PrimFloat.float, make_window 48000 = Ret win /\ w_size win = Z.to_nat 3840 /\ hop_size win = Some 960 /\
  reaches 60 (patch_size false) (1 + (36 * 48000 - 3840) / 960) /\ reaches 61 (patch_size false) (1 + (36 * 48000 - 3840) / 960).
Proof. eexists. split; [vm_compute; reflexivity|]. split; [reflexivity|]. split; [vm_compute; reflexivity|]. unfold reaches. cbn. lia. Qed.
