(** A comparison whose numbers are finite (C117). *)
From Coq Require Import ZArith List Bool Lia Floats Reals.
From Coq Require Strings.String.
From Verif Require Import Base.Res Base.Num Base.NumF Base.Lists Base.Mat Model.Window Model.FilterBank Model.MiscAudio Model.Alignment Model.Mappers Model.Visqol Model.Manager
  Spec.FftSpec Spec.ManagerSpec Spec.TotalSpec Spec.UndefinedSpec Spec.StableSpec Spec.LibmSpec Spec.PcmSpec Spec.FiniteSpec Proofs.FftP Proofs.ToyRunP Proofs.AccurateRunP Proofs.RoundedLibmP Proofs.B64P Proofs.FinitePrepP Proofs.FiniteCasesP Proofs.AccurateCasesP.
Import ListNotations.
Open Scope Z_scope.

Lemma returned_finite {L : Libm F} (w : world F) (m : manager F) ref deg msg : accurate L -> keeps_length (w_fft w) -> mg_init m = true -> reachable m ->
  let sr := au_sr ref in let st := mg_settings m in
  au_sr deg = sr -> 4000 <= sr <= 262144 ->
  Z.of_nat (length (au_data ref)) < 2 ^ 29 -> Z.of_nat (length (au_data deg)) < 2 ^ 29 ->
  Z.of_nat (length (au_data ref)) + 2 * window_samples sr < 2 * Z.of_nat (length (au_data deg)) ->
  (if st_speech st then 29 else 45) <= frames_in sr (length (au_data ref)) ->
  (st_speech st = true -> window_samples sr mod 4 = 0) ->
  1 <= st_radius st -> frames_in sr (length (au_data ref)) + st_radius st * (if st_speech st then 20 else 30) <= 2 ^ 31 ->
  can_predict (st_mapper st) -> Forall pcm (au_data ref) -> Forall pcm (au_data deg) ->
  snd (run w m ref deg) = Ret msg -> finite_numbers msg.
Proof.
  intros A K I HR sr st ES Hsr Lr Ld Wd EF HW Rad RB CP PR PD EM.
  destruct (run_accurate_finite w m ref deg A K I HR ES Hsr Lr Ld Wd EF HW Rad RB CP PR PD) as [(m' & E & H)|[_ E]]; rewrite EM in E; [injection E as <-; exact H|discriminate E].
Qed.
Lemma no_overflow_finite {L : Libm F} (w : world F) (m : manager F) ref deg msg : sane_log mlog10 -> keeps_length (w_fft w) -> mg_init m = true -> reachable m ->
  let sr := au_sr ref in let st := mg_settings m in let win := MkWin (Z.to_nat (window_samples sr)) kOverlap in
  au_sr deg = sr -> 44 <= sr < 2 ^ 31 ->
  Z.of_nat (length (au_data ref)) < 2 ^ 29 -> Z.of_nat (length (au_data deg)) < 2 ^ 29 ->
  Z.of_nat (length (au_data ref)) + 2 * window_samples sr < 2 * Z.of_nat (length (au_data deg)) ->
  (if st_speech st then 29 else 45) <= frames_in sr (length (au_data ref)) ->
  (st_speech st = true -> window_samples sr mod 4 = 0 /\ window_samples sr < 2 ^ 24) ->
  1 <= st_radius st -> frames_in sr (length (au_data ref)) + st_radius st * (if st_speech st then 20 else 30) <= 2 ^ 31 ->
  can_predict (st_mapper st) -> st_no_realign st = true ->
  no_overflow (st_speech st) (mg_bank m) win ref ->
  (forall x, compared w m ref deg x -> no_overflow (st_speech st) (mg_bank m) win x) ->
  snd (run w m ref deg) = Ret msg -> finite_numbers msg.
Proof.
  intros SL K I HR sr st win ES Hsr Lr Ld Wd EF HW Rad RB CP NR CR CD EM.
  destruct (run_at_finite w m ref deg (fun _ => True) SL K I HR ES Hsr Lr Ld Wd EF HW Rad RB CP CR CD) as [(m' & E & H)|[_ E]];
    [intros x _ C; fold st in C; congruence|rewrite EM in E; injection E as <-; exact H|rewrite EM in E; discriminate E].
Qed.

Lemma tone_finite v msg : pcm v -> snd (run (L:=rounded_libm) run_world (plain_manager false) (tone 0.5) (tone v)) = Ret msg -> finite_numbers msg.
Proof.
  intros Pv. destruct (plain_reached false) as (R1 & R2 & R3).
  assert (KL : keeps_length (w_fft run_world)) by (split; intros l; reflexivity).
  assert (LN : forall v, Z.of_nat (length (au_data (tone v))) = 2700) by (intros; unfold tone; cbn [au_data]; rewrite repeat_length; reflexivity).
  assert (FN : frames_in 4000 (length (au_data (tone 0.5))) = 30) by (unfold frames_in; rewrite LN; reflexivity).
  refine (returned_finite (L:=rounded_libm) run_world (plain_manager false) (tone 0.5) (tone v) msg rounded_accurate KL R2 R1 eq_refl _ _ _ _ _ _ _ _ _ (tone_pcm _ half_pcm) (tone_pcm _ Pv));
      change (au_sr (tone 0.5)) with 4000; rewrite ?LN, ?FN; change (st_speech (mg_settings (plain_manager false))) with true; cbv iota.
    - lia.
    - lia.
    - lia.
    - unfold window_samples. change ((4 * 4000 + 25) / 50) with 320. lia.
    - lia.
    - intros _. reflexivity.
    - cbn; lia.
    - cbn; lia.
    - exact Logic.I.
Qed.
(** a recording compared with silence returns, and its numbers are finite *)
Lemma silent_tone_finite : exists msg, snd (run (L:=rounded_libm) run_world (plain_manager false) (tone 0.5) (tone 0)) = Ret msg /\ finite_numbers msg.
Proof. destruct (tone_runs 0 false pcm_0) as [[msg E]|[C _]]; [|discriminate C]. exists msg. split; [exact E|exact (tone_finite 0 msg pcm_0 E)]. Qed.
