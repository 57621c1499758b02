(** C90: both recordings louder. *)
From Coq Require Import ZArith List Bool Reals Lra Lia.
From Coq Require Import ZifyBool ZifyNat.
From Verif Require Import Base.Res Base.Num Base.NumR Base.Lists Base.Mat Model.Amatrix Model.Fft Model.Window
  Model.FilterBank Model.Spectrogram Model.Nsim Model.MiscAudio Model.Visqol Model.Manager Spec.StatSpec Spec.AudioSpec Spec.LoudSpec Spec.ManagerSpec Spec.LevelSpec
  Proofs.RealP Proofs.DftP Proofs.BankP Proofs.AggregateP Proofs.TotalP Proofs.TotalCasesP Proofs.IdentityP Proofs.IdentityRunP Proofs.NsimP Proofs.LoudP Proofs.LoudCasesP Proofs.LevelScaleP Proofs.NsimOneP Proofs.LevelCasesP.
Import ListNotations.
Open Scope R_scope.

Lemma level_removed (w : world R) (m : manager R) (ref deg : audio R) (g : R) win R1 D1 msg :
  homogeneous (w_fft w) -> reachable m -> st_no_realign (mg_settings m) = true -> 1 <= g -> 0 < energy (au_data ref) ->
  make_window (au_sr ref) = Ret win ->
  snd (build (st_speech (mg_settings m)) (mg_bank m) ref win) = Ret R1 -> all_audible R1 ->
  snd (build (st_speech (mg_settings m)) (mg_bank m) (snd (fst (run w m ref deg))) win) = Ret D1 -> all_audible D1 ->
  snd (run w m ref deg) = Ret msg -> snd (run w m (louder g ref) (louder g deg)) = Ret msg.
Proof.
  intros HF HR NR HG EN EW B1 A1 B2 A2 HM. assert (G0 : 0 < g) by lra.
  pose proof (bank_invariant m HR) as [KB _]. pose proof (num_bands_pos (st_speech (mg_settings m))) as NP.
  destruct (loudness_removed w m (louder g ref) deg g HF G0) as [-> _].
  apply (run_louder g G0 w m ref deg win R1 D1); try assumption; [now right|lia].
Qed.
Lemma ideal_is_homogeneous : homogeneous (w_fft total_world). Proof. exact ideal_homogeneous. Qed.
Lemma spike_within g : 0 < g -> within g (louder g spike).
Proof.
  intros Hg x Hx. unfold louder, spike in Hx. cbn [au_data] in Hx. apply in_map_iff in Hx. destruct Hx as (y & <- & Hy). apply in_app_or in Hy.
  rewrite Rabs_mult, (Rabs_pos_eq g) by lra. destruct Hy as [Hy|[<-|[]]]; [apply repeat_spec in Hy; subst y; rewrite Rabs_R0|rewrite Rabs_R1]; lra.
Qed.
Lemma differs_example : exists p, measure_patch_similarity (MkMat 1 2 [0; 1]) (MkMat 1 2 [0; 2]) = Ret p /\ ps_sim p <> 1.
Proof.
  destruct (measure_bounded (MkMat 1 2 [0; 1]) (MkMat 1 2 [0; 2]) ltac:(cbn; lia) ltac:(cbn; lia) eq_refl eq_refl) as (M & p & _ & E & _). exists p. split; [exact E|].
  intros H. apply (measure_one (MkMat 1 2 [0; 1]) (MkMat 1 2 [0; 2]) p) in H; [|reflexivity|reflexivity|cbn; lia|cbn; lia|reflexivity|reflexivity|exact E]. injection H as H. lra.
Qed.
