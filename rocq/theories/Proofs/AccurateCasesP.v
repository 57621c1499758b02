(** A concrete comparison with correctly rounded elementary functions (C101). *)
From Coq Require Import ZArith List Bool Lia Floats Reals.
From Coq Require Strings.String.
From Flocq Require Import IEEE754.BinarySingleNaN IEEE754.PrimFloat.
From Verif Require Import Base.Res Base.Num Base.NumF Base.Lists Base.Mat Model.Window Model.FilterBank Model.MiscAudio Model.Alignment Model.Mappers Model.Visqol Model.Manager
  Spec.FftSpec Spec.ManagerSpec Spec.TotalSpec Spec.UndefinedSpec Spec.StableSpec Spec.LibmSpec Spec.PcmSpec Proofs.FftP Proofs.ToyRunP Proofs.StableCasesP Proofs.AccurateRunP Proofs.RoundedLibmP Proofs.B64P Proofs.LevelFloatP Proofs.CenterP.
Import ListNotations.
Open Scope Z_scope.

Lemma accurate_bank_at {L : Libm F} speech sr : accurate L -> 4000 <= sr <= 262144 -> stable_bank speech (fresh_bank speech) sr.
Proof. intros A Hsr. unfold stable_bank. apply (bank_stable A); [exact Hsr|]. destruct speech; cbn; lia. Qed.
Lemma level_cases {L : Libm F} (s : audio F) : accurate L -> Forall pcm (au_data s) -> 1 <= Z.of_nat (length (au_data s)) < 2 ^ 30 ->
  (Forall (fun x => PrimFloat.eqb x 0 = true) (au_data s) /\ sound_pressure_level s = neg_infinity) \/ from_to (-300) 110 (sound_pressure_level s).
Proof.
  intros A HP HL. destruct (spl_cases A s HP HL) as [[Z E]|(Fs & B & _)].
  - left. split; [|exact E]. rewrite Forall_forall in *. intros x Hx. apply FiniteCasesP.zero_eqb; [|apply Z, Hx]. apply (pcm_real x (HP x Hx)).
  - right. assert (F4 : fin 110) by reflexivity. assert (F4m : fin (-300)) by reflexivity.
    assert (E4 : FR 110 = 110%R) by (change 110%float with (F_ofZ 110); apply FR_ofZ; lia). assert (E4m : FR (-300) = (-300)%R) by (change (-300)%float with (F_ofZ (-300)); apply FR_ofZ; lia).
    split; rewrite FR_leb by assumption; rewrite ?E4, ?E4m; case Flocq.Core.Raux.Rle_bool_spec; try reflexivity; intros C; exfalso; revert C; apply RIneq.Rle_not_lt; apply B.
Qed.
Lemma silent_undefined {L : Libm F} (ref d : audio F) : accurate L -> Forall pcm (au_data ref) -> 1 <= Z.of_nat (length (au_data ref)) < 2 ^ 30 -> 1 <= Z.of_nat (length (au_data d)) < 2 ^ 30 ->
  Forall (fun x => PrimFloat.eqb x 0 = true) (au_data d) -> Forall undefined (au_data (scale_to_match_spl ref d)).
Proof.
  intros A PR LR LD Z. assert (PD : Forall pcm (au_data d)).
  { eapply Forall_impl; [|exact Z]. intros x Hx. split; [|left; exact Hx]. revert Hx. unfold within. rewrite eqb_equiv, leb_equiv, abs_equiv.
    destruct (Prim2B x) as [[]|[]| |[] ? ? ?]; try discriminate; reflexivity. }
  assert (ZR : Forall (fun x => fin x /\ FR x = 0%R) (au_data d)).
  { rewrite Forall_forall in *. intros x Hx. destruct (pcm_real x (PD x Hx)) as [[Fx _] _]. split; [exact Fx|]. exact (eqb_fin x 0 Fx eq_refl (Z x Hx)). }
  unfold scale_to_match_spl. cbn [au_data]. apply Forall_map. unfold spl_scale_factor. cbn [nsub ndiv nmul nofZ NumF].
  assert (SD : sound_pressure_level d = neg_infinity).
  { destruct (spl_cases A d PD LD) as [[_ E]|(_ & _ & NZ)]; [exact E|]. exfalso. rewrite Exists_exists in NZ. destruct NZ as (x & Hx & NX). rewrite Forall_forall in ZR. apply NX, ZR, Hx. }
  rewrite SD. destruct (spl_cases A ref PR LR) as [[_ ->]|(Fr & _ & _)].
  - eapply Forall_impl; [|exact ZR]. intros x _. apply mul_undefined_r, (pow10_undefined L A). reflexivity.
  - rewrite (plus_inf _ Fr). change (PrimFloat.div infinity (F_ofZ 20)) with infinity. rewrite (pow10_plus L A). eapply Forall_impl; [|exact ZR]. intros x [Fx Ex]. apply zero_times_inf; assumption.
Qed.

Definition tone (v : F) : audio F := MkAudio (repeat v (Z.to_nat 2700)) 4000.
Lemma tone_pcm v : pcm v -> Forall pcm (au_data (tone v)). Proof. apply Forall_repeat_. Qed.
Lemma half_pcm : pcm 0.5. Proof. split; [reflexivity|right; reflexivity]. Qed.
Definition plain_manager (realign : bool) : manager F := fst (init run_world manager_new (MkInit String.EmptyString true false 4 false false (negb realign))).
Lemma plain_reached b : reachable (L:=rounded_libm) (plain_manager b) /\ mg_init (plain_manager b) = true /\ st_no_realign (mg_settings (plain_manager b)) = negb b.
Proof. split; [apply r_init, r_new|]. destruct b; split; reflexivity. Qed.
Lemma tone_runs v realign : pcm v ->
  (exists msg, snd (run (L:=rounded_libm) run_world (plain_manager realign) (tone 0.5) (tone v)) = Ret msg) \/
  (realign = true /\ snd (run (L:=rounded_libm) run_world (plain_manager realign) (tone 0.5) (tone v)) = Throw).
Proof.
  intros Pv. destruct (plain_reached realign) as (R1 & R2 & R3).
  assert (KL : keeps_length (w_fft run_world)) by (split; intros l; reflexivity).
  assert (LN : forall v, Z.of_nat (length (au_data (tone v))) = 2700) by (intros; unfold tone; cbn [au_data]; rewrite repeat_length; reflexivity).
  assert (FN : frames_in 4000 (length (au_data (tone 0.5))) = 30) by (unfold frames_in; rewrite LN; reflexivity).
  assert (SP : st_speech (mg_settings (plain_manager realign)) = true) by (destruct realign; reflexivity).
  assert (X : (exists msg, snd (run (L:=rounded_libm) run_world (plain_manager realign) (tone 0.5) (tone v)) = Ret msg) \/
    (st_no_realign (mg_settings (plain_manager realign)) = false /\ snd (run (L:=rounded_libm) run_world (plain_manager realign) (tone 0.5) (tone v)) = Throw)).
  { refine (run_accurate (L:=rounded_libm) run_world (plain_manager realign) (tone 0.5) (tone v) rounded_accurate KL R2 R1 eq_refl _ _ _ _ _ _ _ _ _ (tone_pcm _ half_pcm) (tone_pcm _ Pv));
      change (au_sr (tone 0.5)) with 4000; rewrite ?LN, ?FN, ?SP.
    - lia.
    - lia.
    - lia.
    - unfold window_samples. change ((4 * 4000 + 25) / 50) with 320. lia.
    - lia.
    - intros _. reflexivity.
    - destruct realign; cbn; lia.
    - destruct realign; cbn; lia.
    - destruct realign; exact I. }
  destruct X as [X|[E X]]; [left; exact X|right; split; [|exact X]]. clear X. rewrite R3 in E. clear - E. destruct realign; [reflexivity|discriminate E].
Qed.
