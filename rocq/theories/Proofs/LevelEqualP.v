(** The degraded recording after scaling, in binary64, against the level of the reference (C107). *)
From Coq Require Import ZArith List Bool Reals Lra Lia Floats Psatz.
From Flocq Require Import Core.Core IEEE754.BinarySingleNaN IEEE754.PrimFloat.
From Interval Require Import Tactic.
From Verif Require Import Base.Res Base.Num Base.NumF Base.Lists Base.Mat Model.Amatrix Model.MiscMath Model.Window Model.FilterBank Model.MiscAudio Spec.AudioSpec Spec.UndefinedSpec Spec.StableSpec Spec.LibmSpec Spec.PcmSpec
  Proofs.B64P Proofs.RoundP Proofs.BoundP Proofs.ScoresP Proofs.StableP Proofs.StableBankP Proofs.RelP Proofs.ErbNormP Proofs.LevelFloatP Proofs.LevelRoundP Proofs.LevelMatchP.
Import ListNotations.
Open Scope R_scope.
Local Notation sq := R_sqrt.sqrt.

Lemma scaled_square x (f : F) : pcm x -> fin f -> 1 / 100000000000000000000 <= FR f <= 100000000000000000000 ->
  fin (PrimFloat.mul x f) /\ Rabs (FR (PrimFloat.mul x f) * FR (PrimFloat.mul x f) - FR x * FR x * (FR f * FR f)) <= 3 * u * (FR x * FR x * (FR f * FR f)).
Proof.
  intros H Ff Hf. apply pcm_real in H. destruct H as [[Fx Bx] C]. change (bpow radix2 0) with 1 in Bx. pose proof u_small as US. pose proof u_pos as UP.
  assert (B : Rabs (FR x * FR f) <= 100000000000000000000). { rewrite Rabs_mult, (Rabs_pos_eq (FR f)) by lra. pose proof (Rabs_pos (FR x)). nra. }
  destruct (FR_mul x f Fx Ff) as [E Fm]; [apply (rnd_fmax _ 100000000000000000000); [exact B|pose proof tiny_small; lra|pose proof big_large; lra]|]. split; [exact Fm|]. rewrite E.
  assert (R : Rabs (rnd (FR x * FR f) - FR x * FR f) <= u * Rabs (FR x * FR f)).
  { apply rnd_rel. destruct C as [C|C]; [left; rewrite C; ring|right]. rewrite Rabs_mult, (Rabs_pos_eq (FR f)) by lra. apply Rle_trans with (bpow radix2 (-31) * bpow radix2 (-70)); [rewrite <- bpow_plus; apply bpow_le; lia|].
    apply Rmult_le_compat; try apply bpow_ge_0; [exact C|]. change (bpow radix2 (-70)) with (/ 1180591620717411303424). lra. }
  replace (FR x * FR x * (FR f * FR f)) with (FR x * FR f * (FR x * FR f)) by ring. set (t := FR x * FR f) in *. set (r := rnd t) in *. clearbody t r.
  assert (T2 : t * t = Rabs t * Rabs t) by (rewrite <- Rabs_mult, Rabs_pos_eq; nra). rewrite T2 at 2.
  replace (r * r - t * t) with ((r - t) * ((r - t) + 2 * t)) by ring. rewrite Rabs_mult. apply Rle_trans with (u * Rabs t * (3 * Rabs t)); [|right; ring].
  apply Rmult_le_compat; try apply Rabs_pos; [exact R|]. pose proof (Rabs_pos t). apply Rle_trans with (1 := Rabs_triang _ _). rewrite Rabs_mult, (Rabs_pos_eq 2) by lra. nra.
Qed.
Lemma nonzero x : pcm x -> PrimFloat.eqb x 0 = false -> FR x <> 0.
Proof.
  intros H E Z. apply pcm_real in H. destruct H as [[Fx _] _]. assert (F0 : fin 0) by reflexivity. rewrite eqb_spec in E. assert (EB := Beqb_correct prec emax _ _ Fx F0). unfold Beqb in EB. rewrite !B2SF_Prim2B in EB. rewrite EB in E.
  change (B2R (Prim2B 0)) with 0 in E. fold (FR x) in E. revert E. case Req_bool_spec; [discriminate|]. intros N. contradiction.
Qed.
Lemma exists_nonzero l : Forall pcm l -> Exists (fun x => PrimFloat.eqb x 0 = false) l -> Exists (fun x => FR x <> 0) l.
Proof. rewrite Forall_forall. intros H E. apply Exists_exists in E. destruct E as (x & Hx & E). apply Exists_exists. exists x. split; [exact Hx|]. apply nonzero; auto. Qed.
Lemma total_scale (g : F -> R) c l : total (map (fun x => g x * c) l) = total (map g l) * c.
Proof. unfold total. induction l as [|x l IH]; cbn [map fold_right]; [ring|]. rewrite IH. ring. Qed.

Section Equal.
  Context {L : Libm F} (A : accurate L).
  Lemma level_close (s : audio F) : Forall pcm (au_data s) -> (1 <= Z.of_nat (length (au_data s)) < 2 ^ 30)%Z -> Exists (fun x => PrimFloat.eqb x 0 = false) (au_data s) ->
    fin (sound_pressure_level s) /\ Rabs (FR (sound_pressure_level s) - spl (map FR (au_data s))) <= 1 / 100000.
  Proof. intros HP HL HE. destruct (level_rel A s HP HL (exists_nonzero _ HP HE)) as [H1 H2]. split; [exact H1|lra]. Qed.
  Lemma matched (ref d : audio F) : Forall pcm (au_data ref) -> Forall pcm (au_data d) -> (1 <= Z.of_nat (length (au_data ref)) < 2 ^ 30)%Z -> (1 <= Z.of_nat (length (au_data d)) < 2 ^ 30)%Z ->
    Exists (fun x => PrimFloat.eqb x 0 = false) (au_data ref) -> Exists (fun x => PrimFloat.eqb x 0 = false) (au_data d) ->
    let s := scale_to_match_spl ref d in
    Forall fin (au_data s) /\ length (au_data s) = length (au_data d) /\ au_sr s = au_sr d /\
    Rabs (energy (map FR (au_data s)) / INR (length (au_data s)) - energy (map FR (au_data ref)) / INR (length (au_data ref))) <= 1 / 100000 * (energy (map FR (au_data ref)) / INR (length (au_data ref))) /\
    Rabs (spl (map FR (au_data s)) - spl (map FR (au_data ref))) <= 1 / 10000.
  Proof.
    intros P1 P2 L1 L2 X1 X2. cbv zeta. apply exists_nonzero in X1; [|exact P1]. apply exists_nonzero in X2; [|exact P2].
    destruct (factor_rel A ref d P1 P2 L1 L2 X1 X2) as (Ff & Rf & Bf). destruct (pressure_rel _ P1 L1 X1) as (PW1 & _ & _). destruct (pressure_rel _ P2 L2 X2) as (PW2 & _ & _). pose proof (bpow_gt_0 radix2 (-93)) as B93.
    assert (MP1 : 0 < power (au_data ref)) by lra. pose proof (R_sqrt.sqrt_lt_R0 _ MP1) as SP1. assert (MP2 : 0 < power (au_data d)) by lra. pose proof (R_sqrt.sqrt_lt_R0 _ MP2) as SP2.
    set (fr := sq (power (au_data ref)) / sq (power (au_data d))) in *. assert (F2 : fr * fr * power (au_data d) = power (au_data ref)).
    { unfold fr. rewrite <- (R_sqrt.sqrt_sqrt (power (au_data d))) at 3 by lra. rewrite <- (R_sqrt.sqrt_sqrt (power (au_data ref))) at 3 by lra. field. lra. }
    assert (E1 : 1 / 10000000000000000000 * 5 / 10 <= exp (-44)) by interval. assert (E2 : exp 44 <= 50000000000000000000) by interval.
    unfold scale_to_match_spl. cbn [au_data au_sr]. set (f := spl_scale_factor ref d) in *. cbn [nmul NumF].
    assert (FB : 1 / 100000000000000000000 <= FR f <= 100000000000000000000) by (abs_all; lra).
    assert (SQ : forall x, In x (au_data d) -> fin (PrimFloat.mul x f) /\ Rabs (FR (PrimFloat.mul x f) * FR (PrimFloat.mul x f) - FR x * FR x * (FR f * FR f)) <= 3 * u * (FR x * FR x * (FR f * FR f))).
    { intros x Hx. rewrite Forall_forall in P2. apply scaled_square; auto. }
    split; [apply Forall_map; apply Forall_forall; intros x Hx; apply (SQ x Hx)|]. split; [apply map_length|]. split; [reflexivity|].
    change (map (fun x => (x * f)%float) (au_data d)) with (map (fun x => PrimFloat.mul x f) (au_data d)).
    assert (EN : Rabs (energy (map FR (map (fun x => PrimFloat.mul x f) (au_data d))) - energy (map FR (au_data d)) * (FR f * FR f)) <= 3 * u * (energy (map FR (au_data d)) * (FR f * FR f))).
    { rewrite (energy_total (au_data d)), <- total_scale. unfold energy. rewrite !map_map. fold (total (map (fun x => FR (PrimFloat.mul x f) * FR (PrimFloat.mul x f)) (au_data d))). apply total_near. intros x Hx. apply (SQ x Hx). }
    set (n := INR (length (au_data d))). assert (NP : 0 < n) by (apply lt_0_INR; lia). assert (IN : 0 < / n) by (apply Rinv_0_lt_compat, NP).
    set (ES := energy (map FR (map (fun x => PrimFloat.mul x f) (au_data d)))) in *.
    assert (PN : Rabs (ES / n - power (au_data d) * (FR f * FR f)) <= 3 * u * (power (au_data d) * (FR f * FR f))).
    { unfold power. fold n. replace (ES / n - energy (map FR (au_data d)) / n * (FR f * FR f)) with ((ES - energy (map FR (au_data d)) * (FR f * FR f)) * / n) by (field; lra). rewrite Rabs_mult, (Rabs_pos_eq (/ n)) by lra.
      replace (3 * u * (energy (map FR (au_data d)) / n * (FR f * FR f))) with (3 * u * (energy (map FR (au_data d)) * (FR f * FR f)) * / n) by (field; lra). apply Rmult_le_compat_r; [lra|exact EN]. }
    assert (FF : Rabs (FR f * FR f - fr * fr) <= 5 / 1000000 * (fr * fr)).
    { replace (FR f * FR f - fr * fr) with ((FR f - fr) * ((FR f - fr) + 2 * fr)) by ring. rewrite Rabs_mult. assert (FP : 0 < fr) by lra. apply Rle_trans with (2 / 1000000 * fr * (25 / 10 * fr)); [|right; field].
      apply Rmult_le_compat; try apply Rabs_pos; [exact Rf|]. abs_all. apply Rabs_le. lra. }
    assert (PR : Rabs (power (au_data d) * (FR f * FR f) - power (au_data ref)) <= 5 / 1000000 * power (au_data ref)).
    { rewrite <- F2. replace (power (au_data d) * (FR f * FR f) - fr * fr * power (au_data d)) with ((FR f * FR f - fr * fr) * power (au_data d)) by ring. rewrite Rabs_mult, (Rabs_pos_eq (power (au_data d))) by lra. rewrite <- Rmult_assoc. apply Rmult_le_compat_r; [lra|exact FF]. }
    assert (TOT : Rabs (ES / n - power (au_data ref)) <= 6 / 1000000 * power (au_data ref)).
    { pose proof u_small. pose proof u_pos. assert (Q : 0 <= power (au_data d) * (FR f * FR f) <= 2 * power (au_data ref)) by (split; [nra|abs_all; lra]). assert (3 * u * (power (au_data d) * (FR f * FR f)) <= 1 / 1000000 * power (au_data ref)) by nra. abs_all. apply Rabs_le. lra. }
    rewrite !map_length. fold n. split; [fold (power (au_data ref)); abs_all; apply Rabs_le; lra|].
    rewrite (spl_is (au_data ref)). unfold spl. rewrite !map_length. fold n ES. replace 0.00002 with (2 / 100000) by lra.
    assert (EP : 0 < ES / n) by (abs_all; lra). pose proof (R_sqrt.sqrt_lt_R0 _ EP) as SE.
    pose proof (sqrt_rel (ES / n) _ _ (Rlt_le _ _ EP) MP1 TOT) as SR. assert (ER : 0 <= 6 / 1000000 <= 1 / 100) by lra. pose proof (ln_rel _ _ _ SP1 ER SR) as LR. unfold spl20.
    assert (LE : forall x y, 0 < x -> 0 < y -> ln (x / y) = ln x - ln y) by (intros x y Hx Hy; unfold Rdiv; rewrite ln_mult, ln_Rinv by (try apply Rinv_0_lt_compat; assumption); ring).
    rewrite (LE _ _ SE), (LE _ _ SP1) by lra. pose proof ln10_b as LT. set (a := ln (sq (ES / n))) in *. set (b := ln (sq (power (au_data ref)))) in *. set (c := ln (2 / 100000)).
    replace (20 * ((a - c) / ln 10) - 20 * ((b - c) / ln 10)) with ((a - b) * (20 * / ln 10)) by (field; lra). rewrite Rabs_mult. assert (IV : 0 < / ln 10 <= 10 / 23).
    { split; [apply Rinv_0_lt_compat; lra|]. replace (10 / 23) with (/ (23 / 10)) by lra. apply Rinv_le_contravar; lra. }
    rewrite (Rabs_pos_eq (20 * / ln 10)) by lra. apply Rle_trans with (102 / 100 * (6 / 1000000) * (20 * (10 / 23))); [apply Rmult_le_compat; try apply Rabs_pos; lra|lra].
  Qed.
End Equal.
