(** The warnings about the input (C112). *)
From Coq Require Import ZArith List Bool Lia Reals Lra Floats.
From Flocq Require Import Core.Core IEEE754.BinarySingleNaN IEEE754.PrimFloat.
From Verif Require Import Base.Res Base.Num Base.NumR Base.NumF Base.Lists Base.Mat Model.Window Model.FilterBank Model.MiscAudio Model.Alignment Model.Visqol Model.Manager Model.Warnings
  Spec.WarningSpec Proofs.B64P Proofs.RoundP Proofs.ScoresP Proofs.FftAccP.
Import ListNotations.
Open Scope R_scope.
Local Notation F := PrimFloat.float.

Section Any.
  Context {T : Type} {N : Num T}.
  Lemma rate_no_duration b (ref : audio T) : ~ warned_duration (rate_warnings b ref).
  Proof. intros (r & d & H). unfold rate_warnings in H. destruct b; [destruct (16000 <? au_sr ref)%Z|destruct (au_sr ref =? 48000)%Z]; cbn in H; intuition discriminate. Qed.
  Lemma warned_iff (m : manager T) ref deg : mg_init m = true ->
    (warned_duration (run_warnings m ref deg) <-> nltb kDurationMismatchTolerance (nabs (nsub (audio_duration ref) (audio_duration deg))) = true).
  Proof.
    intros I. unfold run_warnings. rewrite I. cbn [negb]. unfold validate_warnings, duration_warnings. destruct (nltb _ _).
    - split; [reflexivity|]. intros _. eexists _, _. left. reflexivity.
    - split; [|discriminate]. cbn [app]. intros H. exfalso. destruct (validate ref deg); [destruct H as (? & ? & [])|exact (rate_no_duration _ _ H)].
  Qed.
  Lemma rates_warned (m : manager T) ref deg : mg_init m = true ->
    (In AboveSpeechRate (run_warnings m ref deg) <-> au_sr ref = au_sr deg /\ st_speech (mg_settings m) = true /\ (16000 < au_sr ref)%Z) /\
    (In NotAudioRate (run_warnings m ref deg) <-> au_sr ref = au_sr deg /\ st_speech (mg_settings m) = false /\ (au_sr ref <> 48000)%Z).
  Proof.
    intros I. unfold run_warnings. rewrite I. cbn [negb]. unfold validate_warnings, duration_warnings, validate.
    assert (D : forall x : warning T, (forall r d, x <> DurationsDiffer r d) -> forall b r d l, In x ((if b : bool then [DurationsDiffer r d] else []) ++ l) <-> In x l).
    { intros x Hx b r d l. destruct b; cbn [app In]; [|reflexivity]. split; [intros [C|C]; [exfalso; exact (Hx _ _ (eq_sym C))|exact C]|intros C; right; exact C]. }
    cbv zeta. rewrite !D by discriminate. destruct (Z.eqb_spec (au_sr ref) (au_sr deg)) as [E|E]; [|cbn [In]; tauto].
    unfold rate_warnings. destruct (st_speech (mg_settings m)).
    - destruct (Z.ltb_spec 16000 (au_sr ref)); cbn [In]; (split; split); intros H'; try tauto; try (destruct H' as [H'|H']; [discriminate H'|contradiction]); try (destruct H' as (_ & H' & _); discriminate H'); lia.
    - destruct (Z.eqb_spec (au_sr ref) 48000); cbn [In]; (split; split); intros H'; try tauto; try (destruct H' as [H'|H']; [discriminate H'|contradiction]); try (destruct H' as (_ & H' & _); discriminate H'); lia.
  Qed.
End Any.

(** *** exact durations *)
Lemma exact_durations (m : manager R) (ref deg : audio R) : mg_init m = true -> (0 < au_sr ref)%Z -> (0 < au_sr deg)%Z ->
  (warned_duration (run_warnings m ref deg) <-> durations_differ ref deg).
Proof.
  intros I H1 H2. rewrite (warned_iff m ref deg I). unfold kDurationMismatchTolerance, audio_duration, durations_differ, n1, nofnat. cbn [nltb nabs nsub ndiv nofZ NumR].
  set (a := Z.of_nat (length (au_data ref))). set (b := Z.of_nat (length (au_data deg))). set (p := au_sr ref) in *. set (q := au_sr deg) in *. clearbody a b p q.
  assert (P : 0 < IZR p) by (apply IZR_lt; exact H1). assert (Q : 0 < IZR q) by (apply IZR_lt; exact H2). assert (PQ : 0 < IZR p * IZR q) by (apply Rmult_lt_0_compat; assumption).
  assert (E : Rabs (IZR a / IZR p - IZR b / IZR q) = IZR (Z.abs (a * q - b * p)) / (IZR p * IZR q)).
  { rewrite abs_IZR, minus_IZR, !mult_IZR. replace (IZR a / IZR p - IZR b / IZR q) with ((IZR a * IZR q - IZR b * IZR p) / (IZR p * IZR q)) by (field; lra).
    unfold Rdiv. rewrite Rabs_mult. rewrite (Rabs_pos_eq (/ _)); [reflexivity|]. left. apply Rinv_0_lt_compat, PQ. }
  rewrite E. split.
  - intros H. assert (L : 1 < IZR (Z.abs (a * q - b * p)) / (IZR p * IZR q)) by (revert H; unfold Rltb; destruct (Rlt_dec _ _); [intros _; assumption|discriminate]).
    apply lt_IZR. rewrite mult_IZR. apply Rmult_lt_compat_r with (r := IZR p * IZR q) in L; [|exact PQ]. unfold Rdiv in L. rewrite Rmult_assoc, Rinv_l, Rmult_1_r, Rmult_1_l in L by lra. exact L.
  - intros H. apply IZR_lt in H. rewrite mult_IZR in H. assert (L : 1 < IZR (Z.abs (a * q - b * p)) / (IZR p * IZR q)).
    { apply Rmult_lt_reg_r with (IZR p * IZR q); [exact PQ|]. unfold Rdiv. rewrite Rmult_assoc, Rinv_l, Rmult_1_r, Rmult_1_l by lra. exact H. }
    unfold Rltb. destruct (Rlt_dec _ _); [reflexivity|contradiction].
Qed.

(** *** binary64, the same rate for both *)
Lemma duration_F (n r : Z) : (0 <= n <= 2 ^ 40)%Z -> (1 <= r <= 2 ^ 30)%Z ->
  fin (PrimFloat.div (F_ofZ n) (F_ofZ r)) /\ Rabs (FR (PrimFloat.div (F_ofZ n) (F_ofZ r)) - IZR n / IZR r) <= 1 / 4096 / IZR r /\ 0 <= FR (PrimFloat.div (F_ofZ n) (F_ofZ r)) <= IZR (2 ^ 41).
Proof.
  intros Hn Hr. destruct (FR_ofZ n ltac:(lia)) as [E1 F1]. destruct (FR_ofZ r ltac:(lia)) as [E2 F2].
  assert (R1 : 1 <= IZR r) by (apply IZR_le; lia). assert (N0 : 0 <= IZR n) by (apply IZR_le; lia). assert (N1 : IZR n <= IZR (2 ^ 40)) by (apply IZR_le; lia).
  assert (I0 : 0 < / IZR r) by (apply Rinv_0_lt_compat; lra). assert (I1 : / IZR r <= 1) by (rewrite <- Rinv_1; apply Rinv_le; lra).
  set (z := IZR n / IZR r). assert (Z0 : 0 <= z) by (unfold z, Rdiv; apply Rmult_le_pos; lra).
  assert (Z1 : z <= IZR (2 ^ 40) * / IZR r) by (unfold z, Rdiv; apply Rmult_le_compat_r; lra).
  assert (Z2 : IZR (2 ^ 40) * / IZR r <= IZR (2 ^ 40)) by (rewrite <- (Rmult_1_r (IZR (2 ^ 40))) at 2; apply Rmult_le_compat_l; [apply IZR_le; lia|exact I1]).
  assert (T : tiny <= IZR (2 ^ 40) * / IZR r).
  { apply Rle_trans with (1 := tiny_small). assert (R2 : IZR r <= IZR (2 ^ 30)) by (apply IZR_le; lia). assert (/ IZR (2 ^ 30) <= / IZR r) by (apply Rinv_le; lra).
    apply Rle_trans with (IZR (2 ^ 40) * / IZR (2 ^ 30)); [cbn; lra|apply Rmult_le_compat_l; [apply IZR_le; lia|assumption]]. }
  pose proof big_large.
  assert (B2 : IZR (2 ^ 40) <= big) by (apply Rle_trans with (2 := big_large); cbn; lra).
  destruct (FR_div (F_ofZ n) (F_ofZ r) F1 ltac:(rewrite E2; lra)) as [ED FD].
  { rewrite E1, E2. fold z. apply (rnd_fmax z (IZR (2 ^ 40) * / IZR r)); [rewrite Rabs_pos_eq; lra|exact T|lra]. }
  rewrite E1, E2 in ED. fold z in ED. split; [exact FD|]. rewrite ED.
  pose proof (rnd_err z (IZR (2 ^ 40) * / IZR r) ltac:(rewrite Rabs_pos_eq; lra) T) as RE.
  assert (U : u * (IZR (2 ^ 40) * / IZR r) <= 1 / 4096 / IZR r).
  { unfold Rdiv at 1. rewrite <- Rmult_assoc. apply Rmult_le_compat_r; [lra|]. pose proof u_small. pose proof u_pos. apply Rle_trans with (12 / 100000000000000000 * IZR (2 ^ 40)); [apply Rmult_le_compat_r; [apply IZR_le; lia|assumption]|cbn; lra]. }
  split; [lra|]. split.
  - replace 0 with (rnd 0) by (apply round_0, valid_rnd_N). apply rnd_le, Z0.
  - apply Raux.Rabs_le_inv in RE. assert (1 / 4096 / IZR r <= 1) by (unfold Rdiv; nra). assert (IZR (2 ^ 40) + 1 <= IZR (2 ^ 41)) by (cbn; lra). lra.
Qed.
Lemma float_durations (m : manager F) (ref deg : audio F) : mg_init m = true -> au_sr ref = au_sr deg -> (1 <= au_sr ref <= 2 ^ 30)%Z ->
  (Z.of_nat (length (au_data ref)) <= 2 ^ 40)%Z -> (Z.of_nat (length (au_data deg)) <= 2 ^ 40)%Z ->
  (Z.abs (Z.of_nat (length (au_data ref)) - Z.of_nat (length (au_data deg))) <> au_sr ref)%Z ->
  (warned_duration (run_warnings m ref deg) <-> durations_differ ref deg).
Proof.
  intros I ES Hr H1 H2 NE. rewrite (warned_iff m ref deg I). unfold kDurationMismatchTolerance, audio_duration, durations_differ, n1, nofnat. rewrite <- ES. cbn [nltb nabs nsub ndiv nofZ NumF].
  set (a := Z.of_nat (length (au_data ref))) in *. set (b := Z.of_nat (length (au_data deg))) in *. set (r := au_sr ref) in *.
  assert (A0 : (0 <= a)%Z) by (unfold a; lia). assert (B0 : (0 <= b)%Z) by (unfold b; lia). clearbody a b r.
  destruct (duration_F a r ltac:(lia) Hr) as (Fa & Ea & Ba). destruct (duration_F b r ltac:(lia) Hr) as (Fb & Eb & Bb).
  set (x := PrimFloat.div (F_ofZ a) (F_ofZ r)) in *. set (y := PrimFloat.div (F_ofZ b) (F_ofZ r)) in *.
  destruct (FR_ofZ 1 ltac:(lia)) as [E1 F1]. pose proof big_large. pose proof tiny_small.
  assert (B2 : IZR (2 ^ 41) <= big) by (apply Rle_trans with (2 := big_large); cbn; lra).
  destruct (FR_sub x y Fa Fb) as [Es Fs]. { apply (rnd_fmax _ (IZR (2 ^ 41))); [apply Rabs_le; lra| |exact B2]. apply Rle_trans with (1 := tiny_small). cbn; lra. }
  assert (FA : fin (PrimFloat.abs (PrimFloat.sub x y))) by (unfold fin in *; rewrite abs_equiv, is_finite_Babs; exact Fs).
  assert (EA : FR (PrimFloat.abs (PrimFloat.sub x y)) = Rabs (rnd (FR x - FR y))) by (rewrite <- Es; unfold FR; rewrite abs_equiv, B2R_Babs; reflexivity).
  rewrite FR_ltb by assumption. rewrite E1, EA. clear EA FA Es Fs.
  assert (R1 : 1 <= IZR r) by (apply IZR_le; lia). assert (I0 : 0 < / IZR r) by (apply Rinv_0_lt_compat; lra).
  assert (I1 : / IZR (2 ^ 30) <= / IZR r) by (apply Rinv_le; [lra|apply IZR_le; lia]).
  assert (K1 : rnd 1 = 1) by (apply (rnd_exact 1 0); [cbn; lra|lia|lia]). assert (K2 : rnd (-1) = -1) by (apply (rnd_exact (-1) 0); [cbn; lra|lia|lia]).
  set (h := / IZR (2 ^ 31)). assert (Hh : h = bpow radix2 (-31)) by reflexivity.
  assert (HB : IZR (2 ^ 31 + 1) * bpow radix2 (-31) = 1 + h) by (rewrite <- Hh, plus_IZR; unfold h; cbn; lra).
  assert (HB' : IZR (- (2 ^ 31 + 1)) * bpow radix2 (-31) = - (1 + h)) by (rewrite opp_IZR, Ropp_mult_distr_l_reverse, HB; reflexivity).
  assert (K3 : rnd (1 + h) = 1 + h) by (apply (rnd_exact (2 ^ 31 + 1) (-31)); [symmetry; exact HB|lia|lia]).
  assert (K4 : rnd (- (1 + h)) = - (1 + h)) by (apply (rnd_exact (- (2 ^ 31 + 1)) (-31)); [symmetry; exact HB'|lia|lia]).
  assert (h0 : 0 < h) by (rewrite Hh; apply bpow_gt_0). assert (h2 : 2 * h = / IZR (2 ^ 30)) by (unfold h; cbn; lra).
  apply Raux.Rabs_le_inv in Ea, Eb. unfold Rdiv in Ea, Eb. set (i := / IZR r) in *.
  assert (IR : IZR r * i = 1) by (unfold i; apply Rinv_r; lra). clearbody i. 
  split.
  - intros H'. destruct (Z.lt_ge_cases (r * r) (Z.abs (a * r - b * r))) as [C|C]; [exact C|]. exfalso.
    assert (C' : (Z.abs (a - b) <= r - 1)%Z). { rewrite <- Z.mul_sub_distr_r, Z.abs_mul in C. rewrite (Z.abs_eq r) in C by lia. assert (Z.abs (a - b) <= r)%Z by (apply Z.mul_le_mono_pos_r with r; lia). lia. }
    assert (D : -(IZR r - 1) <= IZR a - IZR b <= IZR r - 1) by (rewrite <- !minus_IZR, <- opp_IZR; split; apply IZR_le; lia).
    assert (D1 : (IZR a - IZR b) * i <= (IZR r - 1) * i) by (apply Rmult_le_compat_r; lra). assert (D2 : -(IZR r - 1) * i <= (IZR a - IZR b) * i) by (apply Rmult_le_compat_r; lra).
    assert (L1 : rnd (FR x - FR y) <= 1) by (rewrite <- K1; apply rnd_le; lra). assert (L2 : -1 <= rnd (FR x - FR y)) by (rewrite <- K2; apply rnd_le; lra).
    revert H'. case Raux.Rlt_bool_spec; [|discriminate]. intros L _. assert (Rabs (rnd (FR x - FR y)) <= 1) by (apply Rabs_le; lra). lra.
  - intros C. apply Raux.Rlt_bool_true. rewrite <- Z.mul_sub_distr_r, Z.abs_mul in C. rewrite (Z.abs_eq r) in C by lia. apply Z.mul_lt_mono_pos_r in C; [|lia].
    destruct (Z.le_gt_cases 0 (a - b)) as [S1|S1].
    + assert (D : IZR r + 1 <= IZR a - IZR b) by (rewrite <- minus_IZR, <- plus_IZR; apply IZR_le; lia). assert (D1 : (IZR r + 1) * i <= (IZR a - IZR b) * i) by (apply Rmult_le_compat_r; lra).
      assert (L1 : 1 + h <= rnd (FR x - FR y)) by (rewrite <- K3; apply rnd_le; lra). rewrite Rabs_pos_eq; lra.
    + assert (D : IZR a - IZR b <= - (IZR r + 1)) by (rewrite <- minus_IZR, <- plus_IZR, <- opp_IZR; apply IZR_le; lia). assert (D1 : (IZR a - IZR b) * i <= - (IZR r + 1) * i) by (apply Rmult_le_compat_r; lra).
      assert (L1 : rnd (FR x - FR y) <= - (1 + h)) by (rewrite <- K4; apply rnd_le; lra). rewrite Rabs_left1; lra.
Qed.

(** *** two recordings that differ by exactly one second *)
Definition quiet (n : Z) : audio F := MkAudio (repeat 0%float (Z.to_nat n)) 16000.
Lemma quiet_length n : (0 <= n)%Z -> Z.of_nat (length (au_data (quiet n))) = n.
Proof. intros H. cbn [au_data quiet]. rewrite repeat_length. lia. Qed.
Lemma one_second (m : manager F) : mg_init m = true -> warned_duration (run_warnings m (quiet 32002) (quiet 16002)) /\ ~ durations_differ (quiet 32002) (quiet 16002).
Proof.
  intros I. split.
  - apply (warned_iff m _ _ I). unfold kDurationMismatchTolerance, audio_duration, nofnat. rewrite !quiet_length by lia. reflexivity.
  - unfold durations_differ. rewrite !quiet_length by lia. cbn [au_sr quiet]. lia.
Qed.

(** *** the numbers shown *)
Lemma shown_durations {T : Type} {N : Num T} (m : manager T) (ref deg : audio T) r d : In (DurationsDiffer r d) (run_warnings m ref deg) ->
  mg_init m = true /\ r = ndiv (nofnat (length (au_data ref))) (nofZ (au_sr ref)) /\ d = ndiv (nofnat (length (au_data deg))) (nofZ (au_sr deg)) /\
  hd_error (run_warnings m ref deg) = Some (DurationsDiffer r d).
Proof.
  unfold run_warnings, validate_warnings, duration_warnings, rate_warnings, audio_duration. destruct (mg_init m); [|intros []]. cbn [negb].
  intros H. apply in_app_or in H. destruct H as [H|H].
  - destruct (nltb _ _); [|destruct H]. destruct H as [H|[]]. injection H as <- <-. cbn [app hd_error]. auto.
  - exfalso. destruct (validate ref deg); [destruct H|]. destruct (st_speech _); [destruct (_ <? _)|destruct (_ =? _)]; cbn [In] in H; try (destruct H as [H|[]]; discriminate H); destruct H.
Qed.
