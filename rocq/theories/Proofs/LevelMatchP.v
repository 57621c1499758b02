(** The sound pressure level of integer recordings in binary64, continued: level and factor (C107). *)
From Coq Require Import ZArith List Bool Reals Lra Lia Floats Psatz.
From Flocq Require Import Core.Core IEEE754.BinarySingleNaN IEEE754.PrimFloat.
From Interval Require Import Tactic.
From Verif Require Import Base.Res Base.Num Base.NumF Base.Lists Base.Mat Model.Amatrix Model.MiscMath Model.Window Model.FilterBank Model.MiscAudio Spec.AudioSpec Spec.UndefinedSpec Spec.StableSpec Spec.LibmSpec Spec.PcmSpec
  Proofs.B64P Proofs.RoundP Proofs.BoundP Proofs.ScoresP Proofs.StableP Proofs.StableBankP Proofs.RelP Proofs.ErbNormP Proofs.LevelFloatP Proofs.LevelRoundP.
Import ListNotations.
Open Scope R_scope.
Local Notation sq := R_sqrt.sqrt.

Definition power (l : list F) : R := energy (map FR l) / INR (length l).
Lemma energy_le (l : list F) : Forall pcm l -> energy (map FR l) <= INR (length l).
Proof.
  unfold energy. induction 1 as [|x l H HF IH]; [cbn; lra|]. cbn [map fold_right]. change (length (x :: l)) with (S (length l)). rewrite S_INR. apply pcm_real in H. destruct H as [[_ B] _]. change (bpow radix2 0) with 1 in B. apply Rabs_le_inv in B. nra.
Qed.
Lemma pressure_rel (l : list F) : Forall pcm l -> (1 <= Z.of_nat (length l) < 2 ^ 30)%Z -> Exists (fun x => FR x <> 0) l ->
  let p := PrimFloat.sqrt (PrimFloat.div (nsum (map (@nsq F NumF) l)) (F_ofZ (Z.of_nat (length l)))) in
  bpow radix2 (-93) <= power l <= 1 /\ fin p /\ Rabs (FR p - sq (power l)) <= 5 / 10000000 * sq (power l).
Proof.
  intros HP HL HE. cbv zeta. pose proof (energy_pos l HE) as EP. pose proof (energy_le l HP) as EL. destruct (energy_rel l HP ltac:(lia)) as (Fs & Xs & Rs).
  unfold power. set (E := energy (map FR l)) in *. set (s := nsum (map (@nsq F NumF) l)) in *. rewrite INR_IZR_INZ in *. set (n := Z.of_nat (length l)) in *. clearbody n E s.
  destruct (FR_ofZ n ltac:(lia)) as [En Fn]. assert (NB : 1 <= IZR n <= 1073741824) by (split; apply IZR_le; lia).
  assert (S1 : bpow radix2 (-62) <= FR s) by (destruct Xs as [Xs|Xs]; [exfalso; rewrite Xs in Rs; abs_all; lra|exact Xs]).
  assert (BE : bpow radix2 (-62) = bpow radix2 (-63) * 2) by (change (bpow radix2 (-62)) with (bpow radix2 (-63 + 1)); rewrite bpow_plus; reflexivity).
  assert (E1 : bpow radix2 (-63) <= E) by (abs_all; lra). pose proof (bpow_gt_0 radix2 (-62)) as B62.
  assert (IN : 0 < / IZR n) by (apply Rinv_0_lt_compat; lra).
  assert (M1 : bpow radix2 (-93) <= E / IZR n <= 1).
  { split; apply Rmult_le_reg_r with (IZR n); try lra; unfold Rdiv; rewrite Rmult_assoc, Rinv_l, Rmult_1_r by lra; [|lra]. apply Rle_trans with (2 := E1). change (-63)%Z with (-93 + 30)%Z. rewrite bpow_plus. apply Rmult_le_compat_l; [apply bpow_ge_0|]. cbn. lra. }
  split; [exact M1|]. set (M := E / IZR n) in *. pose proof (bpow_gt_0 radix2 (-93)) as B93.
  assert (SM : Rabs (FR s / IZR n - M) <= 3 / 10000000 * M).
  { unfold M. replace (FR s / IZR n - E / IZR n) with ((FR s - E) * / IZR n) by (field; lra). rewrite Rabs_mult, (Rabs_pos_eq (/ IZR n)) by lra. unfold Rdiv at 2. rewrite <- Rmult_assoc. apply Rmult_le_compat_r; [lra|exact Rs]. }
  assert (SB : 0 <= FR s / IZR n <= 2 * M) by (abs_all; lra).
  assert (LT : tiny <= bpow radix2 (-93)) by (apply bpow_le; lia).
  destruct (FR_div s (F_ofZ n) Fs) as [Em Fm]; [rewrite En; lra|apply (rnd_fmax _ 2); [rewrite En, Rabs_pos_eq; lra|pose proof tiny_small; lra|pose proof big_large; lra]|]. rewrite En in Em.
  pose proof u_small as US. pose proof u_pos as UP.
  assert (MM : Rabs (FR (PrimFloat.div s (F_ofZ n)) - M) <= 4 / 10000000 * M).
  { pose proof (rnd_err (FR s / IZR n) (2 * M)) as RE. rewrite (Rabs_pos_eq (FR s / IZR n)) in RE by lra. specialize (RE (proj2 SB) ltac:(lra)). rewrite Em. assert (u * (2 * M) <= 1 / 1000000000 * M) by nra. abs_all. apply Rabs_le. lra. }
  set (m := PrimFloat.div s (F_ofZ n)) in *. assert (M0 : 0 <= FR m) by (abs_all; lra).
  pose proof (fin_sqrt m Fm M0) as Fp. split; [exact Fp|]. rewrite FR_sqrt.
  assert (MP : 0 < M) by lra. pose proof (sqrt_rel _ _ _ M0 MP MM) as SR. pose proof (R_sqrt.sqrt_lt_R0 M MP) as SP.
  assert (SL : bpow radix2 (-93) <= sq M). { apply Rle_trans with (1 := proj1 M1). rewrite <- (R_sqrt.sqrt_sqrt M) at 1 by lra. rewrite <- (Rmult_1_r (sq M)) at 3. apply Rmult_le_compat_l; [lra|]. rewrite <- R_sqrt.sqrt_1. apply R_sqrt.sqrt_le_1_alt. lra. }
  pose proof (rnd_err (sq (FR m)) (2 * sq M)) as RE. rewrite (Rabs_pos_eq (sq (FR m))) in RE by apply R_sqrt.sqrt_pos. assert (u * (2 * sq M) <= 1 / 1000000000 * sq M) by nra. specialize (RE ltac:(abs_all; lra) ltac:(lra)). abs_all. apply Rabs_le. lra.
Qed.

Lemma ref_range : 199 / 10000000 <= FR (kSplReferencePoint : F) <= 201 / 10000000.
Proof. pose proof ref_rel as [Fr Hr]. pose proof dl_pos. assert (1 * dl * (2 / 100000) <= 1 / 1000000000) by lra. abs_all. lra. Qed.
Definition spl20 (l : list F) : R := ln (sq (power l) / (2 / 100000)).
Lemma spl_is (l : list F) : spl (map FR l) = 20 * (spl20 l / ln 10).
Proof. unfold spl, spl20, power. rewrite map_length. replace 0.00002 with (2 / 100000) by lra. reflexivity. Qed.

Section Level.
  Context {L : Libm F} (A : accurate L).
  Lemma level_rel (s : audio F) : Forall pcm (au_data s) -> (1 <= Z.of_nat (length (au_data s)) < 2 ^ 30)%Z -> Exists (fun x => FR x <> 0) (au_data s) ->
    fin (sound_pressure_level s) /\ Rabs (FR (sound_pressure_level s) - spl (map FR (au_data s))) <= 6 / 1000000.
  Proof.
    intros HP HL HE. destruct (pressure_rel (au_data s) HP HL HE) as (PW & Fp & Rp). rewrite spl_is. unfold sound_pressure_level, spl20. cbn [ndiv nsqrt nmul NumF].
    change (nofnat (length (au_data s))) with (F_ofZ (Z.of_nat (length (au_data s)))). change (nofZ 20) with (F_ofZ 20). set (p := PrimFloat.sqrt _) in *. clearbody p.
    pose proof (bpow_gt_0 radix2 (-93)) as B93. assert (MP : 0 < power (au_data s)) by lra. pose proof (R_sqrt.sqrt_lt_R0 _ MP) as SP.
    assert (S1 : sq (power (au_data s)) <= 1) by (rewrite <- R_sqrt.sqrt_1; apply R_sqrt.sqrt_le_1_alt; lra).
    assert (SL : bpow radix2 (-47) <= sq (power (au_data s))).
    { rewrite <- (R_sqrt.sqrt_square (bpow radix2 (-47))) by apply bpow_ge_0. apply R_sqrt.sqrt_le_1_alt. rewrite <- bpow_plus. apply Rle_trans with (2 := proj1 PW). apply bpow_le. lia. }
    set (P := sq (power (au_data s))) in *. clearbody P. pose proof ref_range as RB. pose proof ref_rel as [Fk Hk].
    assert (PP : 0 < FR p <= 2) by (abs_all; lra). assert (PL : bpow radix2 (-48) <= FR p).
    { assert (bpow radix2 (-47) = bpow radix2 (-48) * 2) by (change (-47)%Z with (-48 + 1)%Z; rewrite bpow_plus; reflexivity). abs_all. lra. }
    set (K := FR (kSplReferencePoint : F)) in *.
    assert (DB : bpow radix2 (-48) <= FR p / K <= 131072).
    { split; apply Rmult_le_reg_r with K; try lra; unfold Rdiv; rewrite Rmult_assoc, Rinv_l, Rmult_1_r by lra; [|lra].
      apply Rle_trans with (2 := PL). rewrite <- (Rmult_1_r (bpow radix2 (-48))) at 2. apply Rmult_le_compat_l; [apply bpow_ge_0|lra]. }
    pose proof (bpow_gt_0 radix2 (-48)) as B48.
    destruct (FR_div p kSplReferencePoint Fp) as [Ed Fd]; [fold K; lra|apply (rnd_fmax _ 131072); [fold K; rewrite Rabs_pos_eq; lra|pose proof tiny_small; lra|pose proof big_large; lra]|].
    fold K in Ed. set (d := PrimFloat.div p kSplReferencePoint) in *.
    assert (D1 : bpow radix2 (-48) <= FR d) by (rewrite Ed; apply rnd_low; [lia|apply DB]).
    assert (D2 : FR d <= 131072) by (rewrite Ed; apply Rle_trans with (rnd 131072); [apply rnd_le, DB|right; apply (rnd_exact 1 17 131072); [cbn; ring|lia|lia]]).
    assert (LD : Rabs (ln (FR d) - ln (FR p / K)) <= 102 / 100 * u).
    { apply ln_rel; [lra|pose proof u_small; pose proof u_pos; lra|]. rewrite Ed. replace (u * (FR p / K)) with (u * Rabs (FR p / K)) by (rewrite Rabs_pos_eq by lra; reflexivity). apply rnd_rel. right. rewrite Rabs_pos_eq by lra. apply Rle_trans with (2 := proj1 DB). apply bpow_le. lia. }
    assert (LP : Rabs (ln (FR p) - ln P) <= 102 / 100 * (5 / 10000000)) by (apply ln_rel; [lra|lra|exact Rp]).
    assert (LK : Rabs (ln K - ln (2 / 100000)) <= 102 / 100 * dl). { apply ln_rel; [lra|pose proof dl_pos; lra|]. replace (1 * dl) with dl in Hk by ring. exact Hk. }
    assert (LE : forall x y, 0 < x -> 0 < y -> ln (x / y) = ln x - ln y) by (intros x y Hx Hy; unfold Rdiv; rewrite ln_mult, ln_Rinv by (try apply Rinv_0_lt_compat; assumption); ring).
    assert (TOT : Rabs (ln (FR d) - ln (P / (2 / 100000))) <= 6 / 10000000).
    { rewrite (LE (FR p) K) in LD by lra. rewrite (LE P) by lra. pose proof u_small. pose proof dl_pos. abs_all. apply Rabs_le. lra. }
    assert (D0 : 0 < FR d) by lra. destruct (acc_log10 L A d Fd D0) as [Fl Hl].
    assert (LB : Rabs (ln (FR d)) <= 35).
    { apply Rabs_le. split; [apply Rle_trans with (ln (bpow radix2 (-48))); [change (bpow radix2 (-48)) with (/ 281474976710656); interval|apply Rcomplements.ln_le; assumption]|apply Rle_trans with (ln 131072); [apply Rcomplements.ln_le; lra|interval]]. }
    pose proof ln10_b as LT. assert (IV : 0 < / ln 10 <= 10 / 23).
    { split; [apply Rinv_0_lt_compat; lra|]. replace (10 / 23) with (/ (23 / 10)) by lra. apply Rinv_le_contravar; lra. }
    assert (LL : Rabs (ln (FR d) / ln 10) <= 16). { unfold Rdiv. rewrite Rabs_mult, (Rabs_pos_eq (/ ln 10)) by lra. pose proof (Rabs_pos (ln (FR d))). nra. }
    assert (T10 : Rabs (ln (FR d) / ln 10 - ln (P / (2 / 100000)) / ln 10) <= 27 / 100000000).
    { replace (ln (FR d) / ln 10 - ln (P / (2 / 100000)) / ln 10) with ((ln (FR d) - ln (P / (2 / 100000))) * / ln 10) by (field; lra). rewrite Rabs_mult, (Rabs_pos_eq (/ ln 10)) by lra. apply Rle_trans with (6 / 10000000 * (10 / 23)); [apply Rmult_le_compat; try lra; apply Rabs_pos|lra]. }
    destruct (FR_ofZ 20 ltac:(lia)) as [E20 F20]. pose proof dl_pos as DP.
    assert (BL : Rabs (FR (mlog10 d)) <= 17) by tri.
    assert (BB : Rabs (FR (F_ofZ 20) * FR (mlog10 d)) <= 340) by (rewrite E20, Rabs_mult, (Rabs_pos_eq 20) by lra; lra).
    destruct (op_err (PrimFloat.mul (F_ofZ 20) (mlog10 d)) _ 340 (FR_mul _ _ F20 Fl) BB) as [Fz Ez]; [pose proof tiny_small; lra|pose proof big_large; lra|]. split; [exact Fz|].
    rewrite E20 in Ez. pose proof u_small. abs_all. apply Rabs_le. lra.
  Qed.
  Lemma spl20_range (l : list F) : Forall pcm l -> (1 <= Z.of_nat (length l) < 2 ^ 30)%Z -> Exists (fun x => FR x <> 0) l -> -33 <= spl20 l <= 11.
  Proof.
    intros HP HL HE. destruct (pressure_rel l HP HL HE) as (PW & _ & _). unfold spl20. pose proof (bpow_gt_0 radix2 (-93)) as B93. assert (MP : 0 < power l) by lra. pose proof (R_sqrt.sqrt_lt_R0 _ MP) as SP.
    assert (S1 : sq (power l) <= 1) by (rewrite <- R_sqrt.sqrt_1; apply R_sqrt.sqrt_le_1_alt; lra).
    assert (SL : bpow radix2 (-47) <= sq (power l)).
    { rewrite <- (R_sqrt.sqrt_square (bpow radix2 (-47))) by apply bpow_ge_0. apply R_sqrt.sqrt_le_1_alt. rewrite <- bpow_plus. apply Rle_trans with (2 := proj1 PW). apply bpow_le. lia. }
    change (bpow radix2 (-47)) with (/ 140737488355328) in SL.
    split; [apply Rle_trans with (ln (/ 140737488355328)); [interval|apply Rcomplements.ln_le; lra]|apply Rle_trans with (ln 50000); [apply Rcomplements.ln_le; lra|interval]].
  Qed.

  (** the factor, to three parts in a million *)
  Lemma factor_rel (ref d : audio F) : Forall pcm (au_data ref) -> Forall pcm (au_data d) -> (1 <= Z.of_nat (length (au_data ref)) < 2 ^ 30)%Z -> (1 <= Z.of_nat (length (au_data d)) < 2 ^ 30)%Z ->
    Exists (fun x => FR x <> 0) (au_data ref) -> Exists (fun x => FR x <> 0) (au_data d) ->
    let f := sq (power (au_data ref)) / sq (power (au_data d)) in
    fin (spl_scale_factor ref d) /\ Rabs (FR (spl_scale_factor ref d) - f) <= 2 / 1000000 * f /\ exp (-44) <= f <= exp 44.
  Proof.
    intros P1 P2 L1 L2 X1 X2. cbv zeta. destruct (level_rel ref P1 L1 X1) as [Fa Ra]. destruct (level_rel d P2 L2 X2) as [Fb Rb]. rewrite spl_is in Ra, Rb.
    pose proof (spl20_range _ P1 L1 X1) as G1. pose proof (spl20_range _ P2 L2 X2) as G2.
    destruct (pressure_rel _ P1 L1 X1) as (PW1 & _ & _). destruct (pressure_rel _ P2 L2 X2) as (PW2 & _ & _). pose proof (bpow_gt_0 radix2 (-93)) as B93.
    assert (MP1 : 0 < power (au_data ref)) by lra. pose proof (R_sqrt.sqrt_lt_R0 _ MP1) as SP1. assert (MP2 : 0 < power (au_data d)) by lra. pose proof (R_sqrt.sqrt_lt_R0 _ MP2) as SP2.
    assert (EF : sq (power (au_data ref)) / sq (power (au_data d)) = exp (spl20 (au_data ref) - spl20 (au_data d))).
    { unfold Rminus. rewrite exp_plus, exp_Ropp. unfold spl20. rewrite !exp_ln by (apply Rmult_lt_0_compat; [assumption|apply Rinv_0_lt_compat; lra]). field. lra. }
    rewrite EF. unfold spl_scale_factor. cbn [ndiv nsub NumF]. change (nofZ 20) with (F_ofZ 20).
    set (a := spl20 (au_data ref)) in *. set (b := spl20 (au_data d)) in *. set (x := sound_pressure_level ref) in *. set (y := sound_pressure_level d) in *. clearbody a b x y.
    pose proof ln10_b as LT. assert (IV : 0 < / ln 10 <= 10 / 23).
    { split; [apply Rinv_0_lt_compat; lra|]. replace (10 / 23) with (/ (23 / 10)) by lra. apply Rinv_le_contravar; lra. }
    assert (DAB : Rabs ((a - b) / ln 10) <= 20). { unfold Rdiv. rewrite Rabs_mult, (Rabs_pos_eq (/ ln 10)) by lra. assert (Rabs (a - b) <= 44) by (apply Rabs_le; lra). pose proof (Rabs_pos (a - b)). nra. }
    assert (ED : 20 * (a / ln 10) - 20 * (b / ln 10) = 20 * ((a - b) / ln 10)) by (field; lra).
    assert (B1 : Rabs (FR x - FR y) <= 401) by (abs_all; apply Rabs_le; lra).
    destruct (op_err (PrimFloat.sub x y) _ 401 (FR_sub _ _ Fa Fb) B1) as [Fz Ez]; [pose proof tiny_small; lra|pose proof big_large; lra|]. pose proof u_small as US. pose proof u_pos as UP.
    set (z := PrimFloat.sub x y) in *. assert (Rz : Rabs (FR z - 20 * ((a - b) / ln 10)) <= 13 / 1000000) by (rewrite <- ED; abs_all; apply Rabs_le; lra).
    destruct (FR_ofZ 20 ltac:(lia)) as [E20 F20]. assert (B2 : Rabs (FR z / FR (F_ofZ 20)) <= 21) by (rewrite E20; abs_all; apply Rabs_le; lra).
    destruct (op_err (PrimFloat.div z (F_ofZ 20)) _ 21 (FR_div _ _ Fz ltac:(rewrite E20; lra)) B2) as [Fw Ew]; [pose proof tiny_small; lra|pose proof big_large; lra|].
    set (w := PrimFloat.div z (F_ofZ 20)) in *. rewrite E20 in Ew, B2. assert (Rw : Rabs (FR w - (a - b) / ln 10) <= 7 / 10000000) by (abs_all; apply Rabs_le; lra).
    destruct (acc_pow10 L A w Fw) as [Ff Rf]; [abs_all; apply Rabs_le; lra|]. split; [exact Ff|]. split.
    - assert (EE : FR w * ln 10 = (a - b) + (FR w - (a - b) / ln 10) * ln 10) by (field; lra). set (t := (FR w - (a - b) / ln 10) * ln 10) in *.
      assert (TB : Rabs t <= 17 / 10000000). { unfold t. rewrite Rabs_mult, (Rabs_pos_eq (ln 10)) by lra. pose proof (Rabs_pos (FR w - (a - b) / ln 10)). nra. }
      rewrite EE, exp_plus in Rf. pose proof (exp_pos (a - b)) as PE. set (e := exp (a - b)) in *.
      assert (T1 : 1 + t <= exp t) by apply exp_ineq1_le. assert (T2 : exp t * (1 - t) <= 1).
      { pose proof (exp_ineq1_le (- t)) as Q. rewrite exp_Ropp in Q. pose proof (exp_pos t). apply Rmult_le_reg_r with (/ exp t); [apply Rinv_0_lt_compat; assumption|]. replace (exp t * (1 - t) * / exp t) with (1 - t) by (field; lra). lra. }
      set (et := exp t) in *. clearbody et e t. apply Rabs_le_inv in TB. assert (ET : Rabs (et - 1) <= 18 / 10000000) by (apply Rabs_le; nra).
      pose proof dl_pos. assert (E1 : Rabs (e * et - e) <= 18 / 10000000 * e). { replace (e * et - e) with ((et - 1) * e) by ring. rewrite Rabs_mult, (Rabs_pos_eq e) by lra. apply Rmult_le_compat_r; lra. }
      assert (E2 : dl * (e * et) <= 1 / 10000000 * e). { apply Rabs_le_inv in ET. assert (0 <= e * et <= 2 * e) by nra. nra. }
      abs_all. apply Rabs_le. lra.
    - split; apply Raux.exp_le; lra.
  Qed.
End Level.
