(** The rating of speech in binary64 (C110). *)
From Coq Require Import ZArith List Bool Reals Lra Lia Floats.
From Flocq Require Import Core.Core IEEE754.BinarySingleNaN IEEE754.PrimFloat.
From Interval Require Import Tactic.
From Verif Require Import Base.Res Base.Num Base.NumR Base.NumF Base.Lists Base.Mat Model.MiscMath Model.Mappers Model.FilterBank Model.Visqol Model.Manager
  Spec.UndefinedSpec Spec.StableSpec Spec.LibmSpec Spec.RatingSpec Proofs.B64P Proofs.RoundP Proofs.ScoresP Proofs.MapperRP Proofs.AggCasesP.
Import ListNotations.
Open Scope R_scope.
Local Notation F := PrimFloat.float.

Lemma rating_fit b v : speech_rating b v = Rmin (Rmax (fit v * scale_of b) 1) 5.
Proof. unfold speech_rating, fit, scale_of. do 3 f_equal. f_equal; [lra|]. f_equal. lra. Qed.

Ltac tb' := pose proof u_small; pose proof u_pos; pose proof tiny_small; pose proof big_large.
Lemma quotient_near z k s q : (Z.abs z < 2 ^ 53)%Z -> (0 < k)%Z -> (k < 2 ^ 53)%Z -> IZR k = s -> IZR z / s = q -> 1 / 1000 <= Rabs q <= 500 -> Rabs q * u <= 1 / 10000000000000 ->
  near (ndiv (nofZ z) (nofZ k) : F) q (Rabs q * u) (Rabs q).
Proof.
  intros Hz Hk Hk2 Es Eq Hq Hu. tb'. assert (SP : 0 < s) by (rewrite <- Es; apply IZR_lt, Hk). rewrite <- Eq.
  assert (R1 : Rabs (IZR z) = Rabs q * s) by (rewrite <- Eq; unfold Rdiv; rewrite Rabs_mult, (Rabs_pos_eq (/ s)) by (left; apply Rinv_0_lt_compat, SP); field; lra).
  pose proof (near_ofZ z (Rabs (IZR z)) Hz (Rle_refl _)) as N1. pose proof (near_ofZ k s ltac:(lia) ltac:(rewrite Es, Rabs_pos_eq by lra; lra)) as N2. rewrite Es in N2. rewrite Eq.
  pose proof (near_div _ _ _ _ _ _ _ _ s (Rabs q) 0 (Rabs q * u) N1 N2 SP (Rle_refl _) ltac:(lra) ltac:(rewrite R1; lra) ltac:(lra) ltac:(lra) ltac:(lra) ltac:(lra) ltac:(lra)) as N3. rewrite Eq in N3. exact N3.
Qed.
Lemma constants_near : near (kFitA : F) (-262847869 / 10 ^ 6) (1 / 10 ^ 13) 263 /\ near (kFitB : F) (154302525 / 10 ^ 10) (2 / 10 ^ 18) (155 / 10000) /\ near (kFitX0 : F) (-361063949 / 10 ^ 6) (1 / 10 ^ 13) 362.
Proof.
  tb'. assert (A1 : Rabs (-262847869 / 10 ^ 6) = 262847869 / 10 ^ 6) by (rewrite Rabs_left; lra). assert (A2 : Rabs (154302525 / 10 ^ 10) = 154302525 / 10 ^ 10) by (rewrite Rabs_pos_eq; lra). assert (A3 : Rabs (-361063949 / 10 ^ 6) = 361063949 / 10 ^ 6) by (rewrite Rabs_left; lra).
  split; [|split]; unfold kFitA, kFitB, kFitX0, ndec.
  - eapply near_weaken; [apply (quotient_near (-262847869) (10 ^ 6) 1000000 (-262847869 / 10 ^ 6)); rewrite ?A1; try lia; try lra; try reflexivity|rewrite A1; lra|rewrite A1; lra].
  - eapply near_weaken; [apply (quotient_near 154302525 (10 ^ 10) 10000000000 (154302525 / 10 ^ 10)); rewrite ?A2; try lia; try lra; try reflexivity|rewrite A2; lra|rewrite A2; lra].
  - eapply near_weaken; [apply (quotient_near (-361063949) (10 ^ 6) 1000000 (-361063949 / 10 ^ 6)); rewrite ?A3; try lia; try lra; try reflexivity|rewrite A3; lra|rewrite A3; lra].
Qed.
Lemma exp_shift r a d : Rabs (a - r) <= d -> d <= 1 / 1000 -> Rabs (exp a - exp r) <= exp r * (2 * d).
Proof.
  intros H Hd. replace a with (r + (a - r)) at 1 by ring. rewrite exp_plus. set (t := a - r) in *. pose proof (exp_pos r) as P. apply Raux.Rabs_le_inv in H.
  replace (exp r * exp t - exp r) with (exp r * (exp t - 1)) by ring. rewrite Rabs_mult, (Rabs_pos_eq (exp r)) by lra. apply Rmult_le_compat_l; [lra|].
  pose proof (exp_ineq1_le t) as L1. pose proof (exp_ineq1_le (- t)) as L2. rewrite exp_Ropp in L2. pose proof (exp_pos t) as PT.
  assert (U : exp t * (1 - t) <= 1) by (apply Rmult_le_compat_l with (r := exp t) in L2; [|lra]; rewrite Rinv_r in L2 by lra; lra).
  apply Rabs_le. split; [lra|]. assert (exp t <= 1 + 2 * d); [|lra]. apply Rmult_le_reg_r with (1 - t); [lra|]. apply Rle_trans with (1 := U). nra.
Qed.
Lemma fit_near {L : Libm F} (A : accurate L) (v : F) : fin v -> Rabs (FR v) <= 2 -> near (exponential_from_fit v kFitA kFitB kFitX0) (fit (FR v)) (3 / 10 ^ 10) 600.
Proof.
  intros Fv Bv. destruct constants_near as (NA & NB & NX). tb'. pose proof (near_exact v 2 Fv Bv) as NV.
  pose proof (near_sub _ _ _ _ _ _ _ _ 365 (2 / 10 ^ 13) NV NX ltac:(lra) ltac:(lra) ltac:(lra) ltac:(lra)) as NS.
  pose proof (near_mul _ _ _ _ _ _ _ _ (1 / 10 ^ 14 - 2 / 10 ^ 15) 6 (1 / 10 ^ 14) NB NS ltac:(lra) ltac:(lra) ltac:(lra) ltac:(lra) ltac:(lra)) as NM.
  unfold exponential_from_fit. cbn [nadd nmul nsub NumF]. set (y := PrimFloat.mul kFitB (PrimFloat.sub v kFitX0)) in *. set (r := 154302525 / 10 ^ 10 * (FR v - -361063949 / 10 ^ 6)) in *.
  destruct NM as (Fy & Ey & By). assert (By2 : Rabs (FR y) <= 50) by (apply Raux.Rabs_le_inv in Ey; apply Raux.Rabs_le_inv in By; apply Rabs_le; lra).
  destruct (acc_exp L A y Fy By2) as [Fe Ee]. assert (SH := exp_shift r (FR y) (1 / 10 ^ 14) Ey ltac:(lra)).
  assert (ER : 0 < exp r <= 281). { split; [apply exp_pos|]. unfold r. apply Raux.Rabs_le_inv in Bv. interval. }
  assert (NE : near (mexp y) (exp r) (29 / 10 ^ 11) 281).
  { split; [exact Fe|]. unfold dl in Ee. split; [|rewrite Rabs_pos_eq; lra]. apply Raux.Rabs_le_inv in Ee, SH. apply Rabs_le. nra. }
  pose proof (near_add _ _ _ _ _ _ _ _ 545 (3 / 10 ^ 10) NA NE ltac:(lra) ltac:(lra) ltac:(lra) ltac:(lra)) as NF. replace (fit (FR v)) with (-262847869 / 10 ^ 6 + exp r). { eapply near_weaken; [exact NF|lra|lra]. }
  unfold fit, r. f_equal. f_equal. lra.
Qed.
Lemma scale_near (b : bool) : near ((if b then kFitScale32 else n1) : F) (scale_of b) 0 (125 / 100).
Proof.
  destruct b; unfold scale_of.
  - assert (E : FR kFitScale32 = F2R (Float radix2 5607265025392640%Z (-52)%Z)) by reflexivity. unfold F2R in E. cbn [Fnum Fexp] in E. change (bpow radix2 (-52)) with (/ 4503599627370496) in E.
    split; [reflexivity|]. rewrite E. split; [|rewrite Rabs_pos_eq; lra]. rewrite Rabs_minus_sym. replace (_ - _) with 0 by lra. rewrite Rabs_R0. lra.
  - assert (E : FR n1 = 1) by (change (n1 : F) with (F_ofZ 1); apply FR_ofZ; lia). split; [reflexivity|]. rewrite E. split; [rewrite Rminus_diag_eq, Rabs_R0 by reflexivity; lra|rewrite Rabs_R1; lra].
Qed.
Lemma max_near x r d M k : near x r d M -> (Z.abs k < 2 ^ 53)%Z -> fin (nmax x (nofZ k)) /\ Rabs (FR (nmax x (nofZ k)) - Rmax r (IZR k)) <= d.
Proof.
  intros (Fx & Ex & _) Hk. destruct (FR_ofZ k Hk) as [E Fk]. unfold nmax. cbn [nltb NumF nofZ]. rewrite FR_ltb, E by assumption. pose proof (Rabs_pos (FR x - r)).
  apply Raux.Rabs_le_inv in Ex. case Rlt_bool_spec; intros C; (split; [assumption|]); rewrite ?E; unfold Rmax; destruct (Rle_dec r (IZR k)); apply Rabs_le; lra.
Qed.
Lemma min_near x r d M k : near x r d M -> (Z.abs k < 2 ^ 53)%Z -> fin (nmin x (nofZ k)) /\ Rabs (FR (nmin x (nofZ k)) - Rmin r (IZR k)) <= d.
Proof.
  intros (Fx & Ex & _) Hk. destruct (FR_ofZ k Hk) as [E Fk]. unfold nmin. cbn [nltb NumF nofZ]. rewrite FR_ltb, E by assumption. pose proof (Rabs_pos (FR x - r)).
  apply Raux.Rabs_le_inv in Ex. case Rlt_bool_spec; intros C; (split; [assumption|]); rewrite ?E; unfold Rmin; destruct (Rle_dec r (IZR k)); apply Rabs_le; lra.
Qed.
Lemma rating_near {L : Libm F} (A : accurate L) (scaled : bool) (f : list F) : let v := ndiv (nsum f) (nofnat (length f)) in fin v -> Rabs (FR v) <= 2 ->
  fin (speech_predict scaled f) /\ Rabs (FR (speech_predict scaled f) - speech_rating scaled (FR v)) <= 1 / 10 ^ 9 /\ 1 <= FR (speech_predict scaled f) <= 5.
Proof.
  intros v Fv Bv. tb'. pose proof (near_mul _ _ _ _ _ _ _ _ (4 / 10 ^ 10) 800 (5 / 10 ^ 10) (fit_near A v Fv Bv) (scale_near scaled) ltac:(lra) ltac:(lra) ltac:(lra) ltac:(lra) ltac:(lra)) as NM.
  unfold speech_predict. fold v. cbn [nmul NumF]. set (x := PrimFloat.mul (exponential_from_fit v kFitA kFitB kFitX0) (if scaled then kFitScale32 else n1)) in *.
  destruct (max_near _ _ _ _ 1 NM ltac:(lia)) as [F1 E1]. change (nofZ 1 : F) with (n1 : F) in F1, E1. set (y := nmax x n1) in *.
  assert (N2 : near y (Rmax (fit (FR v) * scale_of scaled) 1) (5 / 10 ^ 10) (Rabs (Rmax (fit (FR v) * scale_of scaled) 1))) by (split; [exact F1|]; split; [exact E1|lra]).
  destruct (min_near _ _ _ _ 5 N2 ltac:(lia)) as [F2 E2]. rewrite rating_fit. split; [exact F2|]. split; [lra|].
  destruct (FR_ofZ 5 ltac:(lia)) as [E5 F5]. destruct (FR_ofZ 1 ltac:(lia)) as [E3 F3].
  assert (Y1 : 1 <= FR y). { unfold y, nmax. cbn [nltb NumF]. change (n1 : F) with (F_ofZ 1). destruct NM as (Fx & _). rewrite FR_ltb by assumption. case Rlt_bool_spec; intros C; lra. }
  unfold nmin. cbn [nltb NumF nofZ]. rewrite FR_ltb by assumption. case Rlt_bool_spec; intros C; lra.
Qed.

(** *** a greater similarity is never rated lower *)
Lemma big_100 : 10 ^ 150 <= big.
Proof. unfold big. rewrite (pow_IZR 10 150). replace (bpow radix2 1000) with (IZR (2 ^ 1000)) by (symmetry; apply (IZR_Zpower radix2 1000); lia). apply IZR_le. vm_compute. discriminate. Qed.
Lemma fin_op (x : F) z : (Rabs (rnd z) < fmax -> FR x = rnd z /\ fin x) -> Rabs z <= big -> FR x = rnd z /\ fin x.
Proof. intros H Hz. apply H. tb'. apply (rnd_fmax _ big); [exact Hz|lra|lra]. Qed.
Lemma fit_mono_F {L : Libm F} (A : accurate L) (I : increasing_exp L) (v v' : F) (s : F) : fin v -> fin v' -> Rabs (FR v) <= 2 -> FR v <= FR v' <= 9100 -> fin s -> 0 <= FR s <= 2 ->
  let m x := PrimFloat.mul (exponential_from_fit x kFitA kFitB kFitX0) s in fin (m v') /\ FR (m v) <= FR (m v').
Proof.
  intros Fv Fv' Bv Hv Fs Hs m. destruct constants_near as (NA & NB & NX). assert (BA := near_value _ _ _ _ NA). assert (BB := near_value _ _ _ _ NB). assert (BX := near_value _ _ _ _ NX).
  destruct NA as (FA & _). destruct NB as (FB & EB & _). destruct NX as (FX & EX & _). apply Raux.Rabs_le_inv in EB, EX, BA, BB, BX, Bv. tb'.
  assert (P100 : 10 ^ 100 <= 10 ^ 150 / 10 ^ 10). { apply Rmult_le_reg_r with (10 ^ 10); [apply pow_lt; lra|]. unfold Rdiv. rewrite Rmult_assoc, Rinv_l, Rmult_1_r by (apply pow_nonzero; lra). rewrite <- pow_add. apply Rle_pow; [lra|lia]. }
  assert (L100 : 100000000 <= 10 ^ 100). { replace 100000000 with (10 ^ 8) by lra. apply Rle_pow; [lra|lia]. }
  assert (L150 : 10 ^ 100 * 100 <= 10 ^ 150) by lra.
  pose proof big_100 as BG. unfold increasing_exp in I. set (b := 10 ^ 100) in *. set (c := 10 ^ 150) in *. clearbody b c.
  (* the difference *)
  destruct (fin_op (PrimFloat.sub v kFitX0) (FR v - FR kFitX0) (FR_sub _ _ Fv FX)) as [E1 F1]; [apply Rabs_le; lra|].
  destruct (fin_op (PrimFloat.sub v' kFitX0) (FR v' - FR kFitX0) (FR_sub _ _ Fv' FX)) as [E1' F1']; [apply Rabs_le; lra|].
  assert (M1 : FR (PrimFloat.sub v kFitX0) <= FR (PrimFloat.sub v' kFitX0)) by (rewrite E1, E1'; apply rnd_le; lra).
  assert (R1 : 0 <= FR (PrimFloat.sub v kFitX0) /\ FR (PrimFloat.sub v' kFitX0) <= 9500).
  { pose proof (rnd_err (FR v - FR kFitX0) 400 ltac:(apply Rabs_le; lra) ltac:(lra)) as A1. pose proof (rnd_err (FR v' - FR kFitX0) 9480 ltac:(apply Rabs_le; lra) ltac:(lra)) as A2. rewrite <- E1 in A1. rewrite <- E1' in A2. apply Raux.Rabs_le_inv in A1, A2. lra. }
  set (d := PrimFloat.sub v kFitX0) in *. set (d' := PrimFloat.sub v' kFitX0) in *.
  (* the exponent *)
  assert (G1 : 0 <= FR kFitB * FR d) by (apply Rmult_le_pos; lra). assert (G2 : FR kFitB * FR d <= FR kFitB * FR d') by (apply Rmult_le_compat_l; lra). assert (G3 : FR kFitB * FR d' <= 155 / 10000 * 9500 + 1) by (apply Rle_trans with ((155 / 10000 + 2 / 10 ^ 18) * 9500); [apply Rmult_le_compat; lra|lra]).
  destruct (fin_op (PrimFloat.mul kFitB d) (FR kFitB * FR d) (FR_mul _ _ FB F1)) as [E2 F2]; [rewrite Rabs_pos_eq; lra|].
  destruct (fin_op (PrimFloat.mul kFitB d') (FR kFitB * FR d') (FR_mul _ _ FB F1')) as [E2' F2']; [rewrite Rabs_pos_eq; lra|].
  assert (M2 : FR (PrimFloat.mul kFitB d) <= FR (PrimFloat.mul kFitB d')) by (rewrite E2, E2'; apply rnd_le; lra).
  assert (R2 : FR (PrimFloat.mul kFitB d') <= 200).
  { pose proof (rnd_err (FR kFitB * FR d') 150 ltac:(rewrite Rabs_pos_eq; lra) ltac:(lra)) as A2. rewrite <- E2' in A2. apply Raux.Rabs_le_inv in A2. lra. }
  set (y := PrimFloat.mul kFitB d) in *. set (y' := PrimFloat.mul kFitB d') in *.
  destruct (I y y' F2 F2' M2 R2) as (F3 & F3' & M3 & R3).
  (* the exponential is not negative *)
  assert (P3 : -1 <= FR (mexp y)).
  { pose proof (rnd_err (FR kFitB * FR d) 150 ltac:(rewrite Rabs_pos_eq; lra) ltac:(lra)) as A2. rewrite <- E2 in A2. apply Raux.Rabs_le_inv in A2.
    assert (Y : Rabs (FR y) <= 50). { assert (FR kFitB * FR d <= 155 / 10000 * 400 + 1). { pose proof (rnd_err (FR v - FR kFitX0) 400 ltac:(apply Rabs_le; lra) ltac:(lra)) as A1. rewrite <- E1 in A1. apply Raux.Rabs_le_inv in A1. apply Rle_trans with ((155 / 10000 + 2 / 10 ^ 18) * 401); [apply Rmult_le_compat; lra|lra]. } apply Rabs_le. lra. }
    destruct (acc_exp L A y F2 Y) as [_ EE]. pose proof (exp_pos (FR y)). unfold dl in EE. apply Raux.Rabs_le_inv in EE. lra. }
  (* the sum *)
  destruct (fin_op (PrimFloat.add kFitA (mexp y)) (FR kFitA + FR (mexp y)) (FR_add _ _ FA F3)) as [E4 F4]; [apply Rabs_le; lra|].
  destruct (fin_op (PrimFloat.add kFitA (mexp y')) (FR kFitA + FR (mexp y')) (FR_add _ _ FA F3')) as [E4' F4']; [apply Rabs_le; lra|].
  assert (M4 : FR (PrimFloat.add kFitA (mexp y)) <= FR (PrimFloat.add kFitA (mexp y'))) by (rewrite E4, E4'; apply rnd_le; lra).
  assert (R4 : - (b * 4) <= FR (PrimFloat.add kFitA (mexp y)) /\ FR (PrimFloat.add kFitA (mexp y')) <= b * 4).
  { pose proof (rnd_err (FR kFitA + FR (mexp y)) (2 * b) ltac:(apply Rabs_le; lra) ltac:(lra)) as A1. pose proof (rnd_err (FR kFitA + FR (mexp y')) (2 * b) ltac:(apply Rabs_le; lra) ltac:(lra)) as A2. rewrite <- E4 in A1. rewrite <- E4' in A2. assert (u * (2 * b) <= 1 * (2 * b)) by (apply Rmult_le_compat_r; lra). apply Raux.Rabs_le_inv in A1, A2. lra. }
  unfold m, exponential_from_fit. cbn [nadd nmul nsub NumF]. fold d d' y y'. set (z := PrimFloat.add kFitA (mexp y)) in *. set (z' := PrimFloat.add kFitA (mexp y')) in *.
  assert (ZB : Rabs (FR z) <= b * 4 /\ Rabs (FR z') <= b * 4) by (split; apply Rabs_le; lra).
  destruct (fin_op (PrimFloat.mul z s) (FR z * FR s) (FR_mul _ _ F4 Fs)) as [E5 F5]; [rewrite Rabs_mult, (Rabs_pos_eq (FR s)) by lra; apply Rle_trans with (b * 4 * 2); [apply Rmult_le_compat; try apply Rabs_pos; lra|lra]|].
  destruct (fin_op (PrimFloat.mul z' s) (FR z' * FR s) (FR_mul _ _ F4' Fs)) as [E5' F5']; [rewrite Rabs_mult, (Rabs_pos_eq (FR s)) by lra; apply Rle_trans with (b * 4 * 2); [apply Rmult_le_compat; try apply Rabs_pos; lra|lra]|].
  split; [exact F5'|]. rewrite E5, E5'. apply rnd_le. apply Rmult_le_compat_r; lra.
Qed.
