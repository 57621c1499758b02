(** The cross-correlation computed with an FFT of limited accuracy, and the lag found with it (C108). *)
From Coq Require Import ZArith List Bool Lia Arith Reals Lra Psatz Floats.
From Coq Require Import ZifyBool ZifyNat.
From Flocq Require Import Core.Core IEEE754.BinarySingleNaN IEEE754.PrimFloat.
From Verif Require Import Base.Res Base.Num Base.NumR Base.NumF Base.Lists Base.Cplx Model.MiscMath Model.Fft
  Spec.FftSpec Spec.FftAccSpec Proofs.RealP Proofs.FftP Proofs.DftP Proofs.XcorrP Proofs.B64P Proofs.RoundP Proofs.FftNormP Proofs.FftAccP Proofs.FftErrP.
Import ListNotations.
Open Scope R_scope.
Ltac Zify.zify_post_hook ::= Z.div_mod_to_equations.
Local Notation F := PrimFloat.float.
Local Notation p2 := (bpow radix2).

Lemma forward_buf (pf : pffft F) fm n P s : fm_size fm = P -> fm_samples fm = P -> (length s <= n)%nat -> (n <= P)%nat ->
  forward1d_points pf fm (pad_to n s) P = unpack_spectrum (pf_fwd pf (map (pf_f32 pf) (padF P s))).
Proof.
  intros E1 E2 H1 H2. unfold forward1d_points, forward1d. rewrite E1, E2.
  assert (Lp : length (pad_to n s) = n) by (unfold pad_to; rewrite app_length, repeat_length; lia).
  assert (B : firstn P (pad_to n s) ++ repeat n0 (P - length (pad_to n s)) = padF P s).
  { rewrite firstn_all2 by lia. rewrite Lp. unfold pad_to, padF. rewrite <- app_assoc, <- repeat_app. do 2 f_equal. lia. }
  rewrite B. assert (LB : length (padF P s) = P) by (unfold padF; rewrite app_length, repeat_length; lia).
  rewrite LB, !Nat.ltb_irrefl. cbn [orb]. rewrite firstn_all2 by lia. rewrite Nat.sub_diag. cbn [repeat]. rewrite app_nil_r. reflexivity.
Qed.
Lemma sum_near n f g d : sum n (fun i => Rabs (f i - g i)) <= d -> sum n (fun i => Rabs (f i)) <= sum n (fun i => Rabs (g i)) + d.
Proof.
  intros H. apply Rle_trans with (sum n (fun i => Rabs (g i) + Rabs (f i - g i))); [|rewrite sum_plus; lra]. apply sum_le. intros i _. replace (f i) with (g i + (f i - g i)) at 1 by ring. apply Rabs_triang.
Qed.
Lemma scale_exact k : (5 <= k <= 31)%nat -> FR (@ndiv F _ n1 (nofnat (2 ^ k))) = / INR (2 ^ k) /\ fin (@ndiv F _ n1 (nofnat (2 ^ k))).
Proof.
  intros Hk. destruct (root_of_size k Hk) as (_ & (M1 & M2) & EM & _). assert (ZB : (Z.abs (Z.of_nat (2 ^ k)) < 2 ^ 53)%Z).
  { apply lt_IZR. rewrite abs_IZR, <- INR_IZR_INZ, Rabs_pos_eq by lra. apply Rle_lt_trans with (1 := M2). change (IZR (2 ^ 53)) with (p2 53). apply bpow_lt. lia. }
  destruct (FR_ofZ _ ZB) as [E1 F1]. rewrite <- INR_IZR_INZ in E1. assert (F0 : fin (@n1 F _)) by reflexivity. assert (E0 : FR (@n1 F _) = 1) by (change (@n1 F _) with (F_ofZ 1); apply FR_ofZ; lia).
  assert (EI : / INR (2 ^ k) = p2 (- Z.of_nat k)) by (rewrite EM, bpow_opp; reflexivity).
  assert (RE : rnd (FR (@n1 F _) / FR (nofnat (2 ^ k))) = / INR (2 ^ k)).
  { unfold nofnat. change (@nofZ F _) with F_ofZ. rewrite E0, E1. unfold Rdiv. rewrite Rmult_1_l, EI. apply (rnd_exact 1 (- Z.of_nat k)); [ring|reflexivity|lia]. }
  destruct (FR_div (@n1 F _) (nofnat (2 ^ k)) F0) as [G1 G2].
  - unfold nofnat. change (@nofZ F _) with F_ofZ. rewrite E1. lra.
  - rewrite RE, EI, Rabs_pos_eq by apply bpow_ge_0. unfold fmax. apply bpow_lt. change emax with 1024%Z. lia.
  - rewrite RE in G1. split; assumption.
Qed.

Section Acc.
  Variables (e : R) (pf : pffft F).
  Hypothesis A : accurate_fft e pf.
  Hypothesis E : p2 (-40) <= e <= p2 (-10).
  Variables (k n : nat) (s1 s2 : list F).
  Hypothesis Hk : (5 <= k <= 31)%nat.
  Hypothesis L1 : (length s1 <= n)%nat. Hypothesis L2 : (length s2 <= n)%nat. Hypothesis Hn : (n <= 2 ^ k)%nat.
  Hypothesis F1 : Forall fin s1. Hypothesis F2 : Forall fin s2.
  Variables (N1 N2 : R).
  Hypothesis Z1 : size (exact s1) <= N1. Hypothesis Z2 : size (exact s2) <= N2.
  Hypothesis S1 : p2 (-20) <= N1 <= p2 20. Hypothesis S2 : p2 (-20) <= N2 <= p2 20.
  Local Notation M := (2 ^ k)%nat.
  Local Notation W := (INR M * (N1 * N2)).

  Lemma w_low : 32 * p2 (-40) <= W /\ p2 (-40) <= N1 * N2 /\ W <= p2 71.
  Proof.
    destruct (root_of_size k Hk) as (_ & (M1 & M2) & _). assert (p2 (-20) * p2 (-20) <= N1 * N2) by (apply Rmult_le_compat; try apply bpow_ge_0; lra). assert (N1 * N2 <= p2 20 * p2 20) by (pose proof (bpow_gt_0 radix2 (-20)); apply Rmult_le_compat; lra). rewrite <- bpow_plus in *. change (-20 + -20)%Z with (-40)%Z in *. change (20 + 20)%Z with 40%Z in *.
    pose proof (bpow_gt_0 radix2 (-40)). split; [|split; [assumption|]].
    - apply Rmult_le_compat; lra.
    - replace 71%Z with (31 + 40)%Z by reflexivity. rewrite bpow_plus. apply Rmult_le_compat; lra.
  Qed.
  Lemma u_e : u <= e / 8000. Proof. assert (H : u = p2 (-53)) by reflexivity. assert (p2 (-53) <= p2 (-40) / 8000). { replace (-53)%Z with (-40 + -13)%Z by reflexivity. rewrite bpow_plus. unfold Rdiv. apply Rmult_le_compat_l; [apply bpow_ge_0|]. cbn. lra. } lra. Qed.

  (** the product of the spectra as it is given to the backward transform *)
  Lemma product_near : exists q p,
    bind (fft_pointwise_product pf (make_fft_manager M) (pad_to n s1) (pad_to n s2) M) (fun z => pack_spectrum M z) = Ret q /\
    length q = M /\ Forall fin (map (pf_f32 pf) q) /\
    sum M (fun j => Rabs (smp (exact (map (pf_f32 pf) q)) j - p j)) <= 1045 / 100 * e * W /\ sum M (fun j => Rabs (p j)) <= 2 * W /\
    (exists z, fft_pointwise_product pf (make_fft_manager M) (pad_to n s1) (pad_to n s2) M = Ret z) /\
    forall j, (j < M)%nat -> nth j (inverse_packed M p) 0 = INR M * circular M (smp (exact s1)) (smp (exact s2)) j.
  Proof.
    assert (FM : fm_size (make_fft_manager M) = M /\ fm_samples (make_fft_manager M) = M).
    { split; [|reflexivity]. destruct (root_of_size k Hk) as (_ & (M1 & M2) & _). assert (ZE : Z.of_nat M = (2 ^ Z.of_nat k)%Z) by (rewrite Nat2Z.inj_pow; reflexivity).
      assert (B : (32 <= Z.of_nat M <= 2 ^ 31)%Z). { rewrite ZE. change 32%Z with (2 ^ 5)%Z. split; apply Z.pow_le_mono_r; lia. }
      apply Nat2Z.inj. rewrite fm_size_spec by lia. rewrite ZE at 1. rewrite Z.log2_up_pow2 by lia. rewrite <- ZE. lia. }
    destruct FM as [FM1 FM2].
    destruct (forward_near e pf A E k s1 N1 Hk ltac:(lia) F1 Z1 S1) as (LX & FX & EX). destruct (forward_near e pf A E k s2 N2 Hk ltac:(lia) F2 Z2 S2) as (LY & FY & EY).
    set (X := pf_fwd pf (map (pf_f32 pf) (padF M s1))) in *. set (Y := pf_fwd pf (map (pf_f32 pf) (padF M s2))) in *.
    destruct (root_of_size k Hk) as ((R1 & R2) & (M1 & M2) & _ & SQ). pose proof (e_pos e E) as EP. pose proof (e_small e E) as ES. pose proof w_low as (W1 & W2 & W3). pose proof u_e as UE. pose proof u_pos as UP.
    assert (P40 : 0 < p2 (-40)) by apply bpow_gt_0.
    assert (NP1 : 0 < N1) by (pose proof (bpow_gt_0 radix2 (-20)); lra). assert (NP2 : 0 < N2) by (pose proof (bpow_gt_0 radix2 (-20)); lra).
    assert (HH : exists h, M = (2 * h)%nat /\ (1 <= h)%nat). { destruct k as [|k']; [lia|]. exists (2 ^ k')%nat. split; [reflexivity|]. assert (2 ^ k' <> 0)%nat by (apply Nat.pow_nonzero; lia). lia. }
    destruct HH as (h & EM & Hh).
    set (r := R_sqrt.sqrt (INR M)) in *. set (X0 := smp (packed_dft M (smp (exact s1)))) in *. set (Y0 := smp (packed_dft M (smp (exact s2)))) in *.
    assert (NX0 : n2 M X0 <= r * N1). { apply Rle_trans with (r * size (exact s1)); [|apply Rmult_le_compat_l; lra]. unfold X0, r. rewrite <- (size_n2 _ M) by (rewrite exact_length; lia). rewrite EM. apply parseval, Hh. }
    assert (NY0 : n2 M Y0 <= r * N2). { apply Rle_trans with (r * size (exact s2)); [|apply Rmult_le_compat_l; lra]. unfold Y0, r. rewrite <- (size_n2 _ M) by (rewrite exact_length; lia). rewrite EM. apply parseval, Hh. }
    assert (RN1 : 0 < r * N1) by nra. assert (RN2 : 0 < r * N2) by nra.
    assert (NX : n2 M (smp (exact X)) <= 10021 / 10000 * (r * N1)). { apply Rle_trans with (1 := n2_near _ _ _ _ EX). nra. }
    assert (NY : n2 M (smp (exact Y)) <= 10021 / 10000 * (r * N2)). { apply Rle_trans with (1 := n2_near _ _ _ _ EY). nra. }
    assert (WE : (r * N1) * (r * N2) = W) by (rewrite <- SQ; ring).
    assert (R36 : forall z, 0 < z <= p2 20 -> 10021 / 10000 * (r * z) <= p2 200).
    { intros z Hz. apply Rle_trans with (2 * (p2 16 * p2 20)); [apply Rmult_le_compat; try nra; apply Rmult_le_compat; lra|]. change 2 with (p2 1). rewrite <- !bpow_plus. apply bpow_le. lia. }
    destruct (product_packed h X Y ltac:(lia) ltac:(lia) Hh) as (fa & fb & q & U1 & U2 & La & Lb & Q & Lq & Q1 & Q2).
    rewrite <- EM in La, Lb, Lq, Q.
    assert (FP : fft_pointwise_product pf (make_fft_manager M) (pad_to n s1) (pad_to n s2) M = Ret (map (fun p => cmul (fst p) (snd p)) (combine fa (map cconj fb)))).
    { unfold fft_pointwise_product. rewrite (forward_buf pf _ n M s2 FM1 FM2 L2 Hn), (forward_buf pf _ n M s1 FM1 FM2 L1 Hn). fold X Y. rewrite U1, U2. cbn [bind]. rewrite map_length, La, Lb, Nat.eqb_refl. reflexivity. }
    destruct (ideal_product h (smp (exact s1)) (smp (exact s2)) Hh) as (p & Lp & Hp & Hi). rewrite <- EM in Lp, Hp, Hi. fold X0 Y0 in Hp.
    assert (BN : forall j, (j < M)%nat -> fin (nth j q n0) /\ Rabs (FR (nth j q n0) - bin_product (smp (exact X)) (smp (exact Y)) j) <= 4 * u * (abs_bin (smp (exact X)) (smp (exact Y)) j + tiny)).
    { rewrite EM in *. apply (bins_near h X Y q); try assumption; [apply Rle_trans with (1 := NX)|apply Rle_trans with (1 := NY)]; apply R36; lra. }
    assert (NXY : n2 M (smp (exact X)) * n2 M (smp (exact Y)) <= 1005 / 1000 * W).
    { apply Rle_trans with ((10021 / 10000 * (r * N1)) * (10021 / 10000 * (r * N2))); [apply Rmult_le_compat; try apply n2_pos; assumption|]. replace (10021 / 10000 * (r * N1) * (10021 / 10000 * (r * N2))) with (10021 / 10000 * (10021 / 10000) * ((r * N1) * (r * N2))) by ring. rewrite WE. nra. }
    assert (T1 : sum M (fun j => Rabs (FR (nth j q n0) - bin_product (smp (exact X)) (smp (exact Y)) j)) <= 1 / 100 * e * W).
    { apply Rle_trans with (sum M (fun j => 4 * u * (abs_bin (smp (exact X)) (smp (exact Y)) j + tiny))); [apply sum_le; intros j Hj; apply BN, Hj|]. rewrite sum_scal, sum_plus, sum_const.
      assert (AB : sum M (abs_bin (smp (exact X)) (smp (exact Y))) <= 2 * (n2 M (smp (exact X)) * n2 M (smp (exact Y)))) by (rewrite EM; apply abs_bin_sum).
      assert (TT : INR M * tiny <= W). { apply Rmult_le_compat_l; [lra|]. apply Rle_trans with (2 := W2). unfold tiny. apply bpow_le. lia. }
      apply Rle_trans with (4 * (e / 8000) * (4 * W)); [|nra]. apply Rmult_le_compat; [lra| |lra|lra].
      assert (0 <= sum M (abs_bin (smp (exact X)) (smp (exact Y)))) by (apply sum_nonneg; intros; apply abs_bin_pos). assert (0 <= INR M * tiny) by (apply Rmult_le_pos; [lra|apply bpow_ge_0]). lra. }
    assert (T2 : sum M (fun j => Rabs (bin_product (smp (exact X)) (smp (exact Y)) j - smp p j)) <= 842 / 100 * e * W).
    { apply Rle_trans with (sum M (fun j => Rabs (bin_product (fun i => smp (exact X) i - X0 i) (smp (exact Y)) j)) + sum M (fun j => Rabs (bin_product X0 (fun i => smp (exact Y) i - Y0 i) j))).
      - rewrite <- sum_plus. apply sum_le. intros j Hj. rewrite (Hp j Hj), bin_diff. apply Rabs_triang.
      - assert (B1 : sum M (fun j => Rabs (bin_product (fun i => smp (exact X) i - X0 i) (smp (exact Y)) j)) <= 2 * (n2 M (fun i => smp (exact X) i - X0 i) * n2 M (smp (exact Y)))) by (rewrite EM; apply bin_sum).
        assert (B2 : sum M (fun j => Rabs (bin_product X0 (fun i => smp (exact Y) i - Y0 i) j)) <= 2 * (n2 M X0 * n2 M (fun i => smp (exact Y) i - Y0 i))) by (rewrite EM; apply bin_sum).
        assert (C1 : n2 M (fun i => smp (exact X) i - X0 i) * n2 M (smp (exact Y)) <= 21 / 10 * e * (r * N1) * (10021 / 10000 * (r * N2))) by (apply Rmult_le_compat; try apply n2_pos; assumption).
        assert (C2 : n2 M X0 * n2 M (fun i => smp (exact Y) i - Y0 i) <= (r * N1) * (21 / 10 * e * (r * N2))) by (apply Rmult_le_compat; try apply n2_pos; assumption).
        replace (21 / 10 * e * (r * N1) * (10021 / 10000 * (r * N2))) with (21 / 10 * (10021 / 10000) * e * ((r * N1) * (r * N2))) in C1 by ring. replace (r * N1 * (21 / 10 * e * (r * N2))) with (21 / 10 * e * ((r * N1) * (r * N2))) in C2 by ring. rewrite WE in C1, C2.
        assert (0 < e * W) by nra. lra. }
    assert (T0 : sum M (fun j => Rabs (smp p j)) <= 2 * W).
    { rewrite (sum_ext M _ (fun j => Rabs (bin_product X0 Y0 j))) by (intros j Hj; rewrite (Hp j Hj); reflexivity). rewrite EM at 1. apply Rle_trans with (1 := bin_sum h X0 Y0). rewrite <- EM. rewrite <- WE. apply Rmult_le_compat_l; [lra|]. apply Rmult_le_compat; try apply n2_pos; assumption. }
    assert (EW : 0 < e * W) by nra.
    assert (T3 : sum M (fun j => Rabs (FR (nth j q n0) - smp p j)) <= 843 / 100 * e * W).
    { apply Rle_trans with (sum M (fun j => Rabs (FR (nth j q n0) - bin_product (smp (exact X)) (smp (exact Y)) j) + Rabs (bin_product (smp (exact X)) (smp (exact Y)) j - smp p j))); [|rewrite sum_plus; lra].
      apply sum_le. intros j Hj. replace (FR (nth j q n0) - smp p j) with ((FR (nth j q n0) - bin_product (smp (exact X)) (smp (exact Y)) j) + (bin_product (smp (exact X)) (smp (exact Y)) j - smp p j)) by ring. apply Rabs_triang. }
    assert (T4 : sum M (fun j => Rabs (FR (nth j q n0))) <= 2009 / 1000 * W). { apply Rle_trans with (1 := sum_near _ _ _ _ T3). nra. }
    assert (QB : forall j, (j < M)%nat -> Rabs (FR (nth j q n0)) <= p2 120).
    { intros j Hj. apply Rle_trans with (sum M (fun j => Rabs (FR (nth j q n0)))); [apply (sum_term M (fun j => Rabs (FR (nth j q n0)))); [intros; apply Rabs_pos|exact Hj]|]. apply Rle_trans with (1 := T4). apply Rle_trans with (4 * p2 71); [lra|]. change 4 with (p2 2). rewrite <- bpow_plus. apply bpow_le. lia. }
    assert (ST : forall j, (j < M)%nat -> fin (pf_f32 pf (nth j q n0)) /\ Rabs (smp (exact (map (pf_f32 pf) q)) j - FR (nth j q n0)) <= e * Rabs (FR (nth j q n0)) + p2 (-126)).
    { intros j Hj. destruct (fft_store _ _ A (nth j q n0) (proj1 (BN j Hj)) (QB j Hj)) as [G1 G2]. split; [exact G1|]. rewrite exact_nth, (nth_indep _ n0 (pf_f32 pf n0)) by (rewrite map_length; lia). rewrite map_nth. exact G2. }
    exists q, (smp p). split; [rewrite FP; exact Q|]. split; [exact Lq|]. split; [|split; [|split; [exact T0|split; [eexists; exact FP|exact Hi]]]].
    - rewrite Forall_map, Forall_forall. intros x Hx. destruct (In_nth _ _ n0 Hx) as (j & Hj & <-). apply ST. lia.
    - apply Rle_trans with (sum M (fun j => (e * Rabs (FR (nth j q n0)) + p2 (-126)) + Rabs (FR (nth j q n0) - smp p j))).
      + apply sum_le. intros j Hj. replace (smp (exact (map (pf_f32 pf) q)) j - smp p j) with ((smp (exact (map (pf_f32 pf) q)) j - FR (nth j q n0)) + (FR (nth j q n0) - smp p j)) by ring. apply Rle_trans with (1 := Rabs_triang _ _). apply Rplus_le_compat_r. apply ST, Hj.
      + rewrite !sum_plus, sum_scal, sum_const. assert (T5 : INR M * p2 (-126) <= 1 / 1000 * e * W).
        { apply Rle_trans with (INR M * (1 / 1000 * e * (N1 * N2))); [|right; ring]. apply Rmult_le_compat_l; [lra|]. apply Rle_trans with (1 / 1000 * (p2 (-40) * p2 (-40))); [|rewrite Rmult_assoc; apply Rmult_le_compat_l; [lra|apply Rmult_le_compat; lra]]. rewrite <- bpow_plus. apply Rle_trans with (p2 (-10) * p2 (-80)); [rewrite <- bpow_plus; apply bpow_le; lia|apply Rmult_le_compat_r; [apply bpow_ge_0|cbn; lra]]. }
        assert (T6 : e * sum M (fun i => Rabs (FR (nth i q n0))) <= e * (2009 / 1000 * W)) by (apply Rmult_le_compat_l; lra). lra.
  Qed.

  Lemma circular_near : M = fft_points (Nat.max (length s1) (length s2)) -> n = Nat.max (length s1) (length s2) ->
    exists v, inverse_fft_pointwise_product pf s1 s2 = Ret v /\ length v = M /\ Forall fin v /\
      forall j, (j < M)%nat -> Rabs (smp (exact v) j - circular M (smp (exact s1)) (smp (exact s2)) j) <= 25 * e * (N1 * N2).
  Proof.
    intros EP En. destruct product_near as (q & p & Q & Lq & Fq & Eq & Bp & (z & Z) & Hi).
    pose proof (e_pos e E) as EPos. pose proof (e_small e E) as ES. pose proof w_low as (W1 & W2 & W3). pose proof u_e as UE. pose proof u_pos as UP. destruct (root_of_size k Hk) as (_ & (M1 & M2) & _ & _). assert (P40 : 0 < p2 (-40)) by apply bpow_gt_0.
    assert (WP : 0 < W) by lra. assert (EW : 0 < e * W) by nra.
    set (qq := map (pf_f32 pf) q) in *. assert (Lqq : length qq = M) by (unfold qq; rewrite map_length; exact Lq).
    assert (Bq : sum M (fun j => Rabs (smp (exact qq) j)) <= 2011 / 1000 * W). { apply Rle_trans with (1 := sum_near _ _ _ _ Eq). nra. }
    destruct (fft_backward _ _ A k qq Hk Lqq Fq) as (Ly & Fy & Ey).
    { rewrite Lqq. apply Rle_trans with (1 := Bq). apply Rle_trans with (4 * p2 71); [lra|]. change 4 with (p2 2). rewrite <- bpow_plus. apply bpow_le. lia. }
    rewrite Lqq in Ly, Ey. set (y := pf_bwd pf qq) in *. destruct (scale_exact k Hk) as [SE SF]. set (c := @ndiv F _ n1 (nofnat M)) in *.
    assert (FM1 : fm_size (make_fft_manager M) = M).
    { assert (ZE : Z.of_nat M = (2 ^ Z.of_nat k)%Z) by (rewrite Nat2Z.inj_pow; reflexivity).
      assert (B : (32 <= Z.of_nat M <= 2 ^ 31)%Z). { rewrite ZE. change 32%Z with (2 ^ 5)%Z. split; apply Z.pow_le_mono_r; lia. }
      apply Nat2Z.inj. rewrite fm_size_spec by lia. rewrite ZE at 1. rewrite Z.log2_up_pow2 by lia. rewrite <- ZE. lia. }
    assert (V : inverse_fft_pointwise_product pf s1 s2 = Ret (map (fun x => nmul x c) y)).
    { unfold inverse_fft_pointwise_product. rewrite <- EP, <- En. rewrite Z in Q |- *. cbn [bind] in Q |- *. unfold inverse1d_conj_sym, inverse1d. rewrite FM1, Q. cbn [bind]. rewrite simd_spec, map_map. change (fm_samples (make_fft_manager M)) with M.
      fold qq y c. rewrite firstn_all2 by lia. f_equal. rewrite map_map. apply map_ext. reflexivity. }
    assert (HH : exists h, M = (2 * h)%nat /\ (1 <= h)%nat). { destruct k as [|k']; [lia|]. exists (2 ^ k')%nat. split; [reflexivity|]. assert (2 ^ k' <> 0)%nat by (apply Nat.pow_nonzero; lia). lia. }
    destruct HH as (h & EM & Hh). set (C := circular M (smp (exact s1)) (smp (exact s2))) in *.
    assert (Y1 : forall j, (j < M)%nat -> Rabs (FR (nth j y n0) - INR M * C j) <= 2495 / 100 * e * W).
    { intros j Hj. rewrite <- (Hi j Hj). assert (G1 : Rabs (nth j (inverse_packed M (smp (exact qq))) 0 - nth j (inverse_packed M p) 0) <= 2 * (1045 / 100 * e * W)).
      { rewrite EM in *. rewrite inverse_linear by assumption. apply Rle_trans with (1 := inverse_bound h _ j Hh Hj). apply Rmult_le_compat_l; [lra|exact Eq]. }
      specialize (Ey j Hj). change 0%float with (@n0 F _) in Ey.
      assert (G2 : p2 (-60) <= 1 / 1000 * W). { apply Rle_trans with (1 / 1000 * p2 (-40)); [|lra]. apply Rle_trans with (p2 (-10) * p2 (-40)); [rewrite <- bpow_plus; apply bpow_le; lia|apply Rmult_le_compat_r; [lra|cbn; lra]]. }
      assert (G3 : e * (2 * sum M (fun i => Rabs (smp (exact qq) i)) + p2 (-60)) <= e * (4023 / 1000 * W)) by (apply Rmult_le_compat_l; lra).
      replace (FR (nth j y n0) - nth j (inverse_packed M p) 0) with ((FR (nth j y n0) - nth j (inverse_packed M (smp (exact qq))) 0) + (nth j (inverse_packed M (smp (exact qq))) 0 - nth j (inverse_packed M p) 0)) by ring.
      apply Rle_trans with (1 := Rabs_triang _ _). lra. }
    assert (CB : forall j, (j < M)%nat -> Rabs (INR M * C j) <= 4 * W).
    { intros j Hj. rewrite <- (Hi j Hj). rewrite EM in Hj |- * at 1. apply Rle_trans with (1 := inverse_bound h _ j Hh Hj). rewrite <- EM. lra. }
    assert (VJ : forall j, (j < M)%nat -> fin (nmul (nth j y n0) c) /\ Rabs (FR (nmul (nth j y n0) c) - C j) <= 25 * e * (N1 * N2)).
    { intros j Hj. specialize (Y1 j Hj). specialize (CB j Hj). assert (Fj : fin (nth j y n0)) by (rewrite Forall_forall in Fy; apply Fy, nth_In; lia).
      assert (YB : Rabs (FR (nth j y n0)) <= 5 * W). { replace (FR (nth j y n0)) with ((FR (nth j y n0) - INR M * C j) + INR M * C j) by ring. apply Rle_trans with (1 := Rabs_triang _ _). nra. }
      assert (IM : 0 < / INR M) by (apply Rinv_0_lt_compat; lra). assert (I1 : / INR M <= 1) by (rewrite <- Rinv_1; apply Rinv_le_contravar; lra). assert (MI : INR M * / INR M = 1) by (apply Rinv_r; lra).
      assert (PB : Rabs (FR (nth j y n0) * FR c) <= 5 * (N1 * N2)).
      { rewrite SE, Rabs_mult, (Rabs_pos_eq (/ INR M)) by lra. apply Rle_trans with (5 * W * / INR M); [apply Rmult_le_compat_r; lra|]. replace (5 * W * / INR M) with (5 * (N1 * N2) * (INR M * / INR M)) by ring. rewrite MI. lra. }
      assert (N1 * N2 <= W). { nra. }
      destruct (mul_val (nth j y n0) c Fj SF) as [G1 G2]. { apply Rle_trans with (1 := PB). apply Rle_trans with (8 * p2 71); [lra|]. change 8 with (p2 3). rewrite <- bpow_plus. apply bpow_le. lia. }
      split; [exact G1|]. rewrite SE in *. assert (D1 : Rabs (FR (nth j y n0) * / INR M - C j) <= 2495 / 100 * e * (N1 * N2)).
      { replace (FR (nth j y n0) * / INR M - C j) with ((FR (nth j y n0) - INR M * C j) * / INR M) by (field; lra). rewrite Rabs_mult, (Rabs_pos_eq (/ INR M)) by lra. apply Rle_trans with (2495 / 100 * e * W * / INR M); [apply Rmult_le_compat_r; lra|]. right. field. lra. }
      assert (TN : tiny <= N1 * N2) by (apply Rle_trans with (2 := W2); unfold tiny; apply bpow_le; lia).
      assert (D2 : u * (Rabs (FR (nth j y n0) * / INR M) + tiny) <= e / 8000 * (6 * (N1 * N2))) by (apply Rmult_le_compat; [lra|pose proof (Rabs_pos (FR (nth j y n0) * / INR M)); assert (0 < tiny) by apply bpow_gt_0; lra|lra|lra]).
      replace (FR (nmul (nth j y n0) c) - C j) with ((FR (nmul (nth j y n0) c) - FR (nth j y n0) * / INR M) + (FR (nth j y n0) * / INR M - C j)) by ring. apply Rle_trans with (1 := Rabs_triang _ _). assert (0 < e * (N1 * N2)) by nra. lra. }
    exists (map (fun x => nmul x c) y). split; [exact V|]. split; [rewrite map_length; exact Ly|]. split.
    - rewrite Forall_map, Forall_forall. intros x Hx. destruct (In_nth _ _ n0 Hx) as (j & Hj & <-). apply VJ. lia.
    - intros j Hj. rewrite exact_nth. rewrite (nth_indep _ n0 ((fun x => nmul x c) n0)) by (rewrite map_length; lia). rewrite (map_nth (fun x => nmul x c)). apply VJ, Hj.
  Qed.
End Acc.
