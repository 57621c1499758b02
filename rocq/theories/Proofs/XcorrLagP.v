(** The lag found with an FFT of limited accuracy (C108). *)
From Coq Require Import ZArith List Bool Lia Arith Reals Lra Psatz Floats.
From Coq Require Import ZifyBool ZifyNat.
From Flocq Require Import Core.Core Relative IEEE754.BinarySingleNaN IEEE754.PrimFloat.
From Verif Require Import Base.Res Base.Num Base.NumR Base.NumF Base.Lists Base.Cplx Model.MiscMath Model.Fft
  Spec.FftSpec Spec.FftAccSpec Proofs.RealP Proofs.FftP Proofs.DftP Proofs.XcorrP Proofs.B64P Proofs.RoundP Proofs.FftNormP Proofs.FftAccP Proofs.FftErrP Proofs.XcorrErrP.
Import ListNotations.
Open Scope R_scope.
Ltac Zify.zify_post_hook ::= Z.div_mod_to_equations.
Local Notation F := PrimFloat.float.
Local Notation p2 := (bpow radix2).

(** searching binary64 numbers is searching their values *)
Lemma ltb_exact (x y : F) : fin x -> fin y -> @nltb F _ x y = @nltb R _ (FR x) (FR y).
Proof.
  intros Fx Fy. change (@nltb F _ x y) with (PrimFloat.ltb x y). rewrite FR_ltb by assumption. change (@nltb R _ (FR x) (FR y)) with (Rltb (FR x) (FR y)). destruct (Rltb_spec (FR x) (FR y)); [apply Rlt_bool_true; assumption|apply Rlt_bool_false; lra].
Qed.
Lemma argmax_from_exact : forall l b bi i, fin b -> Forall fin l -> argmax_from b bi i l = argmax_from (FR b) bi i (exact l).
Proof.
  induction l as [|x l IH]; intros b bi i Fb Fl; [reflexivity|]. inversion Fl as [|? ? Fx Fl']; subst. cbn [argmax_from exact map]. rewrite ltb_exact by assumption. fold (exact l). destruct (@nltb R _ (FR b) (FR x)); apply IH; assumption.
Qed.
Lemma argmax_exact l : Forall fin l -> argmax l = argmax (exact l).
Proof. destruct l as [|x l]; [reflexivity|]. intros H. inversion H; subst. apply argmax_from_exact; assumption. Qed.

Lemma points_power n : (9 <= n)%nat -> (2 * Z.of_nat n - 1 < 2 ^ 31)%Z -> exists k, (5 <= k <= 31)%nat /\ fft_points n = (2 ^ k)%nat /\ (2 * n <= 2 ^ k)%nat.
Proof.
  intros H1 H2. destruct (fft_points_spec n ltac:(lia) H2) as (P1 & P2 & P3 & _). assert (P4 : (32 <= Z.of_nat (fft_points n))%Z) by (apply P3; lia). unfold fft_points in *. replace (Z.abs (Z.of_nat n * 2 - 1)) with (2 * Z.of_nat n - 1)%Z in * by lia.
  set (a := (Z.log2 (2 * Z.of_nat n - 1) + 1)%Z) in *. assert (A0 : (0 <= a)%Z) by (pose proof (Z.log2_nonneg (2 * Z.of_nat n - 1)); unfold a; lia).
  assert (PA : (0 < 2 ^ a)%Z) by (apply Z.pow_pos_nonneg; lia). rewrite Z2Nat.id in P1, P2, P4 by lia. exists (Z.to_nat a).
  assert (EQ : (2 ^ Z.to_nat a)%nat = Z.to_nat (2 ^ a)) by (rewrite Z2Nat.inj_pow by lia; reflexivity).
  assert (A5 : (5 <= a)%Z). { apply Z.nlt_ge. intros C. assert (2 ^ a <= 2 ^ 4)%Z by (apply Z.pow_le_mono_r; lia). lia. }
  assert (A31 : (a <= 31)%Z). { apply Z.nlt_ge. intros C. assert (2 ^ 32 <= 2 ^ a)%Z by (apply Z.pow_le_mono_r; lia). lia. }
  split; [lia|]. split; [symmetry; exact EQ|rewrite EQ; lia].
Qed.

Section Acc.
  Variables (e : R) (pf : pffft F) (s1 s2 : list F).
  Hypothesis A : accurate_fft e pf.
  Hypothesis E : p2 (-40) <= e <= p2 (-10).
  Local Notation n := (Nat.max (length s1) (length s2)).
  Hypothesis Hn : (9 <= n)%nat. Hypothesis Hb : (2 * Z.of_nat n - 1 < 2 ^ 31)%Z.
  Hypothesis F1 : Forall fin s1. Hypothesis F2 : Forall fin s2.
  Variables (N1 N2 : R).
  Hypothesis Z1 : size (exact s1) <= N1. Hypothesis Z2 : size (exact s2) <= N2.
  Hypothesis S1 : p2 (-20) <= N1 <= p2 20. Hypothesis S2 : p2 (-20) <= N2 <= p2 20.
  Local Notation d := (25 * e * (N1 * N2)).
  Local Notation cc := (cross_correlation (exact s1) (exact s2)).

  Lemma values_near : exists v, inverse_fft_pointwise_product pf s1 s2 = Ret v /\ length v = fft_points n /\ Forall fin v /\
    forall g, (- (Z.of_nat n - 1) <= g <= Z.of_nat n - 1)%Z ->
      Rabs (FR (nth (Z.to_nat (if (g <? 0)%Z then g + Z.of_nat (length v) else g)) v n0) - cc g) <= d.
  Proof.
    destruct (points_power n Hn Hb) as (k & Hk & EP & G).
    destruct (circular_near e pf A E k n s1 s2 Hk ltac:(lia) ltac:(lia) ltac:(lia) F1 F2 N1 N2 Z1 Z2 S1 S2 (eq_sym EP) eq_refl) as (v & V & Lv & Fv & Hv).
    exists v. split; [exact V|]. split; [rewrite EP; exact Lv|]. split; [exact Fv|]. intros g Hg. rewrite Lv.
    assert (B : (Z.to_nat (if g <? 0 then g + Z.of_nat (2 ^ k) else g)%Z < 2 ^ k)%nat). { destruct (g <? 0)%Z eqn:C; lia. }
    specialize (Hv _ B). rewrite exact_nth in Hv. rewrite (circular_linear (2 ^ k) (exact s1) (exact s2) n) in Hv by (rewrite ?exact_length; lia).
    destruct (Z.ltb_spec g 0) as [C|C].
    - destruct (Nat.leb_spec (Z.to_nat (g + Z.of_nat (2 ^ k))) (2 ^ k - n)) as [D|D]; [lia|]. replace (Z.of_nat (Z.to_nat (g + Z.of_nat (2 ^ k))) - Z.of_nat (2 ^ k))%Z with g in Hv by lia. exact Hv.
    - destruct (Nat.leb_spec (Z.to_nat g) (2 ^ k - n)) as [D|D]; [|lia]. replace (Z.of_nat (Z.to_nat g)) with g in Hv by lia. exact Hv.
  Qed.

  Lemma lag_near : exists g, find_lowest_lag_index pf s1 s2 = Ret g /\ (- (Z.of_nat n - 1) <= g <= Z.of_nat n - 1)%Z /\
    forall g', (- (Z.of_nat n - 1) <= g' <= Z.of_nat n - 1)%Z -> cc g' <= cc g + 2 * d.
  Proof.
    destruct values_near as (v & V & Lv & Fv & Hv). destruct (fft_points_spec n ltac:(lia) Hb) as (P1 & P2 & _).
    set (P := fft_points n) in *. unfold find_lowest_lag_index. rewrite V. cbn [bind].
    replace (_ || _) with false by (symmetry; apply orb_false_iff; split; [apply Nat.eqb_neq|apply Nat.ltb_ge]; lia).
    eexists. split; [reflexivity|]. set (c := skipn _ _ ++ _).
    assert (Fc : Forall fin c). { unfold c. rewrite Forall_forall in *. intros x Hx. apply Fv. apply in_app_or in Hx. destruct Hx as [Hx|Hx]; [rewrite <- (firstn_skipn (length v - (n - 1)) v)|rewrite <- (firstn_skipn (n - 1 + 1) v)]; apply in_or_app; auto. }
    rewrite (argmax_exact c Fc).
    assert (Ec : exact c = skipn (P - (n - 1)) (exact v) ++ firstn (n - 1 + 1) (exact v)) by (unfold c, exact; rewrite map_app, skipn_map, firstn_map, Lv; reflexivity).
    destruct (lag_list (exact v) n P) as [Lc Nc]; [rewrite exact_length; exact Lv|lia|lia|]. cbn zeta in Lc, Nc. rewrite <- Ec in Lc, Nc.
    assert (Vc : forall i, (i < 2 * n - 1)%nat -> Rabs (nth i (exact c) 0 - cc (Z.of_nat i - Z.of_nat (n - 1))) <= d).
    { intros i Hi. rewrite Nc by exact Hi. specialize (Hv (Z.of_nat i - Z.of_nat (n - 1))%Z ltac:(lia)). rewrite <- exact_nth in Hv. unfold smp in Hv. destruct (Nat.ltb_spec i (n - 1)).
      - destruct (Z.ltb_spec (Z.of_nat i - Z.of_nat (n - 1)) 0); [|lia]. replace (P - (n - 1) + i)%nat with (Z.to_nat (Z.of_nat i - Z.of_nat (n - 1) + Z.of_nat (length v))) by lia. exact Hv.
      - destruct (Z.ltb_spec (Z.of_nat i - Z.of_nat (n - 1)) 0); [lia|]. replace (i - (n - 1))%nat with (Z.to_nat (Z.of_nat i - Z.of_nat (n - 1))) by lia. exact Hv. }
    destruct (argmax_R (exact c)) as (A1 & A2 & _); [intros X; rewrite X in Lc; cbn in Lc; lia|]. rewrite Lc in A1, A2. split; [lia|]. intros g' Hg'.
    specialize (A2 (Z.to_nat (g' + Z.of_nat (n - 1))) ltac:(lia)). pose proof (Vc _ A1) as V1. pose proof (Vc (Z.to_nat (g' + Z.of_nat (n - 1))) ltac:(lia)) as V2.
    replace (Z.of_nat (Z.to_nat (g' + Z.of_nat (n - 1))) - Z.of_nat (n - 1))%Z with g' in V2 by lia. apply Raux.Rabs_le_inv in V1, V2. lra.
  Qed.
  Lemma lag_exact g : (- (Z.of_nat n - 1) <= g <= Z.of_nat n - 1)%Z -> (forall g', (- (Z.of_nat n - 1) <= g' <= Z.of_nat n - 1)%Z -> g' <> g -> cc g' + 2 * d < cc g) ->
    find_lowest_lag_index pf s1 s2 = Ret g.
  Proof.
    intros Hg H. destruct lag_near as (g0 & G & B & Q). rewrite G. f_equal. destruct (Z.eq_dec g0 g) as [|C]; [assumption|]. specialize (Q g Hg). specialize (H g0 B C). lra.
  Qed.
End Acc.

(** *** a library that computes exactly and stores its results as 32-bit numbers *)
From Verif Require Import Proofs.RoundedLibmP.
Definition single (r : R) : F := nearest_float (round radix2 (FLT_exp (-149) 24) ZnearestE r).
Definition single_fft : pffft F :=
  MkPffft (fun l => map single (packed_dft (length l) (smp (exact l)))) (fun l => map single (inverse_packed (length l) (smp (exact l)))) (fun x => single (FR x)).
Lemma single_near r : Rabs r <= p2 120 -> fin (single r) /\ Rabs (FR (single r) - r) <= p2 (-23) * Rabs r + p2 (-148).
Proof.
  intros H. unfold single. set (y := round radix2 (FLT_exp (-149) 24) ZnearestE r). pose proof (bpow_gt_0 radix2 (-149)) as PP. pose proof (bpow_gt_0 radix2 (-24)) as PQ. pose proof (Rabs_pos r) as RP.
  assert (Y : Rabs (y - r) <= p2 (-24) * Rabs r + p2 (-149)).
  { destruct (error_N_FLT radix2 (-149) 24 ltac:(lia) (fun x => negb (Z.even x)) r) as (eps & eta & E1 & E2 & _ & E4). change (round radix2 (FLT_exp (-149) 24) (Znearest (fun x => negb (Z.even x))) r) with y in E4. rewrite E4. replace (r * (1 + eps) + eta - r) with (r * eps + eta) by ring. apply Rle_trans with (1 := Rabs_triang _ _). rewrite Rabs_mult.
    change (- (24) + 1)%Z with (1 + -24)%Z in E1. rewrite bpow_plus in E1. change (p2 1) with 2 in E1. assert (E1' : Rabs eps <= p2 (-24)) by lra. apply Rplus_le_compat; [rewrite (Rmult_comm (p2 (-24))); apply Rmult_le_compat_l; assumption|lra]. }
  assert (YB : Rabs y <= 2 * Rabs r + p2 (-149)). { replace y with ((y - r) + r) by ring. apply Rle_trans with (1 := Rabs_triang _ _). assert (p2 (-24) <= 1) by (cbn; lra). nra. }
  assert (Q1 : p2 (-149) <= 1) by (change 1 with (p2 0); apply bpow_le; lia). assert (Q2 : 4 * p2 120 <= big) by (change 4 with (p2 2); unfold big; rewrite <- bpow_plus; apply bpow_le; lia). assert (Q3 : 1 <= p2 120) by (change 1 with (p2 0); apply bpow_le; lia).
  destruct (FR_nearest y) as [E Fr]; [apply (rnd_fmax _ (4 * p2 120)); [lra| |exact Q2]|]. { apply Rle_trans with 1; [|lra]. change 1 with (p2 0). apply bpow_le. lia. }
  split; [exact Fr|]. rewrite E. pose proof (rnd_err' y) as RE. replace (rnd y - r) with ((rnd y - y) + (y - r)) by ring. apply Rle_trans with (1 := Rabs_triang _ _).
  assert (U : u = p2 (-53)) by reflexivity. assert (T : tiny <= p2 (-149)) by (apply bpow_le; lia). assert (U2 : u * (Rabs y + tiny) <= p2 (-53) * (2 * Rabs r + 2 * p2 (-149))). { rewrite U. apply Rmult_le_compat_l; [apply bpow_ge_0|lra]. }
  assert (U3 : p2 (-53) * 2 <= p2 (-24)) by (change 2 with (p2 1); rewrite <- bpow_plus; apply bpow_le; lia). assert (U4 : p2 (-53) * 2 * Rabs r <= p2 (-24) * Rabs r) by (apply Rmult_le_compat_r; assumption). assert (U5 : p2 (-53) * 2 * p2 (-149) <= 1 * p2 (-149)) by (apply Rmult_le_compat_r; [lra|cbn; lra]).
  replace (p2 (-23)) with (2 * p2 (-24)) by (replace (-23)%Z with (1 + -24)%Z by reflexivity; rewrite bpow_plus; cbn; lra). replace (p2 (-148)) with (2 * p2 (-149)) by (replace (-148)%Z with (1 + -149)%Z by reflexivity; rewrite bpow_plus; change (p2 1) with 2; lra). lra.
Qed.
Lemma inverse_length M p : length (inverse_packed M p) = M. Proof. unfold inverse_packed. rewrite map_length, seq_length. reflexivity. Qed.
Lemma packed_length M p : length (packed_dft M p) = M. Proof. unfold packed_dft. rewrite map_length, seq_length. reflexivity. Qed.
Lemma single_accurate : accurate_fft (p2 (-22)) single_fft.
Proof.
  assert (E2 : p2 (-22) = 2 * p2 (-23)) by (replace (-22)%Z with (1 + -23)%Z by reflexivity; rewrite bpow_plus; change (p2 1) with 2; reflexivity). assert (P23 : 0 < p2 (-23)) by apply bpow_gt_0.
  assert (SN : forall l, (forall j, (j < length l)%nat -> Rabs (smp l j) <= p2 120) -> Forall fin (map single l) /\ forall j, (j < length l)%nat -> Rabs (FR (nth j (map single l) 0%float) - smp l j) <= p2 (-23) * Rabs (smp l j) + p2 (-148)).
  { intros l H. split.
    - rewrite Forall_map, Forall_forall. intros x Hx. destruct (In_nth _ _ 0 Hx) as (j & Hj & <-). apply single_near, H, Hj.
    - intros j Hj. rewrite (nth_indep _ 0%float (single 0)) by (rewrite map_length; exact Hj). rewrite map_nth. apply single_near, H, Hj. }
  assert (EV : forall k, (5 <= k)%nat -> exists h, (2 ^ k)%nat = (2 * h)%nat /\ (1 <= h)%nat). { intros [|k'] H; [lia|]. exists (2 ^ k')%nat. split; [reflexivity|]. assert (2 ^ k' <> 0)%nat by (apply Nat.pow_nonzero; lia). lia. }
  constructor; cbn [pf_fwd pf_bwd pf_f32 single_fft].
  - intros x Fx H. destruct (single_near (FR x) H) as [G1 G2]. split; [exact G1|]. apply Rle_trans with (1 := G2). rewrite E2. assert (p2 (-148) <= p2 (-126)) by (apply bpow_le; lia). pose proof (Rabs_pos (FR x)). nra.
  - intros k l Hk Ll Fl Sl. rewrite !Ll. destruct (EV k (proj1 Hk)) as (h & EM & Hh). destruct (root_of_size k Hk) as ((R1 & R2) & (M1 & M2) & _ & SQ). rewrite EM in *. set (X := packed_dft (2 * h) (smp (exact l))).
    assert (LX : length X = (2 * h)%nat) by apply packed_length. rewrite <- (size_n2 _ (2 * h)) in Sl by (rewrite exact_length; lia).
    set (N := n2 (2 * h) (smp (exact l))) in *. pose proof (n2_pos (2 * h) (smp (exact l)) : 0 <= N) as NP. set (r := R_sqrt.sqrt (INR (2 * h))) in *.
    assert (PX : n2 (2 * h) (smp X) <= r * N) by (apply parseval, Hh).
    assert (XB : forall j, (j < length X)%nat -> Rabs (smp X j) <= p2 120).
    { intros j Hj. rewrite LX in Hj. apply Rle_trans with (1 := n2_term _ (smp X) j Hj). apply Rle_trans with (1 := PX). apply Rle_trans with (p2 16 * p2 50); [apply Rmult_le_compat; lra|]. rewrite <- bpow_plus. apply bpow_le. lia. }
    destruct (SN X XB) as [G1 G2]. split; [rewrite map_length; exact LX|]. split; [exact G1|]. rewrite LX in G2.
    assert (NE : n2 (2 * h) (fun j => FR (nth j (map single X) 0%float) - smp X j) <= p2 (-23) * (r * N) + r * p2 (-148)).
    { apply Rle_trans with (1 := n2_le _ _ _ G2). apply Rle_trans with (1 := n2_plus (2 * h) (fun j => p2 (-23) * Rabs (smp X j)) (fun _ => p2 (-148))). rewrite n2_scal, n2_const, n2_abs by (try apply bpow_ge_0; lra). fold r. apply Rplus_le_compat_r. apply Rmult_le_compat_l; lra. }
    rewrite (sum_ext _ _ (fun j => (FR (nth j (map single X) 0%float) - smp X j) * (FR (nth j (map single X) 0%float) - smp X j))) by (intros; ring).
    rewrite <- (n2_sq (2 * h) (fun j => FR (nth j (map single X) 0%float) - smp X j)).
    rewrite (sum_ext _ (fun i => smp (exact l) i ^ 2) (fun i => smp (exact l) i * smp (exact l) i)) by (intros; ring). rewrite <- n2_sq. fold N. rewrite <- SQ.
    pose proof (n2_pos (2 * h) (fun j => FR (nth j (map single X) 0%float) - smp X j)) as ZP. set (z := n2 (2 * h) (fun j => FR (nth j (map single X) 0%float) - smp X j)) in *.
    assert (PB : 0 < p2 (-148)) by apply bpow_gt_0. apply Rle_trans with ((p2 (-23) * (r * N) + r * p2 (-148)) * (p2 (-23) * (r * N) + r * p2 (-148))); [apply Rmult_le_compat; assumption|].
    replace ((p2 (-23) * (r * N) + r * p2 (-148)) * (p2 (-23) * (r * N) + r * p2 (-148))) with (r * r * ((p2 (-23) * N + p2 (-148)) * (p2 (-23) * N + p2 (-148)))) by ring. rewrite E2.
    replace ((2 * p2 (-23)) ^ 2 * (r * r * (N * N + p2 (-100)))) with (r * r * (4 * (p2 (-23) * N * (p2 (-23) * N)) + 4 * (p2 (-23) * p2 (-23) * p2 (-100)))) by ring. apply Rmult_le_compat_l; [nra|].
    assert (B2 : p2 (-148) * p2 (-148) <= p2 (-23) * p2 (-23) * p2 (-100)) by (rewrite <- !bpow_plus; apply bpow_le; lia). pose proof (Rle_0_sqr (p2 (-23) * N - p2 (-148))) as SS. unfold Rsqr in SS. set (a := p2 (-23) * N) in *. set (b := p2 (-148)) in *. assert (0 <= a * a) by nra. nra.
  - intros k l Hk Ll Fl Sl. rewrite !Ll in *. destruct (EV k (proj1 Hk)) as (h & EM & Hh). rewrite EM in *. set (X := inverse_packed (2 * h) (smp (exact l))).
    assert (LX : length X = (2 * h)%nat) by apply inverse_length.
    assert (XB : forall j, (j < length X)%nat -> Rabs (smp X j) <= 2 * sum (2 * h) (fun i => Rabs (smp (exact l) i))). { intros j Hj. rewrite LX in Hj. apply inverse_bound; assumption. }
    destruct (SN X) as [G1 G2]. { intros j Hj. apply Rle_trans with (1 := XB j Hj). apply Rle_trans with (2 * p2 100); [lra|]. change 2 with (p2 1). rewrite <- bpow_plus. apply bpow_le. lia. }
    split; [rewrite map_length; exact LX|]. split; [exact G1|]. intros j Hj. rewrite <- LX in Hj. specialize (G2 j Hj). specialize (XB j Hj). unfold smp in G2 at 1. fold (smp X j) in G2. apply Rle_trans with (1 := G2).
    assert (B : p2 (-148) <= p2 (-23) * p2 (-60)) by (rewrite <- bpow_plus; apply bpow_le; lia). assert (0 < p2 (-60)) by apply bpow_gt_0. pose proof (Rabs_pos (smp X j)). rewrite E2. set (S0 := sum (2 * h) (fun i => Rabs (smp (exact l) i))) in *. assert (p2 (-23) * Rabs (smp X j) <= p2 (-23) * (2 * S0)) by (apply Rmult_le_compat_l; lra). assert (0 <= p2 (-23) * (2 * S0)) by (apply Rmult_le_pos; lra). assert (0 < p2 (-23) * p2 (-60)) by (apply Rmult_lt_0_compat; lra). lra.
Qed.
