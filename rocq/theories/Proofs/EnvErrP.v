(** The envelope computed with an FFT of limited accuracy (C109). *)
From Coq Require Import ZArith List Bool Lia Arith Reals Lra Psatz Floats.
From Coq Require Import ZifyBool ZifyNat.
From Flocq Require Import Core.Core IEEE754.BinarySingleNaN IEEE754.PrimFloat.
From Verif Require Import Base.Res Base.Num Base.NumR Base.NumF Base.Lists Base.Cplx Model.MiscMath Model.Fft
  Spec.FftSpec Spec.FftAccSpec Spec.EnvAccSpec Spec.EnvelopeSpec Proofs.RealP Proofs.FftP Proofs.DftP Proofs.XcorrP Proofs.B64P Proofs.RoundP Proofs.FftNormP Proofs.FftAccP Proofs.FftErrP Proofs.XcorrErrP Proofs.EnvelopeP Proofs.FftDualP Proofs.HilbertP Proofs.MeanErrP.
Import ListNotations.
Open Scope R_scope.
Ltac Zify.zify_post_hook ::= Z.div_mod_to_equations.
Local Notation F := PrimFloat.float.
Local Notation p2 := (bpow radix2).

Lemma inverse_ext h p q j : (1 <= h)%nat -> (j < 2 * h)%nat -> (forall i, (i < 2 * h)%nat -> p i = q i) -> nth j (inverse_packed (2 * h) p) 0 = nth j (inverse_packed (2 * h) q) 0.
Proof.
  intros Hh Hj H. pose proof (inverse_linear h p q j Hh Hj) as L. pose proof (inverse_bound h (fun i => p i - q i) j Hh Hj) as B. rewrite sum_zero in B by (intros i Hi; rewrite H by exact Hi; unfold Rminus; rewrite Rplus_opp_r; apply Rabs_R0). rewrite Rmult_0_r, <- L in B. apply Raux.Rabs_le_inv in B. lra.
Qed.
Lemma packed_ext h x y j : (1 <= h)%nat -> (j < 2 * h)%nat -> (forall i, (i < 2 * h)%nat -> x i = y i) -> smp (packed_dft (2 * h) x) j = smp (packed_dft (2 * h) y) j.
Proof.
  intros Hh Hj H. pose proof (packed_linear h x y j Hh Hj) as L. pose proof (parseval h (fun i => x i - y i) Hh) as P. rewrite (n2_ext _ (fun i => x i - y i) (fun _ => 0)) in P by (intros i Hi; rewrite H by exact Hi; ring). rewrite n2_const in P by lra. rewrite Rmult_0_r in P.
  pose proof (n2_term (2 * h) (smp (packed_dft (2 * h) (fun i => x i - y i))) j Hj) as T. rewrite <- L in T. assert (Rabs (smp (packed_dft (2 * h) x) j - smp (packed_dft (2 * h) y) j) <= 0) as B by lra. apply Raux.Rabs_le_inv in B. lra.
Qed.
Lemma fm_power n : (1 <= Z.of_nat n <= 2 ^ 31)%Z -> exists k, (5 <= k <= 31)%nat /\ fm_size (make_fft_manager n) = (2 ^ k)%nat.
Proof.
  intros H. pose proof (fm_size_spec n H) as E. set (a := Z.max (Z.log2_up (Z.of_nat n)) 5). assert (L : (Z.log2_up (Z.of_nat n) <= 31)%Z) by (change 31%Z with (Z.log2_up (2 ^ 31)); apply Z.log2_up_le_mono; lia). pose proof (Z.log2_up_nonneg (Z.of_nat n)).
  exists (Z.to_nat a). split; [unfold a; lia|]. apply Nat2Z.inj. rewrite E, Nat2Z.inj_pow, Z2Nat.id by (unfold a; lia). change (Z.of_nat 2) with 2%Z. change 32%Z with (2 ^ 5)%Z.
  unfold a. destruct (Z.max_spec (Z.log2_up (Z.of_nat n)) 5) as [[C ->]|[C ->]].
  - apply Z.max_r. apply Z.pow_le_mono_r; lia.
  - apply Z.max_l. apply Z.pow_le_mono_r; lia.
Qed.
Lemma n2_zero_tail n m f : (n <= m)%nat -> (forall i, (n <= i < m)%nat -> f i = 0) -> n2 m f = n2 n f.
Proof. intros H Z. unfold n2. f_equal. apply sum_extend; [exact H|]. intros i Hi. rewrite Z by lia. ring. Qed.
Lemma weight_real n h j : FR (weight (T := F) n h j) = weight (T := R) n h j /\ fin (weight (T := F) n h j) /\ Rabs (weight (T := R) n h j) <= 2.
Proof.
  unfold weight. change (@n1 F _) with (F_ofZ 1). change (@nofZ F _ 2) with (F_ofZ 2). change (@n1 R _) with 1. change (@nofZ R _ 2) with 2. change (@n0 R _) with 0.
  destruct (FR_ofZ 1 ltac:(lia)) as [E1 F1]. destruct (FR_ofZ 2 ltac:(lia)) as [E2 F2].
  destruct (Nat.eqb j 0); [split; [exact E1|split; [exact F1|rewrite Rabs_pos_eq; lra]]|]. destruct (Nat.eqb j 1); [|split; [exact E2|split; [exact F2|rewrite Rabs_pos_eq; lra]]].
  destruct (Nat.eqb n (2 * h)); [split; [exact E1|split; [exact F1|rewrite Rabs_pos_eq; lra]]|]. split; [reflexivity|]. split; [reflexivity|]. rewrite Rabs_R0. lra.
Qed.
Lemma abs_val (x : F) : FR (@nabs F _ x) = Rabs (FR x) /\ (fin x -> fin (@nabs F _ x)).
Proof. unfold FR, fin. change (@nabs F _ x) with (PrimFloat.abs x). rewrite abs_equiv. split; [apply B2R_Babs|]. intros H. rewrite is_finite_Babs. exact H. Qed.

Lemma E' e : p2 (-23) <= e <= p2 (-10) -> p2 (-40) <= e <= p2 (-10). Proof. intros E. assert (p2 (-40) <= p2 (-23)) by (apply bpow_le; lia). lra. Qed.

Section Env.
  Variables (e : R) (pf : pffft F).
  Hypothesis A : accurate_transforms e pf.
  Hypothesis E : p2 (-23) <= e <= p2 (-10).
  Variables (s : list F) (N : R).
  Hypothesis Fs : Forall fin s.
  Local Notation n := (length s).
  Hypothesis Hn : (2 <= n)%nat. Hypothesis Hb : (Z.of_nat n <= 2 ^ 26)%Z.
  Hypothesis Hs : size (exact s) <= N. Hypothesis HN : p2 (-16) <= N <= p2 16.
  Variables (k h : nat).
  Hypothesis Hk : (5 <= k <= 31)%nat. Hypothesis HM : (2 ^ k = 2 * h)%nat. Hypothesis Hfm : fm_size (make_fft_manager n) = (2 * h)%nat.
  Local Notation M := (2 * h)%nat.
  Local Notation r := (R_sqrt.sqrt (INR M)).
  Local Notation rn := (R_sqrt.sqrt (INR n)).
  Local Notation mu := (average (exact s)).
  Local Notation x := (without_mean s).
  Local Notation g := (centred (exact s)).
  (** the spectrum and the result in exact arithmetic *)
  Definition p0 (j : nat) : R := weight (T := R) n h j * smp (packed_dft M g) j.
  Definition t0 (j : nat) : R := nth j (inverse_packed M p0) 0 / INR M.

  Lemma h_pos : (1 <= h)%nat. Proof. assert (2 ^ k <> 0)%nat by (apply Nat.pow_nonzero; lia). lia. Qed.
  Lemma n_le : (n <= M)%nat. Proof. rewrite <- Hfm. apply fm_size_ge. lia. Qed.
  Lemma r_facts : 1 <= r <= p2 16 /\ 32 <= INR M <= p2 31 /\ r * r = INR M.
  Proof. destruct (root_of_size k Hk) as (B1 & B2 & _ & B3). rewrite HM in *. repeat split; try apply B1; try apply B2. exact B3. Qed.
  Lemma N' : p2 (-20) <= N <= p2 20. Proof. assert (p2 (-20) <= p2 (-16)) by (apply bpow_le; lia). assert (p2 16 <= p2 20) by (apply bpow_le; lia). lra. Qed.
  Lemma small_126 : r * p2 (-126) <= 1 / 1000 * e * N.
  Proof.
    destruct r_facts as ((R1 & R2) & _). apply Rle_trans with (p2 16 * p2 (-126)); [apply Rmult_le_compat_r; [apply bpow_ge_0|exact R2]|]. apply Rle_trans with (1 / 1000 * (p2 (-23) * p2 (-16))).
    - rewrite <- !bpow_plus. apply Rle_trans with (p2 (-10) * p2 (-39)); [rewrite <- bpow_plus; apply bpow_le; lia|apply Rmult_le_compat_r; [apply bpow_ge_0|cbn; lra]].
    - rewrite Rmult_assoc. apply Rmult_le_compat_l; [lra|]. apply Rmult_le_compat; try apply bpow_ge_0; lra.
  Qed.
  Lemma small_tiny : r * tiny <= 1 / 1000 * e * N.
  Proof. apply Rle_trans with (2 := small_126). apply Rmult_le_compat_l; [apply sqrt_pos|]. unfold tiny. apply bpow_le. lia. Qed.

  (** what is put into the forward transform *)
  Lemma buffer_near : length (buffer pf h x) = M /\ Forall fin (buffer pf h x) /\ n2 M (fun i => smp (exact (buffer pf h x)) i - g i) <= 134 / 100 * e * N.
  Proof.
    destruct (without_near s N e Fs Hn Hb Hs HN E) as [Fx Ex]. pose proof (without_length s) as Lx. pose proof n_le as NL. pose proof (N_pos N HN) as NP. pose proof (e_pos e (E' e E)) as EP. pose proof (e_small e (E' e E)) as ES. pose proof (transforms_fft _ _ A) as A1.
    destruct (n_facts s N Hn Hb Hs) as (_ & _ & _ & (RN1 & RN2) & _). pose proof (centred_norm s N Hn Hb Hs) as CN.
    assert (NX : n2 n (smp (exact x)) <= 1001 / 1000 * N) by (apply Rle_trans with (1 := n2_near _ _ _ _ Ex); nra).
    assert (LB : length (buffer pf h x) = M) by (unfold buffer; rewrite app_length, map_length, repeat_length; lia).
    assert (VB : forall i, (i < n)%nat -> fin (nth i x n0) /\ Rabs (FR (nth i x n0)) <= p2 120).
    { intros i Hi. split; [rewrite Forall_forall in Fx; apply Fx, nth_In; lia|]. rewrite <- exact_nth. apply Rle_trans with (1 := n2_term n (smp (exact x)) i Hi). apply Rle_trans with (1 := NX). apply Rle_trans with (2 * p2 16); [lra|]. change 2 with (p2 1). rewrite <- bpow_plus. apply bpow_le. lia. }
    assert (ST : forall i, (i < n)%nat -> fin (pf_f32 pf (nth i x n0)) /\ Rabs (FR (pf_f32 pf (nth i x n0)) - FR (nth i x n0)) <= e * Rabs (FR (nth i x n0)) + p2 (-126)) by (intros i Hi; destruct (VB i Hi); apply (fft_store _ _ A1); assumption).
    assert (VL : forall i, (i < n)%nat -> nth i (buffer pf h x) n0 = pf_f32 pf (nth i x n0)). { intros i Hi. unfold buffer. rewrite app_nth1 by (rewrite map_length; lia). rewrite (nth_indep _ n0 (pf_f32 pf n0)) by (rewrite map_length; lia). apply map_nth. }
    assert (VH : forall i, (n <= i < M)%nat -> nth i (buffer pf h x) n0 = n0). { intros i Hi. unfold buffer. rewrite app_nth2 by (rewrite map_length; lia). apply nth_repeat. }
    split; [exact LB|]. split.
    - rewrite Forall_forall. intros y Hy. destruct (In_nth _ _ n0 Hy) as (i & Hi & <-). rewrite LB in Hi. destruct (Nat.lt_ge_cases i n) as [C|C]; [rewrite VL by exact C; apply ST, C|rewrite VH by lia; reflexivity].
    - rewrite (n2_zero_tail n M) by (try exact NL; intros i Hi; rewrite exact_nth, VH by exact Hi; unfold centred; rewrite exact_length; replace (Nat.ltb i n) with false by lia; change (FR n0) with 0; ring).
      rewrite (n2_ext n _ (fun i => (smp (exact (buffer pf h x)) i - smp (exact x) i) + (smp (exact x) i - g i))) by (intros; ring). apply Rle_trans with (1 := n2_plus _ _ _).
      assert (S1 : n2 n (fun i => smp (exact (buffer pf h x)) i - smp (exact x) i) <= e * (1001 / 1000 * N) + rn * p2 (-126)).
      { apply Rle_trans with (n2 n (fun i => e * Rabs (smp (exact x) i) + p2 (-126))); [apply n2_le; intros i Hi; rewrite !exact_nth, VL by exact Hi; apply ST, Hi|]. apply Rle_trans with (1 := n2_plus n (fun i => e * Rabs (smp (exact x) i)) (fun _ => p2 (-126))). rewrite n2_scal, n2_const, n2_abs by (try apply bpow_ge_0; lra). apply Rplus_le_compat_r. apply Rmult_le_compat_l; lra. }
      assert (S2 : rn * p2 (-126) <= 1 / 1000 * e * N). { apply Rle_trans with (2 := small_126). apply Rmult_le_compat_r; [apply bpow_ge_0|]. apply sqrt_le_1_alt, le_INR, NL. }
      assert (0 < e * N) by nra. lra.
  Qed.
  Lemma g_norm : n2 M g <= N.
  Proof. rewrite (n2_zero_tail n M) by (try apply n_le; intros i Hi; unfold centred; rewrite exact_length; replace (Nat.ltb i n) with false by lia; reflexivity). apply centred_norm; assumption. Qed.
  Lemma p0_norm : n2 M p0 <= 2 * (r * N).
  Proof.
    destruct r_facts as ((R1 & R2) & _). apply Rle_trans with (n2 M (fun j => 2 * Rabs (smp (packed_dft M g) j))).
    - apply n2_le. intros j Hj. unfold p0. rewrite Rabs_mult. apply Rmult_le_compat_r; [apply Rabs_pos|apply weight_real].
    - rewrite n2_scal, n2_abs by lra. apply Rmult_le_compat_l; [lra|]. apply Rle_trans with (1 := parseval h g h_pos). apply Rmult_le_compat_l; [lra|apply g_norm].
  Qed.
  Lemma t0_norm : n2 M t0 <= 4 * N.
  Proof.
    destruct r_facts as ((R1 & R2) & (M1 & M2) & SQ). pose proof h_pos as Hh. rewrite (n2_ext M t0 (fun j => / INR M * nth j (inverse_packed M p0) 0)) by (intros; unfold t0, Rdiv; ring). rewrite n2_scal by (left; apply Rinv_0_lt_compat; lra).
    apply Rle_trans with (/ INR M * (2 * r * (2 * (r * N)))).
    - apply Rmult_le_compat_l; [left; apply Rinv_0_lt_compat; lra|]. apply Rle_trans with (1 := inverse_norm h p0 Hh). apply Rmult_le_compat_l; [lra|apply p0_norm].
    - replace (/ INR M * (2 * r * (2 * (r * N)))) with (/ INR M * (r * r) * (4 * N)) by ring. rewrite SQ. right. field. lra.
  Qed.
  (** the Hilbert transform *)
  Lemma hilbert_near : exists t, hilbert pf x = Ret (map (fun v => (v, n0)) t) /\ length t = n /\ Forall fin t /\ n2 n (fun j => smp (exact t) j - t0 j) <= 1747 / 100 * e * N.
  Proof.
    destruct buffer_near as (LB & FB & EB). pose proof h_pos as Hh. pose proof n_le as NL. destruct r_facts as ((R1 & R2) & (M1 & M2) & SQ). pose proof (N_pos N HN) as NP. pose proof (e_pos e (E' e E)) as EP. pose proof (e_small e (E' e E)) as ES. pose proof (transforms_fft _ _ A) as A1. pose proof small_126 as S126. pose proof small_tiny as STI. pose proof g_norm as GN. pose proof p0_norm as PN.
    pose proof (u_e' e E) as UE. pose proof u_pos as U. assert (TP : 0 < tiny) by apply bpow_gt_0. assert (EN : 0 < e * N) by nra. assert (RNP : 0 < r * N) by nra. assert (ERN : 0 < e * (r * N)) by nra.
    destruct (forward_of e pf A1 (E' e E) k (buffer pf h x) g N _ Hk ltac:(rewrite HM; exact LB) FB ltac:(rewrite HM; exact GN) N' ltac:(rewrite HM; exact EB) ltac:(lra)) as (LX & FX & EX).
    rewrite HM in LX, EX. set (X := pf_fwd pf (buffer pf h x)) in *. set (X0 := smp (packed_dft M g)) in *.
    assert (EX' : n2 M (fun j => smp (exact X) j - X0 j) <= 235 / 100 * e * (r * N)). { apply Rle_trans with (1 := EX). replace (235 / 100 * e * (r * N)) with (r * (235 / 100 * e * N)) by ring. apply Rmult_le_compat_l; lra. } clear EX.
    assert (NX0 : n2 M X0 <= r * N). { apply Rle_trans with (1 := parseval h g Hh). apply Rmult_le_compat_l; lra. }
    assert (NX : n2 M (smp (exact X)) <= 1003 / 1000 * (r * N)). { apply Rle_trans with (1 := n2_near _ _ _ _ EX'). nra. }
    destruct (hilbert_packed pf h x ltac:(rewrite without_length; exact Hfm) Hh ltac:(rewrite without_length; lia) LX) as (q & Lq & Q & HH). rewrite without_length in Q, HH. fold X in Q.
    assert (XB : forall j, (j < M)%nat -> fin (nth j X n0) /\ Rabs (FR (nth j X n0)) <= p2 40).
    { intros j Hj. split; [rewrite Forall_forall in FX; apply FX, nth_In; lia|]. rewrite <- exact_nth. apply Rle_trans with (1 := n2_term M (smp (exact X)) j Hj). apply Rle_trans with (1 := NX). apply Rle_trans with (2 * (p2 16 * p2 16)); [apply Rmult_le_compat; try nra; apply Rmult_le_compat; lra|]. change 2 with (p2 1). rewrite <- !bpow_plus. apply bpow_le. lia. }
    assert (QV : forall j, (j < M)%nat -> fin (nth j q n0) /\ Rabs (FR (nth j q n0) - weight (T := R) n h j * FR (nth j X n0)) <= 2 * u * Rabs (FR (nth j X n0)) + u * tiny).
    { intros j Hj. rewrite Q by exact Hj. destruct (XB j Hj) as [B1 B2]. destruct (weight_real n h j) as (W1 & W2 & W3).
      assert (WX : Rabs (FR (nth j X n0) * FR (weight (T := F) n h j)) <= 2 * Rabs (FR (nth j X n0))). { rewrite Rabs_mult, W1. pose proof (Rabs_pos (FR (nth j X n0))). nra. }
      destruct (op_val (nmul (nth j X n0) (weight n h j)) (FR (nth j X n0) * FR (weight (T := F) n h j))) as [G1 G2].
      - intros H. apply FR_mul; assumption.
      - apply Rle_trans with (1 := WX). apply Rle_trans with (2 * p2 40); [lra|]. change 2 with (p2 1). rewrite <- bpow_plus. apply bpow_le. lia.
      - split; [exact G1|]. rewrite Rmult_comm, <- W1. apply Rle_trans with (1 := G2). replace (2 * u * Rabs (FR (nth j X n0)) + u * tiny) with (u * (2 * Rabs (FR (nth j X n0)) + tiny)) by ring. apply Rmult_le_compat_l; lra. }
    assert (EQ : n2 M (fun j => smp (exact q) j - p0 j) <= 471 / 100 * e * (r * N)).
    { rewrite (n2_ext M _ (fun j => (smp (exact q) j - weight (T := R) n h j * smp (exact X) j) + weight (T := R) n h j * (smp (exact X) j - X0 j))) by (intros j Hj; unfold p0; fold X0; ring). apply Rle_trans with (1 := n2_plus _ _ _).
      assert (C1 : n2 M (fun j => smp (exact q) j - weight (T := R) n h j * smp (exact X) j) <= 2 * u * (1003 / 1000 * (r * N)) + r * (u * tiny)).
      { apply Rle_trans with (n2 M (fun j => 2 * u * Rabs (smp (exact X) j) + u * tiny)); [apply n2_le; intros j Hj; rewrite !exact_nth; apply QV, Hj|]. apply Rle_trans with (1 := n2_plus M (fun j => 2 * u * Rabs (smp (exact X) j)) (fun _ => u * tiny)). rewrite n2_scal, n2_const, n2_abs by (try lra; apply Rmult_le_pos; lra). apply Rplus_le_compat_r. apply Rmult_le_compat_l; lra. }
      assert (C2 : n2 M (fun j => weight (T := R) n h j * (smp (exact X) j - X0 j)) <= 2 * (235 / 100 * e * (r * N))).
      { apply Rle_trans with (n2 M (fun j => 2 * Rabs (smp (exact X) j - X0 j))); [apply n2_le; intros j Hj; rewrite Rabs_mult; apply Rmult_le_compat_r; [apply Rabs_pos|apply weight_real]|]. rewrite n2_scal, (n2_abs M (fun j => smp (exact X) j - X0 j)) by lra. apply Rmult_le_compat_l; lra. }
      assert (C3 : 2 * u * (1003 / 1000 * (r * N)) <= 2 * (e / 8000) * (1003 / 1000 * (r * N))) by (apply Rmult_le_compat_r; lra).
      assert (C4 : r * (u * tiny) <= 1 / 1000 * e * (r * N)). { replace (r * (u * tiny)) with (u * (r * tiny)) by ring. assert (u <= 1) by (pose proof u_small; lra). assert (0 <= r * tiny) by (apply Rmult_le_pos; lra). assert (u * (r * tiny) <= 1 * (1 / 1000 * e * N)) by (apply Rmult_le_compat; lra). assert (1 * (e * N) <= r * (e * N)) by (apply Rmult_le_compat_r; lra). nra. }
      lra. }
    assert (NQ : n2 M (smp (exact q)) <= 2005 / 1000 * (r * N)). { apply Rle_trans with (1 := n2_near _ _ _ _ EQ). nra. }
    assert (QB : forall j, (j < M)%nat -> fin (nth j q n0) /\ Rabs (FR (nth j q n0)) <= p2 120).
    { intros j Hj. split; [apply QV, Hj|]. rewrite <- exact_nth. apply Rle_trans with (1 := n2_term M (smp (exact q)) j Hj). apply Rle_trans with (1 := NQ). apply Rle_trans with (4 * (p2 16 * p2 16)); [apply Rmult_le_compat; try nra; apply Rmult_le_compat; lra|]. change 4 with (p2 2). rewrite <- !bpow_plus. apply bpow_le. lia. }
    set (qs := map (pf_f32 pf) q) in *. assert (Lqs : length qs = M) by (unfold qs; rewrite map_length; exact Lq).
    assert (QS : forall j, (j < M)%nat -> fin (nth j qs n0) /\ Rabs (smp (exact qs) j - smp (exact q) j) <= e * Rabs (smp (exact q) j) + p2 (-126)).
    { intros j Hj. destruct (QB j Hj) as [B1 B2]. assert (V : nth j qs n0 = pf_f32 pf (nth j q n0)) by (unfold qs; rewrite (nth_indep _ n0 (pf_f32 pf n0)) by (rewrite map_length; lia); apply map_nth). rewrite !exact_nth, V. apply (fft_store _ _ A1); assumption. }
    assert (EQS : n2 M (fun j => smp (exact qs) j - p0 j) <= 672 / 100 * e * (r * N)).
    { rewrite (n2_ext M _ (fun j => (smp (exact qs) j - smp (exact q) j) + (smp (exact q) j - p0 j))) by (intros; ring). apply Rle_trans with (1 := n2_plus _ _ _).
      assert (C1 : n2 M (fun j => smp (exact qs) j - smp (exact q) j) <= e * (2005 / 1000 * (r * N)) + r * p2 (-126)).
      { apply Rle_trans with (n2 M (fun j => e * Rabs (smp (exact q) j) + p2 (-126))); [apply n2_le; intros j Hj; apply QS, Hj|]. apply Rle_trans with (1 := n2_plus M (fun j => e * Rabs (smp (exact q) j)) (fun _ => p2 (-126))). rewrite n2_scal, n2_const, n2_abs by (try apply bpow_ge_0; lra). apply Rplus_le_compat_r. apply Rmult_le_compat_l; lra. }
      assert (1 * (e * N) <= r * (e * N)) by (apply Rmult_le_compat_r; lra). nra. }
    assert (NQS : n2 M (smp (exact qs)) <= 2007 / 1000 * (r * N)). { apply Rle_trans with (1 := n2_near _ _ _ _ EQS). nra. }
    assert (FQS : Forall fin qs). { rewrite Forall_forall. intros y Hy. destruct (In_nth _ _ n0 Hy) as (j & Hj & <-). rewrite Lqs in Hj. apply QS, Hj. }
    assert (SQS : sum (length qs) (fun i => Rabs (smp (exact qs) i)) <= p2 100).
    { rewrite Lqs. rewrite (sum_ext M _ (fun i => 1 * Rabs (smp (exact qs) i))) by (intros; ring). apply Rle_trans with (1 := cauchy M (fun _ => 1) (fun i => Rabs (smp (exact qs) i))). rewrite n2_const, n2_abs by lra.
      apply Rle_trans with (p2 16 * (4 * (p2 16 * p2 16))); [apply Rmult_le_compat; [lra|apply n2_pos|lra|]; apply Rle_trans with (1 := NQS); apply Rmult_le_compat; try nra; apply Rmult_le_compat; lra|]. change 4 with (p2 2). rewrite <- !bpow_plus. apply bpow_le. lia. }
    destruct (fft_backward _ _ A1 k qs Hk ltac:(rewrite HM; exact Lqs) FQS SQS) as (LY & FY & _). pose proof (transforms_backward _ _ A k qs Hk ltac:(rewrite HM; exact Lqs) FQS SQS) as EY. rewrite Lqs in LY, EY. set (Y := pf_bwd pf qs) in *.
    assert (EY' : n2 M (fun j => smp (exact Y) j - nth j (inverse_packed M (smp (exact qs))) 0) <= 4016 / 1000 * e * (INR M * N)).
    { apply n2_bound; [apply Rmult_le_pos; [lra|apply Rmult_le_pos; lra]|]. rewrite (sum_ext M _ (fun j => (FR (nth j Y 0%float) - nth j (inverse_packed M (smp (exact qs))) 0) ^ 2)) by (intros j _; rewrite exact_nth; change (@n0 F _) with 0%float; ring).
      apply Rle_trans with (1 := EY). rewrite (sum_ext M _ (fun i => smp (exact qs) i * smp (exact qs) i)) by (intros; ring). rewrite <- n2_sq.
      assert (T : p2 (-100) <= 1 / 1000 * ((r * N) * (r * N))).
      { assert (p2 (-16) <= r * N) by nra. apply Rle_trans with (1 / 1000 * (p2 (-16) * p2 (-16))); [|apply Rmult_le_compat_l; [lra|apply Rmult_le_compat; try apply bpow_ge_0; lra]]. rewrite <- bpow_plus. apply Rle_trans with (p2 (-10) * p2 (-32)); [rewrite <- bpow_plus; apply bpow_le; lia|apply Rmult_le_compat_r; [apply bpow_ge_0|cbn; lra]]. }
      pose proof (n2_pos M (smp (exact qs))) as NN. set (nq := n2 M (smp (exact qs))) in *. assert (nq * nq <= (2007 / 1000 * (r * N)) * (2007 / 1000 * (r * N))) by (apply Rmult_le_compat; lra).
      assert (W : nq * nq + p2 (-100) <= (2008 / 1000 * (r * N)) * (2008 / 1000 * (r * N))) by nra.
      replace (4016 / 1000 * e * (INR M * N) * (4016 / 1000 * e * (INR M * N))) with (e ^ 2 * (4 * INR M * (2008 / 1000 * (2008 / 1000) * INR M * (N * N)))) by (field).
      assert (W2 : (2008 / 1000 * (r * N)) * (2008 / 1000 * (r * N)) = 2008 / 1000 * (2008 / 1000) * INR M * (N * N)) by (replace (INR M) with (r * r) at 3 by exact SQ; ring). rewrite <- W2.
      apply Rmult_le_compat_l; [nra|]. apply Rmult_le_compat_l; [lra|exact W]. }
    assert (EI : n2 M (fun j => nth j (inverse_packed M (smp (exact qs))) 0 - nth j (inverse_packed M p0) 0) <= 1344 / 100 * e * (INR M * N)).
    { rewrite (n2_ext M _ (fun j => nth j (inverse_packed M (fun i => smp (exact qs) i - p0 i)) 0)) by (intros j Hj; apply inverse_linear; assumption). apply Rle_trans with (1 := inverse_norm h _ Hh). apply Rle_trans with (2 * r * (672 / 100 * e * (r * N))); [apply Rmult_le_compat_l; lra|]. right. replace (INR M * N) with (r * r * N) by (rewrite SQ; reflexivity). field. }
    assert (IM : 0 < / INR M) by (apply Rinv_0_lt_compat; lra).
    assert (EYM : n2 M (fun j => smp (exact Y) j / INR M - t0 j) <= 1746 / 100 * e * N).
    { rewrite (n2_ext M _ (fun j => / INR M * (smp (exact Y) j - nth j (inverse_packed M p0) 0))) by (intros; unfold t0, Rdiv; ring). rewrite n2_scal by lra.
      rewrite (n2_ext M _ (fun j => (smp (exact Y) j - nth j (inverse_packed M (smp (exact qs))) 0) + (nth j (inverse_packed M (smp (exact qs))) 0 - nth j (inverse_packed M p0) 0))) by (intros; ring).
      apply Rle_trans with (/ INR M * (1746 / 100 * e * (INR M * N))); [|right; field; lra]. apply Rmult_le_compat_l; [lra|]. apply Rle_trans with (1 := n2_plus _ _ _). assert (0 < e * (INR M * N)) by (apply Rmult_lt_0_compat; [lra|apply Rmult_lt_0_compat; lra]). lra. }
    assert (NYM : n2 M (fun j => smp (exact Y) j / INR M) <= 402 / 100 * N). { apply Rle_trans with (1 := n2_near _ _ _ _ EYM). pose proof t0_norm. nra. }
    destruct (scale_exact k Hk) as [SC1 SC2]. rewrite HM in SC1, SC2. set (c := @ndiv F _ n1 (nofnat M)) in *.
    set (t := map (fun v => nmul v c) (firstn n Y)). assert (LF : length (firstn n Y) = n) by (rewrite firstn_length; lia).
    assert (TV : forall j, (j < n)%nat -> fin (nth j t n0) /\ Rabs (smp (exact t) j - smp (exact Y) j / INR M) <= u * Rabs (smp (exact Y) j / INR M) + u * tiny).
    { intros j Hj. assert (V : nth j t n0 = nmul (nth j Y n0) c). { unfold t. set (f := fun v : F => nmul v c). rewrite (nth_indep _ n0 (f n0)) by (rewrite map_length; lia). rewrite (map_nth f). unfold f. f_equal. rewrite <- (firstn_skipn n Y) at 2. rewrite app_nth1 by lia. reflexivity. }
      rewrite !exact_nth, V. assert (Fy : fin (nth j Y n0)) by (rewrite Forall_forall in FY; apply FY, nth_In; lia).
      replace (FR (nth j Y n0) / INR M) with (FR (nth j Y n0) * FR c) by (rewrite SC1; reflexivity).
      destruct (op_val (nmul (nth j Y n0) c) (FR (nth j Y n0) * FR c)) as [G1 G2].
      - intros H. apply FR_mul; assumption.
      - rewrite SC1. change (FR (nth j Y n0) * / INR M) with (FR (nth j Y n0) / INR M). rewrite <- exact_nth. apply Rle_trans with (1 := n2_term M (fun j => smp (exact Y) j / INR M) j ltac:(lia)). apply Rle_trans with (1 := NYM). apply Rle_trans with (8 * p2 16); [lra|]. change 8 with (p2 3). rewrite <- bpow_plus. apply bpow_le. lia.
      - split; [exact G1|]. lra. }
    exists t. split; [|split; [|split]].
    - rewrite HH. fold c. apply (f_equal (@Ret _)). unfold t. rewrite map_map. reflexivity.
    - unfold t. rewrite map_length. exact LF.
    - rewrite Forall_forall. intros y Hy. destruct (In_nth _ _ n0 Hy) as (j & Hj & <-). apply TV. unfold t in Hj. rewrite map_length, LF in Hj. exact Hj.
    - rewrite (n2_ext n _ (fun j => (smp (exact t) j - smp (exact Y) j / INR M) + (smp (exact Y) j / INR M - t0 j))) by (intros; ring). apply Rle_trans with (1 := n2_plus _ _ _).
      assert (C1 : n2 n (fun j => smp (exact t) j - smp (exact Y) j / INR M) <= u * (402 / 100 * N) + rn * (u * tiny)).
      { apply Rle_trans with (n2 n (fun j => u * Rabs (smp (exact Y) j / INR M) + u * tiny)); [apply n2_le; intros j Hj; apply TV, Hj|]. apply Rle_trans with (1 := n2_plus n (fun j => u * Rabs (smp (exact Y) j / INR M)) (fun _ => u * tiny)). rewrite n2_scal, n2_const, (n2_abs n (fun j => smp (exact Y) j / INR M)) by (try lra; apply Rmult_le_pos; lra). apply Rplus_le_compat_r. apply Rmult_le_compat_l; [lra|]. apply Rle_trans with (2 := NYM). apply n2_mono, NL. }
      assert (C2 : n2 n (fun j => smp (exact Y) j / INR M - t0 j) <= 1746 / 100 * e * N) by (apply Rle_trans with (2 := EYM); apply n2_mono, NL).
      assert (C3 : u * (402 / 100 * N) <= e / 8000 * (402 / 100 * N)) by (apply Rmult_le_compat_r; lra).
      assert (C4 : rn * (u * tiny) <= 1 / 1000 * e * N). { apply Rle_trans with (2 := STI). apply Rmult_le_compat; [apply sqrt_pos|apply Rmult_le_pos; lra|apply sqrt_le_1_alt, le_INR, NL|]. pose proof u_small. nra. }
      lra.
  Qed.
End Env.
