(** The cross-correlation computed with an FFT of limited accuracy (C108). *)
From Coq Require Import ZArith List Bool Lia Arith Reals Lra Psatz Floats.
From Coq Require Import ZifyBool ZifyNat.
From Flocq Require Import Core.Core IEEE754.BinarySingleNaN IEEE754.PrimFloat.
From Verif Require Import Base.Res Base.Num Base.NumR Base.NumF Base.Lists Base.Cplx Model.MiscMath Model.Fft
  Spec.FftSpec Spec.FftAccSpec Proofs.RealP Proofs.FftP Proofs.DftP Proofs.XcorrP Proofs.B64P Proofs.RoundP Proofs.FftNormP Proofs.FftAccP.
Import ListNotations.
Open Scope R_scope.
Ltac Zify.zify_post_hook ::= Z.div_mod_to_equations.
Local Notation F := PrimFloat.float.
Local Notation p2 := (bpow radix2).

Lemma exact_length l : length (exact l) = length l. Proof. apply map_length. Qed.
Lemma exact_nth l i : smp (exact l) i = FR (nth i l n0).
Proof. unfold smp, exact. change 0 with (FR (@n0 F _)). apply map_nth. Qed.
Lemma smp_zeros l m i : smp (exact (l ++ repeat n0 m)) i = smp (exact l) i.
Proof.
  rewrite !exact_nth. destruct (Nat.lt_ge_cases i (length l)) as [C|C]; [now rewrite app_nth1|]. rewrite app_nth2, (nth_overflow l) by lia.
  destruct (Nat.lt_ge_cases (i - length l) m) as [D|D]; [now rewrite nth_repeat|rewrite nth_overflow; [reflexivity|rewrite repeat_length; lia]].
Qed.
Lemma size_n2 l M : (length l <= M)%nat -> n2 M (smp l) = size l.
Proof. intros H. unfold n2, size. f_equal. apply sum_extend; [exact H|]. intros i Hi. rewrite smp_out by lia. ring. Qed.
Lemma n2_abs n f : n2 n (fun i => Rabs (f i)) = n2 n f.
Proof. unfold n2. f_equal. apply sum_ext. intros. apply abs_sq. Qed.
Lemma root_of_size k : (5 <= k <= 31)%nat -> 1 <= R_sqrt.sqrt (INR (2 ^ k)) <= p2 16 /\ 32 <= INR (2 ^ k) <= p2 31 /\ INR (2 ^ k) = p2 (Z.of_nat k) /\ R_sqrt.sqrt (INR (2 ^ k)) * R_sqrt.sqrt (INR (2 ^ k)) = INR (2 ^ k).
Proof.
  intros H. assert (E : INR (2 ^ k) = p2 (Z.of_nat k)). { rewrite pow_INR. rewrite bpow_powerRZ. change (INR 2) with 2. change (IZR radix2) with 2. rewrite <- pow_powerRZ. reflexivity. }
  assert (B : p2 5 <= INR (2 ^ k) <= p2 31) by (rewrite E; split; apply bpow_le; lia). assert (B5 : p2 5 = 32) by (cbn; lra).
  split; [|split; [lra|split; [exact E|apply sqrt_sqrt; lra]]]. split.
  - rewrite <- sqrt_1 at 1. apply sqrt_le_1_alt. lra.
  - replace (p2 16) with (R_sqrt.sqrt (p2 32)) by (replace 32%Z with (16 + 16)%Z by reflexivity; rewrite bpow_plus; apply sqrt_square, bpow_ge_0). apply sqrt_le_1_alt. apply Rle_trans with (1 := proj2 B). apply bpow_le. lia.
Qed.

Section Acc.
  Variables (e : R) (pf : pffft F).
  Hypothesis A : accurate_fft e pf.
  Hypothesis E : p2 (-40) <= e <= p2 (-10).
  Lemma e_pos : 0 < e. Proof. pose proof (bpow_gt_0 radix2 (-40)). lra. Qed.
  Lemma e_small : e <= 1 / 1000. Proof. assert (p2 (-10) <= 1 / 1000) by (cbn; lra). lra. Qed.

  Definition padF (M : nat) (s : list F) : list F := s ++ repeat n0 (M - length s).
  Lemma store_near k s B : (5 <= k <= 31)%nat -> (length s <= 2 ^ k)%nat -> Forall fin s -> size (exact s) <= B -> p2 (-20) <= B <= p2 20 ->
    Forall fin (map (pf_f32 pf) (padF (2 ^ k) s)) /\
    n2 (2 ^ k) (fun i => smp (exact (map (pf_f32 pf) (padF (2 ^ k) s))) i - smp (exact s) i) <= 1001 / 1000 * e * B.
  Proof.
    intros Hk Hl Fs HsB Hs. set (M := (2 ^ k)%nat) in *. pose proof e_pos as EP. destruct (root_of_size k Hk) as ((R1 & R2) & _). fold M in R1, R2.
    assert (Lp : length (padF M s) = M) by (unfold padF; rewrite app_length, repeat_length; lia).
    assert (V : forall x, In x (padF M s) -> fin x /\ Rabs (FR x) <= p2 120).
    { intros x Hx. apply in_app_or in Hx. destruct Hx as [Hx|Hx].
      - split; [rewrite Forall_forall in Fs; auto|]. destruct (In_nth _ _ n0 Hx) as (i & Hi & <-). rewrite <- exact_nth. apply Rle_trans with (n2 M (smp (exact s))); [apply n2_term; lia|]. rewrite size_n2 by (rewrite exact_length; exact Hl). apply Rle_trans with (1 := HsB). apply Rle_trans with (1 := proj2 Hs). apply bpow_le. lia.
      - apply repeat_spec in Hx. subst x. split; [reflexivity|]. change (FR n0) with 0. rewrite Rabs_R0. apply bpow_ge_0. }
    assert (W : forall i, (i < M)%nat -> Rabs (smp (exact (map (pf_f32 pf) (padF M s))) i - smp (exact s) i) <= e * Rabs (smp (exact s) i) + p2 (-126)).
    { intros i Hi. rewrite <- (smp_zeros s (M - length s) i). fold (padF M s). rewrite !exact_nth. rewrite (nth_indep _ n0 (pf_f32 pf n0)) by (rewrite map_length; lia). rewrite map_nth. destruct (V (nth i (padF M s) n0)) as [V1 V2]; [apply nth_In; lia|]. apply (fft_store _ _ A); assumption. }
    split.
    - rewrite Forall_map, Forall_forall. intros x Hx. destruct (V x Hx) as [V1 V2]. apply (fft_store _ _ A); assumption.
    - apply Rle_trans with (1 := n2_le _ _ _ W). apply Rle_trans with (1 := n2_plus M (fun i => e * Rabs (smp (exact s) i)) (fun _ => p2 (-126))). rewrite n2_scal, n2_const, n2_abs, size_n2 by (try apply bpow_ge_0; try lra; rewrite exact_length; exact Hl).
      assert (T : R_sqrt.sqrt (INR M) * p2 (-126) <= p2 (-110)). { replace (-110)%Z with (16 + -126)%Z by reflexivity. rewrite bpow_plus. apply Rmult_le_compat_r; [apply bpow_ge_0|exact R2]. }
      assert (G : p2 (-110) <= 1 / 1000 * (p2 (-40) * p2 (-20))). { rewrite <- bpow_plus. apply Rle_trans with (p2 (-10) * p2 (-60)); [rewrite <- bpow_plus; apply bpow_le; lia|]. apply Rmult_le_compat_r; [apply bpow_ge_0|cbn; lra]. }
      assert (p2 (-40) * p2 (-20) <= e * B) by (apply Rmult_le_compat; try apply bpow_ge_0; lra). assert (e * size (exact s) <= e * B) by (apply Rmult_le_compat_l; lra). lra.
  Qed.
  (** the transform of any buffer that is close to a signal *)
  Lemma forward_of k x (g : nat -> R) N D : (5 <= k <= 31)%nat -> length x = (2 ^ k)%nat -> Forall fin x -> n2 (2 ^ k) g <= N -> p2 (-20) <= N <= p2 20 ->
    n2 (2 ^ k) (fun i => smp (exact x) i - g i) <= D -> D <= 29 / 10 * e * N ->
    let X := pf_fwd pf x in
    length X = (2 ^ k)%nat /\ Forall fin X /\ n2 (2 ^ k) (fun j => smp (exact X) j - smp (packed_dft (2 ^ k) g) j) <= R_sqrt.sqrt (INR (2 ^ k)) * (1004 / 1000 * e * N + D).
  Proof.
    intros Hk Lx Fx HsN Hs Ex HD X. pose proof e_pos as EP. pose proof e_small as ES. destruct (root_of_size k Hk) as ((R1 & R2) & (M1 & M2) & _ & SQ).
    set (M := (2 ^ k)%nat) in *. set (r := R_sqrt.sqrt (INR M)) in *.
    assert (NP : 0 < N) by (pose proof (bpow_gt_0 radix2 (-20)); lra).
    assert (Nx : n2 M (smp (exact x)) <= 1003 / 1000 * N).
    { apply Rle_trans with (1 := n2_near _ _ _ _ Ex). nra. }
    destruct (fft_forward _ _ A k x Hk Lx Fx) as (L1 & F1 & E1).
    { rewrite <- (size_n2 _ M) by (rewrite exact_length; lia). apply Rle_trans with (1 := Nx). apply Rle_trans with (2 * p2 20); [lra|]. change 2 with (p2 1). rewrite <- bpow_plus. apply bpow_le. lia. }
    rewrite Lx in L1, E1. fold X in L1, F1, E1. split; [exact L1|]. split; [exact F1|].
    assert (P1 : n2 M (fun j => smp (exact X) j - smp (packed_dft M (smp (exact x))) j) <= 1004 / 1000 * e * (r * N)).
    { apply n2_bound; [apply Rmult_le_pos; nra|]. rewrite (sum_ext M _ (fun j => (FR (nth j X 0%float) - smp (packed_dft M (smp (exact x))) j) ^ 2)) by (intros j _; rewrite exact_nth; change (@n0 F _) with 0%float; ring).
      apply Rle_trans with (1 := E1). rewrite <- SQ. rewrite (sum_ext M _ (fun i => smp (exact x) i * smp (exact x) i)) by (intros; ring). rewrite <- n2_sq.
      assert (T : p2 (-100) <= 1 / 1000 * (N * N)). { apply Rle_trans with (1 / 1000 * (p2 (-20) * p2 (-20))); [|apply Rmult_le_compat_l; [lra|apply Rmult_le_compat; try apply bpow_ge_0; lra]]. rewrite <- bpow_plus. apply Rle_trans with (p2 (-10) * p2 (-40)); [rewrite <- bpow_plus; apply bpow_le; lia|apply Rmult_le_compat_r; [apply bpow_ge_0|cbn; lra]]. }
      pose proof (n2_pos M (smp (exact x))) as NN. set (nx := n2 M (smp (exact x))) in *. assert (nx * nx <= (1003 / 1000 * N) * (1003 / 1000 * N)) by (apply Rmult_le_compat; lra).
      assert (Q : nx * nx + p2 (-100) <= (1004 / 1000 * N) * (1004 / 1000 * N)) by nra.
      replace (1004 / 1000 * e * (r * N) * (1004 / 1000 * e * (r * N))) with (e ^ 2 * (r * r * (1004 / 1000 * N * (1004 / 1000 * N)))) by ring.
      apply Rmult_le_compat_l; [nra|]. apply Rmult_le_compat_l; [nra|exact Q]. }
    assert (HH : exists h, M = (2 * h)%nat /\ (1 <= h)%nat). { unfold M. destruct k as [|k']; [lia|]. exists (2 ^ k')%nat. split; [reflexivity|]. assert (2 ^ k' <> 0)%nat by (apply Nat.pow_nonzero; lia). lia. }
    destruct HH as (h & EM & Hh).
    assert (P2 : n2 M (fun j => smp (packed_dft M (smp (exact x))) j - smp (packed_dft M g) j) <= r * D).
    { rewrite (n2_ext M _ (smp (packed_dft M (fun i => smp (exact x) i - g i)))) by (intros j Hj; rewrite EM in *; apply packed_linear; assumption).
      apply Rle_trans with (r * n2 M (fun i => smp (exact x) i - g i)); [unfold r; rewrite EM; apply parseval, Hh|]. apply Rmult_le_compat_l; [lra|exact Ex]. }
    rewrite (n2_ext M _ (fun j => (smp (exact X) j - smp (packed_dft M (smp (exact x))) j) + (smp (packed_dft M (smp (exact x))) j - smp (packed_dft M g) j))) by (intros; ring).
    apply Rle_trans with (1 := n2_plus _ _ _). lra.
  Qed.
  Lemma forward_near k s N : (5 <= k <= 31)%nat -> (length s <= 2 ^ k)%nat -> Forall fin s -> size (exact s) <= N -> p2 (-20) <= N <= p2 20 ->
    let X := pf_fwd pf (map (pf_f32 pf) (padF (2 ^ k) s)) in
    length X = (2 ^ k)%nat /\ Forall fin X /\ n2 (2 ^ k) (fun j => smp (exact X) j - smp (packed_dft (2 ^ k) (smp (exact s))) j) <= 21 / 10 * e * (R_sqrt.sqrt (INR (2 ^ k)) * N).
  Proof.
    intros Hk Hl Fs HsN Hs X. destruct (store_near k s N Hk Hl Fs HsN Hs) as [Fx Ex]. pose proof e_pos as EP. destruct (root_of_size k Hk) as ((R1 & R2) & _).
    assert (NP : 0 < N) by (pose proof (bpow_gt_0 radix2 (-20)); lra). assert (EN : 0 < e * N) by nra.
    destruct (forward_of k (map (pf_f32 pf) (padF (2 ^ k) s)) (smp (exact s)) N _ Hk ltac:(unfold padF; rewrite map_length, app_length, repeat_length; lia) Fx ltac:(rewrite size_n2 by (rewrite exact_length; exact Hl); exact HsN) Hs Ex ltac:(lra)) as (L1 & F1 & E1).
    split; [exact L1|]. split; [exact F1|]. apply Rle_trans with (1 := E1). replace (21 / 10 * e * (R_sqrt.sqrt (INR (2 ^ k)) * N)) with (R_sqrt.sqrt (INR (2 ^ k)) * (21 / 10 * e * N)) by ring. apply Rmult_le_compat_l; lra.
  Qed.
End Acc.
