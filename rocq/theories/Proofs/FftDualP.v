(** The backward transform of limited size in the mean square (C109). *)
From Coq Require Import ZArith List Bool Lia Arith Reals Lra Psatz.
From Coq Require Import ZifyBool ZifyNat.
From Verif Require Import Base.Res Base.Num Base.NumR Base.Lists Base.Cplx Model.MiscMath Model.Fft
  Spec.FftSpec Proofs.RealP Proofs.FftP Proofs.DftP Proofs.XcorrP Proofs.FftNormP.
Import ListNotations.
Open Scope R_scope.
Ltac Zify.zify_post_hook ::= Z.div_mod_to_equations.

Lemma sum_minus n f g : sum n (fun i => f i - g i) = sum n f - sum n g.
Proof. induction n as [|n IH]; cbn [sum]; [ring|]. rewrite IH. ring. Qed.
Definition twice (p : nat -> R) (j : nat) : R := if Nat.ltb j 2 then p j else 2 * p j.
Lemma inverse_dual h p z : (1 <= h)%nat ->
  sum (2 * h) (fun n => z n * nth n (inverse_packed (2 * h) p) 0) = sum (2 * h) (fun j => twice p j * smp (packed_dft (2 * h) z) j).
Proof.
  intros Hh. destruct (packed_nth h z Hh) as (Z0 & Z1 & Z2). assert (Hi : INR h <> 0) by (apply not_0_INR; lia).
  rewrite (sum_ext (2 * h) _ (fun n => p 0%nat * (z n * cos (angle (2 * h) 0 n)) + (p 1%nat * (z n * cos (angle (2 * h) h n)) +
    sum (h - 1) (fun i => 2 * p (2 * S i)%nat * (z n * cos (angle (2 * h) (S i) n)) - 2 * p (2 * S i + 1)%nat * (z n * sin (angle (2 * h) (S i) n)))))).
  2:{ intros n Hn. unfold inverse_packed. rewrite nth_map_seq by exact Hn. replace (2 * h / 2 - 1)%nat with (h - 1)%nat by lia. cbv zeta.
      replace (angle (2 * h) 0 n) with 0 by (unfold angle; cbn [INR]; unfold Rdiv; ring). rewrite cos_0. replace (angle (2 * h) h n) with (PI * INR n) by (rewrite angle_h by exact Hh; field; exact Hi).
      assert (SS : sum (h - 1) (fun i => 2 * p (2 * S i)%nat * (z n * cos (angle (2 * h) (S i) n)) - 2 * p (2 * S i + 1)%nat * (z n * sin (angle (2 * h) (S i) n))) =
        z n * sum (h - 1) (fun i => 2 * (p (2 * S i)%nat * cos (angle (2 * h) (S i) n) - p (2 * S i + 1)%nat * sin (angle (2 * h) (S i) n)))) by (rewrite <- sum_scal; apply sum_ext; intros; ring).
      rewrite SS. ring. }
  rewrite !sum_plus, !sum_scal, sum_exchange. fold (dft_re (2 * h) z 0). fold (dft_re (2 * h) z h).
  rewrite (sum_ext (h - 1) _ (fun i => 2 * p (2 * S i)%nat * dft_re (2 * h) z (S i) + 2 * p (2 * S i + 1)%nat * dft_im (2 * h) z (S i))).
  2:{ intros i Hi'. rewrite sum_minus, !sum_scal. unfold dft_re, dft_im. ring. }
  rewrite sum_pairs, (sum_head h) by exact Hh. change (2 * 0)%nat with 0%nat. change (0 + 1)%nat with 1%nat. unfold smp. rewrite Z0, Z1. unfold twice at 1 2. cbn [Nat.ltb Nat.leb].
  rewrite (sum_ext (h - 1) (fun i => twice p (2 * S i) * _ + _) (fun i => 2 * p (2 * S i)%nat * dft_re (2 * h) z (S i) + 2 * p (2 * S i + 1)%nat * dft_im (2 * h) z (S i))); [ring|].
  intros i Hi'. destruct (Z2 (S i) ltac:(lia)) as [-> ->]. unfold twice. replace (Nat.ltb (2 * S i) 2) with false by lia. replace (Nat.ltb (2 * S i + 1) 2) with false by lia. reflexivity.
Qed.
Lemma inverse_norm h p : (1 <= h)%nat -> n2 (2 * h) (fun n => nth n (inverse_packed (2 * h) p) 0) <= 2 * sqrt (INR (2 * h)) * n2 (2 * h) p.
Proof.
  intros Hh. set (y := fun n => nth n (inverse_packed (2 * h) p) 0). set (r := sqrt (INR (2 * h))). pose proof (n2_pos (2 * h) y) as YP. pose proof (n2_pos (2 * h) p) as PP. pose proof (sqrt_pos (INR (2 * h)) : 0 <= r) as RP.
  assert (T : n2 (2 * h) (twice p) <= 2 * n2 (2 * h) p).
  { rewrite <- n2_scal by lra. 
    unfold n2. apply sqrt_le_1_alt, sum_le. intros i _. unfold twice. destruct (Nat.ltb i 2); nra. }
  assert (D : n2 (2 * h) y * n2 (2 * h) y <= (2 * n2 (2 * h) p) * (r * n2 (2 * h) y)).
  { rewrite n2_sq. change (sum (2 * h) (fun i => y i * y i)) with (sum (2 * h) (fun n => y n * nth n (inverse_packed (2 * h) p) 0)). rewrite inverse_dual by exact Hh. apply Rle_trans with (1 := cauchy _ _ _).
    apply Rmult_le_compat; [apply n2_pos|apply n2_pos|exact T|]. apply parseval, Hh. }
  destruct (Req_dec (n2 (2 * h) y) 0) as [Z|Z]; [rewrite Z; apply Rmult_le_pos; [apply Rmult_le_pos; lra|exact PP]|]. assert (0 < n2 (2 * h) y) by lra.
  apply Rmult_le_reg_r with (n2 (2 * h) y); [assumption|]. lra.
Qed.
Lemma n2_mono n m f : (n <= m)%nat -> n2 n f <= n2 m f.
Proof. intros H. apply sqrt_le_1_alt. induction H as [|m H IH]; [lra|]. cbn [sum]. nra. Qed.
(** shifting a signal leaves no more of it *)
Lemma sum_shift g m f : sum (g + m) f = sum g f + sum m (fun b => f (g + b)%nat).
Proof. induction m as [|m IH]; [rewrite Nat.add_0_r; cbn; ring|]. rewrite Nat.add_succ_r. cbn [sum]. rewrite IH. ring. Qed.
Lemma shifted_norm l m g M : (length l <= M)%nat -> n2 m (fun b => smpZ l (Z.of_nat b + g)) <= n2 M (smp l).
Proof.
  intros HM. apply Rle_trans with (n2 (length l) (smp l)); [|apply n2_mono; exact HM]. apply sqrt_le_1_alt. set (f := fun i => smp l i * smp l i). assert (Pf : forall i, 0 <= f i) by (intros; unfold f; nra).
  assert (Z : forall i, (length l <= i)%nat -> f i = 0) by (intros i Hi; unfold f; rewrite smp_out by exact Hi; ring).
  assert (ALL : forall k, sum k f <= sum (length l) f).
  { intros k. destruct (Nat.le_ge_cases k (length l)) as [C|C]; [|rewrite (sum_extend (length l) k) by (try exact C; intros; apply Z; lia); lra]. replace (length l) with (k + (length l - k))%nat by lia. rewrite sum_shift. assert (0 <= sum (length l - k) (fun b => f (k + b)%nat)) by (apply sum_nonneg; intros; apply Pf). lra. }
  change (sum m (fun i => smpZ l (Z.of_nat i + g) * smpZ l (Z.of_nat i + g)) <= sum (length l) f).
  destruct (Z.le_gt_cases 0 g) as [G|G].
  - rewrite (sum_ext m _ (fun b => f (Z.to_nat g + b)%nat)). + pose proof (sum_shift (Z.to_nat g) m f) as S0. assert (0 <= sum (Z.to_nat g) f) by (apply sum_nonneg; intros; apply Pf). specialize (ALL (Z.to_nat g + m)%nat). lra.
    + intros b _. unfold smpZ. replace (Z.of_nat b + g <? 0)%Z with false by lia. unfold f. replace (Z.to_nat (Z.of_nat b + g)) with (Z.to_nat g + b)%nat by lia. reflexivity.
  - set (k := Z.to_nat (- g)). assert (LO : forall b, (b < k)%nat -> smpZ l (Z.of_nat b + g) = 0) by (intros b Hb; apply smpZ_out; lia).
    destruct (Nat.le_ge_cases m k) as [C|C].
    + rewrite sum_zero; [apply sum_nonneg; intros; apply Pf|]. intros b Hb. rewrite LO by lia. ring.
    + replace m with (k + (m - k))%nat by lia. rewrite sum_shift, (sum_zero k) by (intros b Hb; rewrite LO by exact Hb; ring).
      rewrite (sum_ext (m - k) _ f). * specialize (ALL (m - k)%nat). lra.
      * intros b _. unfold smpZ. replace (Z.of_nat (k + b) + g <? 0)%Z with false by lia. unfold f. replace (Z.to_nat (Z.of_nat (k + b) + g)) with b by lia. reflexivity.
Qed.
Lemma cross_bound a b g M : (length a <= M)%nat -> (length b <= M)%nat -> Rabs (cross_correlation a b g) <= n2 M (smp a) * n2 M (smp b).
Proof.
  intros Ha Hb. unfold cross_correlation. apply Rle_trans with (1 := sum_abs _ _).
  rewrite (sum_ext _ _ (fun i => Rabs (smpZ a (Z.of_nat i + g)) * Rabs (smp b i))) by (intros; apply Rabs_mult).
  apply Rle_trans with (1 := cauchy _ (fun i => Rabs (smpZ a (Z.of_nat i + g))) (fun i => Rabs (smp b i))).
  assert (AB : forall n f, n2 n (fun i => Rabs (f i)) = n2 n f) by (intros; unfold n2; f_equal; apply sum_ext; intros; apply abs_sq). rewrite !(AB (length b)).
  apply Rmult_le_compat; try apply n2_pos; [apply shifted_norm; exact Ha|apply n2_mono; exact Hb].
Qed.
Lemma cross_diff a b a' b' g : length a = length a' -> length b = length b' ->
  Rabs (cross_correlation a b g - cross_correlation a' b' g) <=
    n2 (Nat.max (length a) (length b)) (fun i => smp a i - smp a' i) * n2 (Nat.max (length a) (length b)) (smp b) + n2 (Nat.max (length a) (length b)) (smp a') * n2 (Nat.max (length a) (length b)) (fun i => smp b i - smp b' i).
Proof.
  intros La Lb. set (M := Nat.max (length a) (length b)).
  set (da := map (fun i => smp a i - smp a' i) (seq 0 (length a))). set (db := map (fun i => smp b i - smp b' i) (seq 0 (length b))).
  assert (Lda : length da = length a) by (unfold da; rewrite map_length, seq_length; reflexivity). assert (Ldb : length db = length b) by (unfold db; rewrite map_length, seq_length; reflexivity).
  assert (Vda : forall i, smp da i = smp a i - smp a' i). { intros i. destruct (Nat.lt_ge_cases i (length a)) as [C|C]; [unfold smp at 1, da; rewrite nth_map_seq by exact C; reflexivity|]. rewrite !smp_out by lia. ring. }
  assert (Vdb : forall i, smp db i = smp b i - smp b' i). { intros i. destruct (Nat.lt_ge_cases i (length b)) as [C|C]; [unfold smp at 1, db; rewrite nth_map_seq by exact C; reflexivity|]. rewrite !smp_out by lia. ring. }
  replace (cross_correlation a b g - cross_correlation a' b' g) with (cross_correlation da b g + cross_correlation a' db g).
  - apply Rle_trans with (1 := Rabs_triang _ _). rewrite <- (n2_ext M (smp da) (fun i => smp a i - smp a' i)) by (intros; apply Vda). rewrite <- (n2_ext M (smp db) (fun i => smp b i - smp b' i)) by (intros; apply Vdb).
    apply Rplus_le_compat; apply cross_bound; unfold M; lia.
  - unfold cross_correlation. rewrite Ldb, <- Lb, <- sum_minus, <- sum_plus. apply sum_ext. intros i _. rewrite Vdb. assert (ZZ : smpZ da (Z.of_nat i + g) = smpZ a (Z.of_nat i + g) - smpZ a' (Z.of_nat i + g)) by (unfold smpZ; destruct (_ <? 0)%Z; [ring|apply Vda]). rewrite ZZ. ring.
Qed.
