(** Finite binary64 numbers below a power of two: every operation, given where its operands lie. *)
From Coq Require Import ZArith List Bool Reals Lra Lia Floats.
From Flocq Require Import Core.Core IEEE754.BinarySingleNaN IEEE754.PrimFloat.
From Verif Require Import Base.Num Base.NumR Base.NumF Proofs.B64P Proofs.ScoresP Proofs.RoundP.
Import ListNotations.
Open Scope R_scope.

Definition bd (k : Z) (x : PrimFloat.float) : Prop := fin x /\ Rabs (FR x) <= bpow radix2 k.

Lemma bd_weaken j k x : bd j x -> (j <= k)%Z -> bd k x.
Proof. intros [F H] L. split; [exact F|]. apply Rle_trans with (1 := H), bpow_le, L. Qed.
Lemma rnd_scaled m k z : (0 <= m < 2 ^ 53)%Z -> (-1074 <= k)%Z -> Rabs z <= IZR m * bpow radix2 k -> Rabs (rnd z) <= IZR m * bpow radix2 k.
Proof.
  intros Hm Hk H. apply Rabs_le. apply Rabs_le_inv in H. destruct H as [H1 H2].
  apply rnd_le in H1. apply rnd_le in H2. rewrite (rnd_exact m k (IZR m * bpow radix2 k)) in H2 by (reflexivity || lia).
  rewrite (rnd_exact (- m) k (- (IZR m * bpow radix2 k))) in H1 by (lia || (rewrite opp_IZR; ring)). lra.
Qed.
Lemma rnd_bd k z : (-1074 <= k)%Z -> Rabs z <= bpow radix2 k -> Rabs (rnd z) <= bpow radix2 k.
Proof. intros Hk H. rewrite <- (Rmult_1_l (bpow radix2 k)). apply (rnd_scaled 1 k); [lia|exact Hk|lra]. Qed.
Lemma bd_op k x z : (-1074 <= k < 1024)%Z -> Rabs z <= bpow radix2 k -> (Rabs (rnd z) < fmax -> FR x = rnd z /\ fin x) -> bd k x.
Proof.
  intros Hk Hz H. pose proof (rnd_bd k z ltac:(lia) Hz) as B. destruct H as [E F].
  - apply Rle_lt_trans with (1 := B). unfold fmax. apply bpow_lt. change emax with 1024%Z. lia.
  - split; [exact F|]. rewrite E. exact B.
Qed.
Lemma bpow_double k : bpow radix2 k + bpow radix2 k = bpow radix2 (k + 1).
Proof. rewrite bpow_plus. change (bpow radix2 1) with 2. ring. Qed.
Lemma bd_add k x y : (-1074 <= k < 1023)%Z -> bd k x -> bd k y -> bd (k + 1) (PrimFloat.add x y).
Proof.
  intros Hk [FX X] [FY Y]. apply (bd_op (k + 1) _ (FR x + FR y)); [lia| |apply FR_add; assumption].
  apply Rle_trans with (1 := Rabs_triang _ _). rewrite <- bpow_double. lra.
Qed.
Lemma bd_sub k x y : (-1074 <= k < 1023)%Z -> bd k x -> bd k y -> bd (k + 1) (PrimFloat.sub x y).
Proof.
  intros Hk [FX X] [FY Y]. apply (bd_op (k + 1) _ (FR x - FR y)); [lia| |apply FR_sub; assumption].
  unfold Rminus. apply Rle_trans with (1 := Rabs_triang _ _). rewrite Rabs_Ropp, <- bpow_double. lra.
Qed.
Lemma bd_mul j k x y : (-1074 <= j + k < 1024)%Z -> bd j x -> bd k y -> bd (j + k) (PrimFloat.mul x y).
Proof.
  intros Hk [FX X] [FY Y]. apply (bd_op (j + k) _ (FR x * FR y)); [lia| |apply FR_mul; assumption].
  rewrite Rabs_mult, bpow_plus. apply Rmult_le_compat; try apply Rabs_pos; assumption.
Qed.
Lemma bd_div j m x y : (-1074 <= j - m < 1024)%Z -> bd j x -> bpow radix2 m <= FR y -> bd (j - m) (PrimFloat.div x y).
Proof.
  intros Hk [FX X] Y. pose proof (bpow_gt_0 radix2 m) as P. apply (bd_op (j - m) _ (FR x / FR y)); [lia| |apply FR_div; [exact FX|lra]].
  unfold Rdiv. rewrite Rabs_mult, (Rabs_pos_eq (/ FR y)) by (left; apply Rinv_0_lt_compat; lra).
  unfold Z.sub. rewrite bpow_plus, bpow_opp. apply Rmult_le_compat; [apply Rabs_pos|left; apply Rinv_0_lt_compat; lra|exact X|]. apply Rinv_le; lra.
Qed.
Lemma bd_ofZ z k : (Z.abs z <= 2 ^ k)%Z -> (0 <= k < 53)%Z -> bd k (F_ofZ z).
Proof.
  intros H Hk. assert (2 ^ k < 2 ^ 53)%Z by (apply Z.pow_lt_mono_r; lia). destruct (FR_ofZ z ltac:(lia)) as [E F].
  split; [exact F|]. rewrite E, <- abs_IZR. rewrite <- (IZR_Zpower radix2) by lia. apply IZR_le. exact H.
Qed.

(** sums of up to 2^n numbers *)
Lemma bd_fold k : (-1074 <= k)%Z -> (k < 960)%Z -> forall l x m, (0 <= m)%Z -> (m + Z.of_nat (length l) < 2 ^ 53)%Z -> Forall (bd k) l ->
  fin x -> Rabs (FR x) <= IZR m * bpow radix2 k ->
  fin (fold_left PrimFloat.add l x) /\ Rabs (FR (fold_left PrimFloat.add l x)) <= IZR (m + Z.of_nat (length l)) * bpow radix2 k.
Proof.
  intros K1 K2. induction l as [|y l IH]; intros x m Hm HN HF Fx Hx; [cbn; rewrite Z.add_0_r; auto|].
  inversion HF as [|? ? [Fy Hy] F2]; subst. cbn [fold_left length] in *. replace (m + Z.of_nat (S (length l)))%Z with (m + 1 + Z.of_nat (length l))%Z by lia.
  assert (S : Rabs (rnd (FR x + FR y)) <= IZR (m + 1) * bpow radix2 k).
  { apply rnd_scaled; [lia|exact K1|]. apply Rle_trans with (1 := Rabs_triang _ _). rewrite plus_IZR. lra. }
  destruct (FR_add x y Fx Fy) as [E F].
  - apply Rle_lt_trans with (1 := S). apply Rlt_le_trans with (bpow radix2 53 * bpow radix2 k).
    + apply Rmult_lt_compat_r; [apply bpow_gt_0|]. change (bpow radix2 53) with (IZR (2 ^ 53)). apply IZR_lt. lia.
    + unfold fmax. rewrite <- bpow_plus. apply bpow_le. change emax with 1024%Z. lia.
  - apply IH; [lia|lia|exact F2|exact F|]. rewrite E. exact S.
Qed.
Lemma bd_sum k n (l : list PrimFloat.float) : (-1074 <= k)%Z -> (k < 960)%Z -> (0 <= n <= 52)%Z -> (Z.of_nat (length l) <= 2 ^ n)%Z -> Forall (bd k) l -> bd (k + n) (nsum l).
Proof.
  intros K1 K2 Hn HL HF. unfold nsum. destruct (FR_ofZ 0 ltac:(lia)) as [E F].
  assert (2 ^ n <= 2 ^ 52)%Z by (apply Z.pow_le_mono_r; lia).
  destruct (bd_fold k K1 K2 l (F_ofZ 0) 0 ltac:(lia) ltac:(lia) HF F) as [G B]; [rewrite E, Rabs_R0; lra|].
  split; [exact G|]. apply Rle_trans with (1 := B). rewrite Z.add_0_l, Z.add_comm, bpow_plus. apply Rmult_le_compat_r; [apply bpow_ge_0|].
  rewrite <- (IZR_Zpower radix2) by lia. apply IZR_le. exact HL.
Qed.
(** means *)
Lemma bd_mean k (l : list PrimFloat.float) : (-1000 <= k < 900)%Z -> l <> [] -> (Z.of_nat (length l) <= 2 ^ 31)%Z -> Forall (bd k) l -> bd (k + 31) (ndiv (nsum l) (nofnat (length l))).
Proof.
  intros K HL HN HF. pose proof (bd_sum k 31 l ltac:(lia) ltac:(lia) ltac:(lia) HN HF) as S.
  unfold nofnat. cbn [ndiv nofZ NumF]. destruct (FR_ofZ (Z.of_nat (length l)) ltac:(lia)) as [E _].
  replace (k + 31)%Z with (k + 31 - 0)%Z by lia. apply bd_div; [lia|exact S|]. rewrite E. change (bpow radix2 0) with 1. apply IZR_le. destruct l; [congruence|cbn [length]; lia].
Qed.
Lemma bd_fin k x : bd k x -> fin x. Proof. intros [F _]. exact F. Qed.
Lemma fin_self x : fin x -> neqb x x = true.
Proof.
  unfold fin. cbn [neqb NumF]. rewrite eqb_equiv. intros F. rewrite Beqb_correct by assumption. apply Raux.Req_bool_true. reflexivity.
Qed.
