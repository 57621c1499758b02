(** The root mean square in binary64 (C114). *)
From Coq Require Import ZArith List Bool Reals Lra Lia Floats Psatz ZifyNat.
From Flocq Require Import Core.Core IEEE754.BinarySingleNaN IEEE754.PrimFloat.
From Verif Require Import Base.Res Base.Num Base.NumF Base.NumR Base.Lists Base.Mat Model.Amatrix Model.MiscMath Model.FilterBank Spec.StatSpec Spec.FilterAccSpec
  Proofs.B64P Proofs.ScoresP Proofs.RoundP Proofs.FiniteNsimP Proofs.StableP Proofs.FilterBandP.
Import ListNotations.
Open Scope R_scope.

(** *** exact *)
Lemma same_length {A B : Type} (P : A -> B -> Prop) l m : Forall2 P l m -> length l = length m.
Proof. intros H. induction H as [|a b l m _ _ IH]; [reflexivity|]. cbn [length]. rewrite IH. reflexivity. Qed.
Lemma total_sum : forall (l : list R) x, fold_left Rplus l x = x + total l.
Proof. unfold total. induction l as [|y l IH]; intros x; cbn [fold_left fold_right]; [ring|]. rewrite IH. ring. Qed.
Lemma rms_model (l : list R) : row_rms l = rms l.
Proof.
  unfold row_rms, vmean, rms, sum_sq, nsum. cbn [nsqrt ndiv nadd NumR]. rewrite map_length. unfold nofnat. cbn [nofZ NumR]. rewrite <- INR_IZR_INZ.
  rewrite total_sum. f_equal. f_equal. change (@n0 R NumR) with 0. rewrite Rplus_0_l. reflexivity.
Qed.
Lemma sum_sq_pos l : 0 <= sum_sq l.
Proof. unfold sum_sq, total. induction l as [|x l IH]; cbn [map fold_right]; [lra|]. pose proof (Rle_0_sqr x) as H. unfold Rsqr in H. lra. Qed.
Lemma sum_le_sq (l : list R) : total (map Rabs l) * total (map Rabs l) <= INR (length l) * sum_sq l.
Proof.
  unfold sum_sq, total. induction l as [|x l IH]; [cbn [map fold_right length INR]; lra|]. cbn [map fold_right length]. rewrite S_INR.
  set (s := fold_right Rplus 0 (map Rabs l)) in *. set (q := fold_right Rplus 0 (map (fun x => x * x) l)) in *. set (n := INR (length l)) in *.
  assert (N0 : 0 <= n) by apply pos_INR. assert (XX : x * x = Rabs x * Rabs x) by (rewrite <- Rabs_mult; symmetry; apply Rabs_pos_eq, Rle_0_sqr). rewrite XX. set (a := Rabs x) in *.
  assert (Q0 : 0 <= q) by apply (sum_sq_pos l).
  enough (2 * s * a <= n * (a * a) + q) by nra.
  destruct (Req_dec n 0) as [E|E].
  - assert (s = 0) by (rewrite E in IH; nra). nra.
  - assert (0 < n) by lra. apply Rmult_le_reg_l with n; [assumption|]. pose proof (Rle_0_sqr (n * a - s)) as K. unfold Rsqr in K. nra.
Qed.
Lemma rms_step D (l m : list R) : 0 <= D -> Forall2 (fun a b => Rabs (a - b) <= D) l m -> (0 < length l)%nat -> rms l <= rms m + D.
Proof.
  intros HD HF HN. assert (LE : length l = length m) by (eapply same_length; exact HF).
  assert (S : sum_sq l <= sum_sq m + 2 * D * total (map Rabs m) + INR (length l) * (D * D)).
  { clear HN LE. unfold sum_sq, total. induction HF as [|a b l m H HF IH]; [cbn [map fold_right length INR]; lra|]. cbn [map fold_right length]. rewrite S_INR.
    assert (a * a <= b * b + 2 * D * Rabs b + D * D); [|lra].
    assert (Rabs a <= Rabs b + D) by (replace a with (b + (a - b)) by ring; eapply Rle_trans; [apply Rabs_triang|lra]).
    assert (E : forall z, z * z = Rabs z * Rabs z) by (intros z; rewrite <- Rabs_mult; symmetry; apply Rabs_pos_eq, Rle_0_sqr). rewrite (E a), (E b). pose proof (Rabs_pos a). pose proof (Rabs_pos b). nra. }
  assert (NP : 0 < INR (length l)) by (apply lt_0_INR; exact HN). unfold rms. rewrite <- LE. set (n := INR (length l)) in *.
  pose proof (sum_sq_pos m) as QP. pose proof (sum_le_sq m) as CS. rewrite <- LE in CS. fold n in CS.
  set (t := R_sqrt.sqrt (sum_sq m / n)). assert (T0 : 0 <= t) by apply R_sqrt.sqrt_pos.
  assert (TT : t * t = sum_sq m / n) by (apply R_sqrt.sqrt_sqrt, Rmult_le_pos; [exact QP|left; apply Rinv_0_lt_compat, NP]).
  assert (SM : sum_sq m = n * (t * t)) by (rewrite TT; field; lra).
  set (w := total (map Rabs m)) in *. assert (W : w <= n * t).
  { apply Rnot_lt_le. intros C. assert (0 <= n * t) by (apply Rmult_le_pos; lra). assert (n * t * (n * t) < w * w) by nra. rewrite SM in CS. nra. }
  rewrite <- (R_sqrt.sqrt_square (t + D)) by lra. apply R_sqrt.sqrt_le_1_alt.
  apply Rmult_le_reg_r with n; [exact NP|]. unfold Rdiv. rewrite Rmult_assoc, Rinv_l by lra. rewrite Rmult_1_r. eapply Rle_trans; [exact S|]. rewrite SM. nra.
Qed.
Lemma rms_near D (l m : list R) : 0 <= D -> Forall2 (fun a b => Rabs (a - b) <= D) l m -> (0 < length l)%nat -> Rabs (rms l - rms m) <= D.
Proof.
  intros HD HF HN. pose proof (rms_step D l m HD HF HN). assert (LE : length l = length m) by (eapply same_length; exact HF).
  assert (HF' : Forall2 (fun a b => Rabs (a - b) <= D) m l). { clear -HF. induction HF; constructor; [rewrite Rabs_minus_sym; assumption|assumption]. }
  pose proof (rms_step D m l HD HF' ltac:(lia)). apply Rabs_le. lra.
Qed.
Lemma rms_le Y (l : list R) : 0 <= Y -> (0 < length l)%nat -> Forall (fun x => Rabs x <= Y) l -> 0 <= rms l <= Y.
Proof.
  intros HY HN HF. split; [apply R_sqrt.sqrt_pos|]. pose proof (rms_step Y l (map (fun _ => 0) l) HY) as S.
  assert (Z : rms (map (fun _ => 0) l) = 0).
  { unfold rms. replace (sum_sq (map (fun _ : R => 0) l)) with 0; [unfold Rdiv; rewrite Rmult_0_l; apply R_sqrt.sqrt_0|].
    unfold sum_sq, total. clear. induction l as [|x l IH]; cbn [map fold_right]; [reflexivity|]. rewrite <- IH. ring. }
  rewrite Z, Rplus_0_l in S. apply S; [|exact HN]. clear -HF. induction HF; cbn [map]; constructor; [rewrite Rminus_0_r; assumption|assumption].
Qed.
(** *** rounded *)
Lemma small_part a t b : 0 <= t -> a <= b -> a * t <= b * t.
Proof. intros H K. apply Rmult_le_compat_r; assumption. Qed.
Definition ut : R := u * tiny.
Lemma ut_pos : 0 < ut. Proof. apply Rmult_lt_0_compat; [apply u_pos|apply bpow_gt_0]. Qed.
Lemma any_err z : Rabs (rnd z - z) <= u * Rabs z + ut.
Proof.
  assert (0 < tiny) by apply bpow_gt_0. pose proof (Rabs_pos z). pose proof u_pos. eapply Rle_trans; [apply (rnd_err z (Rabs z + tiny)); lra|]. unfold ut. lra.
Qed.
Lemma any_op (x : PrimFloat.float) z : (Rabs (rnd z) < fmax -> FR x = rnd z /\ fin x) -> Rabs z <= 2 ^ 900 -> fin x /\ Rabs (FR x - z) <= u * Rabs z + ut /\ (0 <= z -> 0 <= FR x).
Proof.
  intros H B. assert (tiny <= 2 ^ 900) by (pose proof tiny_small; assert (1 <= 2 ^ 900) by (apply pow_R1_Rle; lra); lra).
  pose proof pow_big. assert (0 < 2 ^ 900) by (apply pow_lt; lra). destruct (H (rnd_fmax z (2 ^ 900) B ltac:(assumption) ltac:(lra))) as [E F]. split; [exact F|]. rewrite E. split; [apply any_err|apply rnd_nonneg].
Qed.
Section Sum.
  Variables (Z : R).
  Hypotheses (HZ : 0 <= Z <= 2 ^ 870).
  Lemma sum_acc : forall (l : list PrimFloat.float) (x : PrimFloat.float) (t : R) (m : nat), (m + length l <= 2 ^ 20)%nat ->
    Forall (fun y => fin y /\ FR y * FR y <= Z) l -> fin x -> 0 <= t <= INR m * Z -> Rabs (FR x - t) <= INR m * (3 * u * t + 3 * ut) -> 0 <= FR x ->
    let s := fold_left PrimFloat.add (map (@nsq PrimFloat.float NumF) l) x in let n := INR (m + length l) in let t' := t + sum_sq (map FR l) in
    fin s /\ 0 <= t' <= n * Z /\ Rabs (FR s - t') <= n * (3 * u * t' + 3 * ut) /\ 0 <= FR s.
  Proof.
    assert (U0 := u_pos). assert (U1 := u_small). assert (UT := ut_pos).
    assert (T1 : ut <= 1 / 1000000). { unfold ut. pose proof tiny_small. assert (0 < tiny) by apply bpow_gt_0. nra. }
    assert (P870 : 1 <= 2 ^ 870) by (apply pow_R1_Rle; lra).
    assert (P900 : 2 ^ 900 = 1073741824 * 2 ^ 870) by (change 900%nat with (30 + 870)%nat; rewrite pow_add; f_equal; simpl; ring).
    induction l as [|y l IH]; intros x t m HN HF Fx Ht Hx Px.
    - cbn [map fold_left length]. unfold sum_sq, total. cbn [map fold_right]. rewrite Nat.add_0_r, Rplus_0_r. split; [exact Fx|]. split; [exact Ht|]. split; [exact Hx|exact Px].
    - inversion HF as [|? ? [Fy Hy] HF']; subst. cbn [length] in HN |- *. cbn [map fold_left].
      assert (N1 : INR m <= 1048576). { replace 1048576 with (INR (2 ^ 20)) by (rewrite pow_INR; simpl; ring). apply le_INR. lia. }
      pose proof (pos_INR m) as N0. assert (Y0 : 0 <= FR y * FR y) by apply Rle_0_sqr.
      assert (MU : INR m * u <= 1 / 1000000000) by nra. assert (MUT : INR m * (3 * ut) <= 4) by nra.
      assert (TB : t <= 1048576 * 2 ^ 870) by (eapply Rle_trans; [apply Ht|]; apply Rmult_le_compat; lra).
      destruct (any_op (PrimFloat.mul y y) (FR y * FR y) (FR_mul y y Fy Fy)) as (Fq & Eq & Pq); [rewrite Rabs_pos_eq by exact Y0; lra|]. rewrite (Rabs_pos_eq _ Y0) in Eq. set (q := PrimFloat.mul y y) in *.
      assert (X1 : Rabs (FR x - t) <= t + 4). { eapply Rle_trans; [exact Hx|]. rewrite Rmult_plus_distr_l. apply Rplus_le_compat; [|exact MUT]. replace (INR m * (3 * u * t)) with (3 * (INR m * u) * t) by ring. pose proof (small_part (3 * (INR m * u)) t 1 (proj1 Ht) ltac:(lra)). lra. }
      assert (Q1 : Rabs (FR q - FR y * FR y) <= FR y * FR y + 1) by (eapply Rle_trans; [exact Eq|]; pose proof (small_part u (FR y * FR y) 1 Y0 ltac:(lra)); lra).
      assert (Ex : Rabs (FR x + FR q) <= 2 * (t + FR y * FR y) + 5) by tri.
      destruct (any_op (PrimFloat.add x q) (FR x + FR q) (FR_add x q Fx Fq)) as (Fs & Es & Ps); [lra|].
      set (s := PrimFloat.add x q) in *. set (t1 := t + FR y * FR y).
      assert (T1' : 0 <= t1) by (unfold t1; lra).
      assert (B1 : Rabs (FR x + FR q - t1) <= INR m * (3 * u * t + 3 * ut) + (u * (FR y * FR y) + ut)) by (unfold t1; tri).
      assert (S1 : Rabs (FR s - t1) <= INR (S m) * (3 * u * t1 + 3 * ut)).
      { rewrite S_INR.
        assert (B2 : INR m * (3 * u * t + 3 * ut) <= INR m * (3 * u * t1 + 3 * ut)) by (apply Rmult_le_compat_l; [exact N0|]; unfold t1; nra).
        assert (B3 : INR m * (3 * u * t1 + 3 * ut) <= t1 / 100 + INR m * 3 * ut). { replace (INR m * (3 * u * t1 + 3 * ut)) with (3 * (INR m * u) * t1 + INR m * 3 * ut) by ring. pose proof (small_part (3 * (INR m * u)) t1 (1 / 100) T1' ltac:(lra)). lra. }
        assert (B4 : u * (FR y * FR y) <= u * t1) by (apply Rmult_le_compat_l; [lra|unfold t1; lra]).
        assert (B5 : Rabs (FR x + FR q) <= 12 / 10 * t1 + INR m * 3 * ut + ut).
        { pose proof (small_part u t1 (1 / 100) T1' ltac:(lra)). tri. }
        assert (B6 : u * Rabs (FR x + FR q) <= 12 / 10 * (u * t1) + ut / 2).
        { apply Rle_trans with (u * (12 / 10 * t1 + INR m * 3 * ut + ut)); [apply Rmult_le_compat_l; lra|].
          replace (u * (12 / 10 * t1 + INR m * 3 * ut + ut)) with (12 / 10 * (u * t1) + (3 * (INR m * u) + u) * ut) by ring. assert ((3 * (INR m * u) + u) * ut <= 1 / 2 * ut) by (apply Rmult_le_compat_r; lra). lra. }
        assert (0 <= u * t1) by (apply Rmult_le_pos; lra).
        replace ((INR m + 1) * (3 * u * t1 + 3 * ut)) with (INR m * (3 * u * t1 + 3 * ut) + 3 * (u * t1) + 3 * ut) by ring. tri. }
      destruct (IH s t1 (S m) ltac:(lia) HF' Fs) as (Fr & Rr & Er & Pr); [rewrite S_INR; unfold t1; lra|exact S1|apply Ps; specialize (Pq Y0); lra|].
      assert (EQ : t1 + sum_sq (map FR l) = t + sum_sq (FR y :: map FR l)) by (unfold sum_sq, total, t1; cbn [map fold_right]; ring).
      rewrite EQ in Rr, Er. replace (S m + length l)%nat with (m + S (length l))%nat in Rr, Er by lia.
      change (@nsq PrimFloat.float NumF y) with q. change (PrimFloat.add x q) with s. cbn [map]. split; [exact Fr|]. split; [exact Rr|]. split; [exact Er|exact Pr].
  Qed.
End Sum.
Lemma sqrt_shift m t a b : 0 <= t -> 0 <= m -> 0 <= a <= 1 -> 0 <= b -> Rabs (m - t) <= a * t + b -> Rabs (R_sqrt.sqrt m - R_sqrt.sqrt t) <= a * R_sqrt.sqrt t + R_sqrt.sqrt b.
Proof.
  intros Ht Hm Ha Hb H. apply Raux.Rabs_le_inv in H.
  set (x := R_sqrt.sqrt m). set (y := R_sqrt.sqrt t). set (z := R_sqrt.sqrt b).
  assert (X : x * x = m) by (apply R_sqrt.sqrt_sqrt; assumption). assert (Y : y * y = t) by (apply R_sqrt.sqrt_sqrt; assumption). assert (Z : z * z = b) by (apply R_sqrt.sqrt_sqrt; assumption).
  assert (0 <= x) by apply R_sqrt.sqrt_pos. assert (0 <= y) by apply R_sqrt.sqrt_pos. assert (0 <= z) by apply R_sqrt.sqrt_pos.
  clearbody x y z. subst m t b. apply Rabs_le. split.
  - destruct (Rle_dec (y * (1 - a)) z) as [C|C]; [nra|]. assert (y * (1 - a) - z <= x); [|lra].
    apply Rnot_lt_le. intros L. assert (0 < y * (1 - a) - z) by lra. assert (x * x < (y * (1 - a) - z) * (y * (1 - a) - z)) by nra.
    assert (y * y * (1 - a) - z * z <= x * x) by lra. assert (y * y * ((1 - a) * (1 - a)) <= y * y * (1 - a)) by (apply Rmult_le_compat_l; nra).
    assert (z * z <= z * (y * (1 - a))) by (apply Rmult_le_compat_l; lra). nra.
  - assert (x <= y * (1 + a) + z); [|lra]. apply Rnot_lt_le. intros L. assert (0 <= y * (1 + a) + z) by nra.
    assert ((y * (1 + a) + z) * (y * (1 + a) + z) < x * x) by nra. assert (0 <= y * y * a) by nra. assert (0 <= y * (1 + a) * z) by (apply Rmult_le_pos; nra). nra.
Qed.
Lemma rms_acc (l : list PrimFloat.float) (Y : R) : (0 < length l)%nat -> (Z.of_nat (length l) <= 2 ^ 20)%Z -> 0 <= Y <= 2 ^ 430 -> Forall (fun y => fin y /\ Rabs (FR y) <= Y) l ->
  fin (row_rms l) /\ Rabs (FR (row_rms l) - rms (map FR l)) <= / 2 ^ 30 * Y + / 2 ^ 400.
Proof.
  intros HN HL HY HF. assert (U0 := u_pos). assert (U1 := u_small). assert (UT := ut_pos).
  assert (Y2 : 0 <= Y * Y <= 2 ^ 860). { split; [apply Rle_0_sqr|]. change 860%nat with (430 + 430)%nat. rewrite pow_add. apply Rmult_le_compat; lra. }
  assert (Z1 : 0 <= Y * Y <= 2 ^ 870). { split; [lra|]. apply Rle_trans with (1 := proj2 Y2). apply Rle_pow; [lra|lia]. }
  destruct (FR_ofZ 0 ltac:(lia)) as [Z0 F0].
  destruct (sum_acc (Y * Y) Z1 l (F_ofZ 0) 0 0) as (Fs & Rs & Es & Ps); try assumption.
  - lia.
  - eapply Forall_impl; [|exact HF]. intros y [F B]. split; [exact F|]. apply Raux.Rabs_le_inv in B. nra.
  - cbn [INR]. lra.
  - rewrite Z0, Rminus_0_r, Rabs_R0. cbn [INR]. lra.
  - rewrite Z0. apply Rle_refl.
  - cbn [Nat.add] in Fs, Rs, Es. rewrite Rplus_0_l in Rs, Es. set (s := fold_left PrimFloat.add _ (F_ofZ 0)) in *. set (n := INR (length l)) in *. set (t := sum_sq (map FR l)) in *.
    assert (N1 : 1 <= n) by (apply (le_INR 1); lia). assert (N2 : n <= 1048576) by (unfold n; rewrite INR_IZR_INZ; apply IZR_le; exact HL).
    destruct (FR_ofZ (Z.of_nat (length l)) ltac:(lia)) as [Zn Fn]. rewrite <- INR_IZR_INZ in Zn. fold n in Zn.
    set (mt := t / n). assert (M0 : 0 <= mt) by (apply Rmult_le_pos; [lra|left; apply Rinv_0_lt_compat; lra]). assert (TN : t = n * mt) by (unfold mt; field; lra).
    assert (M1 : mt <= Y * Y) by nra.
    assert (NU : n * u <= 1 / 1000000000) by nra.
    assert (E1 : Rabs (FR s / n - mt) <= 3 * (n * u) * mt + 3 * ut).
    { replace (FR s / n - mt) with ((FR s - t) / n) by (unfold mt; field; lra). unfold Rdiv. rewrite Rabs_mult, (Rabs_pos_eq (/ n)) by (left; apply Rinv_0_lt_compat; lra).
      apply Rmult_le_reg_r with n; [lra|]. rewrite Rmult_assoc, Rinv_l by lra. rewrite Rmult_1_r. eapply Rle_trans; [exact Es|]. right. rewrite TN. ring. }
    assert (T1 : ut <= 1 / 1000000). { unfold ut. pose proof tiny_small. assert (0 < tiny) by apply bpow_gt_0. nra. }
    assert (BQ : Rabs (FR s / n) <= 2 * mt + 1) by (assert (3 * (n * u) * mt <= mt) by nra; tri).
    assert (P860 : 2 ^ 900 = 1099511627776 * 2 ^ 860) by (change 900%nat with (40 + 860)%nat; rewrite pow_add; f_equal; simpl; ring). assert (1 <= 2 ^ 860) by (apply pow_R1_Rle; lra).
    destruct (any_op (PrimFloat.div s (F_ofZ (Z.of_nat (length l)))) (FR s / n)) as (Fm & Em & Pm); [intros H'; rewrite <- Zn; apply FR_div; [assumption|rewrite Zn; lra|rewrite Zn; exact H']|lra|].
    set (mf := PrimFloat.div _ _) in *.
    assert (E2 : Rabs (FR mf - mt) <= 6 * (n * u) * mt + 5 * ut).
    { assert (BQ' : Rabs (FR s / n) <= 2 * mt + 3 * ut) by (assert (3 * (n * u) * mt <= mt) by nra; tri).
      assert (u * Rabs (FR s / n) <= 2 * (u * mt) + ut / 2). { apply Rle_trans with (u * (2 * mt + 3 * ut)); [apply Rmult_le_compat_l; lra|]. nra. }
      assert (u * mt <= n * u * mt). { apply Rmult_le_compat_r; [exact M0|]. nra. } assert (0 <= u * mt) by (apply Rmult_le_pos; lra). tri. }
    assert (MP : 0 <= FR mf) by (apply Pm, Rmult_le_pos; [exact Ps|left; apply Rinv_0_lt_compat; lra]).
    assert (ER : row_rms l = PrimFloat.sqrt mf) by (unfold row_rms, vmean, mf, s, nsum, nofnat; rewrite map_length; reflexivity).
    assert (FS : fin (PrimFloat.sqrt mf)) by (apply fin_sqrt; assumption).
    rewrite ER, FR_sqrt. split; [exact FS|].
    assert (ES : rms (map FR l) = R_sqrt.sqrt mt) by (unfold rms; rewrite map_length; reflexivity). rewrite ES.
    pose proof (sqrt_shift (FR mf) mt (6 * (n * u)) (5 * ut) M0 MP ltac:(split; [apply Rmult_le_pos; [lra|apply Rmult_le_pos; lra]|lra]) ltac:(lra) E2) as SQ.
    assert (SY : R_sqrt.sqrt mt <= Y) by (rewrite <- (R_sqrt.sqrt_square Y) by lra; apply R_sqrt.sqrt_le_1_alt; exact M1).
    assert (S0 := R_sqrt.sqrt_pos mt). assert (S1 := R_sqrt.sqrt_pos (FR mf)).
    assert (SU : R_sqrt.sqrt (5 * ut) <= / 2 ^ 450).
    { rewrite <- (R_sqrt.sqrt_square (/ 2 ^ 450)) by (left; apply Rinv_0_lt_compat, pow_lt; lra). apply R_sqrt.sqrt_le_1_alt.
      rewrite pow2, <- bpow_opp, <- bpow_plus. unfold ut. apply Rle_trans with tiny; [assert (0 < tiny) by apply bpow_gt_0; nra|apply bpow_le; lia]. }
    set (v := R_sqrt.sqrt (FR mf)) in *. set (w := R_sqrt.sqrt mt) in *. set (z := R_sqrt.sqrt (5 * ut)) in *.
    pose proof (any_err v) as AE. rewrite (Rabs_pos_eq v S1) in AE.
    assert (NU6 : 6 * (n * u) * w <= 6 * (1048576 * u) * Y). { apply Rmult_le_compat; [apply Rmult_le_pos; [lra|apply Rmult_le_pos; lra]|exact S0| |exact SY]. apply Rmult_le_compat_l; [lra|]. apply Rmult_le_compat_r; lra. }
    assert (E30 : 6 * (1048576 * u) = 3 / 4 * / 2 ^ 30) by (rewrite u_pow; simpl; field). rewrite E30 in NU6.
    assert (UE : u = / 8388608 * / 2 ^ 30) by (rewrite u_pow; simpl; field).
    assert (P30 : 0 < / 2 ^ 30 <= 1) by (split; [apply Rinv_0_lt_compat, pow_lt; lra|rewrite <- Rinv_1; apply Rinv_le_contravar; [lra|apply pow_R1_Rle; lra]]).
    assert (P450 : 4 * / 2 ^ 450 <= / 2 ^ 400). { rewrite !pow2, <- !bpow_opp. change 4 with (bpow radix2 2). rewrite <- bpow_plus. apply bpow_le. lia. }
    assert (UT4 : ut <= / 2 ^ 450). { rewrite pow2, <- bpow_opp. unfold ut. apply Rle_trans with tiny; [assert (0 < tiny) by apply bpow_gt_0; nra|apply bpow_le; lia]. }
    assert (P4 : 0 < / 2 ^ 450) by (apply Rinv_0_lt_compat, pow_lt; lra).
    set (h := / 2 ^ 30) in *. clearbody h v w z. set (o := / 2 ^ 450) in *. set (o4 := / 2 ^ 400) in *. clearbody o o4.
    assert (HY' : 0 <= h * Y) by (apply Rmult_le_pos; lra).
    assert (V1 : v <= 2 * Y + o). { apply Raux.Rabs_le_inv in SQ. assert (h * Y <= Y) by nra. lra. }
    assert (UV : u * v <= / 4000000 * (h * Y) + o). { apply Rle_trans with (u * (2 * Y + o)); [apply Rmult_le_compat_l; lra|]. rewrite UE. nra. }
    tri.
Qed.
