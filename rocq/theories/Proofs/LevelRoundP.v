(** The sound pressure level of integer recordings in binary64, and how well the degraded one is brought to it (C107). *)
From Coq Require Import ZArith List Bool Reals Lra Lia Floats Psatz.
From Flocq Require Import Core.Core IEEE754.BinarySingleNaN IEEE754.PrimFloat.
From Interval Require Import Tactic.
From Verif Require Import Base.Res Base.Num Base.NumF Base.Lists Base.Mat Model.Amatrix Model.MiscMath Model.Window Model.FilterBank Model.MiscAudio Spec.AudioSpec Spec.UndefinedSpec Spec.StableSpec Spec.LibmSpec Spec.PcmSpec
  Proofs.B64P Proofs.RoundP Proofs.BoundP Proofs.ScoresP Proofs.StableP Proofs.StableBankP Proofs.RelP Proofs.ErbNormP Proofs.LevelFloatP.
Import ListNotations.
Open Scope R_scope.
Notation F := PrimFloat.float.
Local Notation sq := R_sqrt.sqrt.

Lemma rnd_rel z : z = 0 \/ tiny <= Rabs z -> Rabs (rnd z - z) <= u * Rabs z.
Proof.
  intros [->|H]; [rewrite rnd_zero, Rminus_0_r, Rabs_R0, Rmult_0_r; lra|]. apply rnd_err; [apply Rle_refl|exact H].
Qed.
Lemma low_tiny : tiny <= bpow radix2 (-62). Proof. apply bpow_le. lia. Qed.
Definition far (x : R) : Prop := x = 0 \/ bpow radix2 (-62) <= x.
Lemma far_add x y : far x -> far y -> far (x + y).
Proof. pose proof (bpow_gt_0 radix2 (-62)). unfold far. intros [->|X] [->|Y]; try (right; lra). left. ring. Qed.
Lemma far_pos x : far x -> 0 <= x.
Proof. pose proof (bpow_gt_0 radix2 (-62)). unfold far. intros [->|X]; lra. Qed.
Lemma far_rnd x : far x -> far (rnd x).
Proof. intros [->|X]; [left; apply rnd_zero|right; apply rnd_low; [lia|exact X]]. Qed.
Definition total (l : list R) : R := fold_right Rplus 0 l.
Lemma total_nonneg l : Forall (fun x => 0 <= x) l -> 0 <= total l.
Proof. unfold total. induction 1; cbn [fold_right]; lra. Qed.

Lemma sum_rel : forall (l : list F) (x : F) (T : R) (m : Z), (0 <= m)%Z -> (m + Z.of_nat (length l) <= 2 ^ 30)%Z ->
  Forall (fun y => fin y /\ FR y <= 1 /\ far (FR y)) l -> fin x -> far (FR x) -> 0 <= T <= IZR m -> Rabs (FR x - T) <= IZR m * (2 * u) * T ->
  let n := (m + Z.of_nat (length l))%Z in
  fin (fold_left PrimFloat.add l x) /\ far (FR (fold_left PrimFloat.add l x)) /\
  Rabs (FR (fold_left PrimFloat.add l x) - (T + total (map FR l))) <= IZR n * (2 * u) * (T + total (map FR l)).
Proof.
  induction l as [|y l IH]; intros x T m Hm HN HF Fx X HT E; cbn [fold_left map total fold_right length] in *.
  - cbv zeta. rewrite Z.add_0_r, Rplus_0_r. split; [exact Fx|]. split; [exact X|exact E].
  - inversion HF as [|? ? (Fy & Y1 & Y) HF2]; subst. pose proof u_small as US. pose proof u_pos as UP.
    assert (MB : 0 <= IZR m <= 1073741824) by (split; apply IZR_le; lia). pose proof (far_pos _ X) as X0. pose proof (far_pos _ Y) as Y0.
    assert (MU : 0 <= IZR m * (2 * u) <= 1) by nra.
    assert (XT : FR x <= 2 * T) by (apply Rabs_le_inv in E; nra).
    assert (B : Rabs (FR x + FR y) <= 2147483649) by (rewrite Rabs_pos_eq; lra).
    destruct (FR_add x y Fx Fy) as [Es Fs]; [apply (rnd_fmax _ 2147483649); [exact B|pose proof tiny_small; lra|pose proof big_large; lra]|].
    pose proof (far_add _ _ X Y) as XY. assert (R1 : Rabs (rnd (FR x + FR y) - (FR x + FR y)) <= u * (FR x + FR y)).
    { replace (u * (FR x + FR y)) with (u * Rabs (FR x + FR y)) by (rewrite Rabs_pos_eq by lra; reflexivity). apply rnd_rel. destruct XY as [XY|XY]; [left; exact XY|right]. rewrite Rabs_pos_eq by lra. pose proof low_tiny. lra. }
    replace (m + Z.of_nat (S (length l)))%Z with ((m + 1) + Z.of_nat (length l))%Z by lia. replace (T + (FR y + fold_right Rplus 0 (map FR l))) with ((T + FR y) + total (map FR l)) by (unfold total; ring).
    apply (IH (x + y)%float (T + FR y) (m + 1)%Z); try assumption; try lia.
    + rewrite Es. apply far_rnd, XY.
    + rewrite plus_IZR. lra.
    + rewrite Es, plus_IZR. apply Rabs_le_inv in E. apply Rabs_le_inv in R1. set (k := IZR m * (2 * u)) in *. replace ((IZR m + 1) * (2 * u)) with (k + 2 * u) by (unfold k; ring).
      assert (0 <= k * FR y) by nra. assert (u * FR x <= u * (2 * T)) by nra. apply Rabs_le. assert (0 <= u * FR y) by nra. nra.
Qed.

Lemma total_near (g h : F -> R) e (l : list F) : (forall x, In x l -> Rabs (g x - h x) <= e * h x) -> Rabs (total (map g l) - total (map h l)) <= e * total (map h l).
Proof.
  induction l as [|x l IH]; intros H; cbn [map total fold_right]; [rewrite Rminus_0_r, Rabs_R0; lra|].
  pose proof (H x (or_introl eq_refl)). specialize (IH (fun y Hy => H y (or_intror Hy))). unfold total in IH. abs_all. apply Rabs_le. lra.
Qed.
Lemma energy_total (l : list F) : energy (map FR l) = total (map (fun x => FR x * FR x) l).
Proof. unfold energy, total. rewrite map_map. reflexivity. Qed.
Lemma square_real x : pcm x -> fin (@nsq F NumF x) /\ FR (@nsq F NumF x) <= 1 /\ far (FR (@nsq F NumF x)) /\ Rabs (FR (@nsq F NumF x) - FR x * FR x) <= u * (FR x * FR x).
Proof.
  intros H. destruct (square_cases x H) as ([Fq Bq] & Pq & C). apply pcm_real in H. destruct H as [[Fx Bx] CX]. change (bpow radix2 0) with 1 in *. rewrite Rabs_pos_eq in Bq by exact Pq. split; [exact Fq|]. split; [exact Bq|].
  split; [destruct C as [[_ C]|C]; [left|right]; exact C|]. destruct (FR_mul x x Fx Fx) as [E _].
  { apply (rnd_fmax _ 1); [|pose proof tiny_small; lra|pose proof big_large; lra]. rewrite Rabs_mult. pose proof (Rabs_pos (FR x)). nra. }
  unfold nsq. cbn [nmul NumF]. rewrite E. replace (u * (FR x * FR x)) with (u * Rabs (FR x * FR x)) by (rewrite Rabs_pos_eq by nra; reflexivity). apply rnd_rel. destruct CX as [CX|CX]; [left; rewrite CX; ring|right].
  apply Rle_trans with (1 := low_tiny). change (-62)%Z with (-31 + -31)%Z. rewrite bpow_plus, Rabs_mult. apply Rmult_le_compat; try apply bpow_ge_0; assumption.
Qed.
(** the sum of the squares, to three parts in ten million *)
Lemma energy_rel (l : list F) : Forall pcm l -> (Z.of_nat (length l) <= 2 ^ 30)%Z ->
  fin (nsum (map (@nsq F NumF) l)) /\ far (FR (nsum (map (@nsq F NumF) l))) /\ Rabs (FR (nsum (map (@nsq F NumF) l)) - energy (map FR l)) <= 3 / 10000000 * energy (map FR l).
Proof.
  intros HP HL. destruct (FR_ofZ 0 ltac:(lia)) as [E0 F0].
  destruct (sum_rel (map (@nsq F NumF) l) (F_ofZ 0) 0 0) as (A1 & A2 & A3); [lia|rewrite map_length; lia| |exact F0|left; exact E0|lra|rewrite E0, Rminus_0_r, Rabs_R0; lra|].
  { apply Forall_map. eapply Forall_impl; [|exact HP]. intros x Hx. destruct (square_real x Hx) as (B1 & B2 & B3 & _). auto. }
  change (fold_left PrimFloat.add (map (@nsq F NumF) l) (F_ofZ 0)) with (nsum (map (@nsq F NumF) l)) in *. split; [exact A1|]. split; [exact A2|].
  rewrite map_length, Z.add_0_l, Rplus_0_l, map_map in A3. rewrite energy_total.
  assert (N : Rabs (total (map (fun x => FR (@nsq F NumF x)) l) - total (map (fun x => FR x * FR x) l)) <= u * total (map (fun x => FR x * FR x) l)).
  { apply total_near. intros x Hx. rewrite Forall_forall in HP. apply (square_real x (HP x Hx)). }
  assert (P : 0 <= total (map (fun x => FR x * FR x) l)) by (apply total_nonneg, Forall_map; apply Forall_forall; intros; nra).
  set (T := total (map (fun x => FR x * FR x) l)) in *. set (Q := total (map (fun x => FR (@nsq F NumF x)) l)) in *. set (z := FR (nsum _)) in *.
  assert (NB : 0 <= IZR (Z.of_nat (length l)) <= 1073741824) by (split; apply IZR_le; lia). pose proof u_small. pose proof u_pos.
  assert (K : 0 <= IZR (Z.of_nat (length l)) * (2 * u) <= 26 / 100000000) by nra. set (k := IZR (Z.of_nat (length l)) * (2 * u)) in *. clearbody k z Q T. abs_all. assert (0 <= u * T <= 12 / 100000000000000000 * T) by nra.
  assert (Q <= 2 * T) by lra. assert (k * Q <= 26 / 100000000 * (T + u * T)) by nra. apply Rabs_le. split; lra.
Qed.
Lemma energy_pos (l : list F) : Exists (fun x => FR x <> 0) l -> 0 < energy (map FR l).
Proof.
  induction 1 as [x l H|x l H IH]; unfold energy in *; cbn [map fold_right] in *; [|nra].
  assert (0 <= fold_right Rplus 0 (map (fun x => x * x) (map FR l))) by (apply total_nonneg, Forall_map, Forall_map; apply Forall_forall; intros; nra). nra.
Qed.
Lemma sqrt_rel a b e : 0 <= a -> 0 < b -> Rabs (a - b) <= e * b -> Rabs (sq a - sq b) <= e * sq b.
Proof.
  intros Ha Hb H. pose proof (R_sqrt.sqrt_lt_R0 b Hb) as SB. pose proof (R_sqrt.sqrt_pos a) as SA. pose proof (R_sqrt.sqrt_sqrt a Ha) as QA. pose proof (R_sqrt.sqrt_sqrt b (Rlt_le _ _ Hb)) as QB.
  apply Rmult_le_reg_r with (sq b); [exact SB|]. rewrite Rmult_assoc, QB. apply Rle_trans with (2 := H).   replace (a - b) with ((sq a - sq b) * (sq a + sq b)) by nra. rewrite Rabs_mult. apply Rmult_le_compat_l; [apply Rabs_pos|]. rewrite Rabs_pos_eq; lra.
Qed.
Lemma ln_rel a b e : 0 < b -> 0 <= e <= 1 / 100 -> Rabs (a - b) <= e * b -> Rabs (ln a - ln b) <= 102 / 100 * e.
Proof.
  intros Hb He H. abs_all. assert (Ha : 0 < a) by nra.
  assert (K : forall x y, 0 < x -> 0 < y -> ln x - ln y <= x / y - 1).
  { intros x y Hx Hy. replace (ln x - ln y) with (ln (x / y)) by (unfold Rdiv; rewrite ln_mult, ln_Rinv by (try apply Rinv_0_lt_compat; assumption); ring).
    assert (P : 0 < x / y) by (apply Rmult_lt_0_compat; [exact Hx|apply Rinv_0_lt_compat, Hy]). pose proof (exp_ineq1_le (ln (x / y))) as X. rewrite exp_ln in X by exact P. lra. }
  pose proof (K a b Ha Hb) as K1. pose proof (K b a Hb Ha) as K2.
  assert (D1 : a / b - 1 <= e). { apply Rmult_le_reg_r with b; [exact Hb|]. replace ((a / b - 1) * b) with (a - b) by (field; lra). lra. }
  assert (D2 : b / a - 1 <= 102 / 100 * e). { apply Rmult_le_reg_r with a; [exact Ha|]. replace ((b / a - 1) * a) with (b - a) by (field; lra). assert (e * (1 - e) * b * (102 / 100) <= e * a * (102 / 100)) by nra. assert (e * b <= e * (1 - e) * b * (102 / 100)); [|lra]. replace (e * (1 - e) * b * (102 / 100)) with (e * b * ((1 - e) * (102 / 100))) by ring. assert (0 <= e * b) by nra. nra. }
  apply Rabs_le. lra.
Qed.
