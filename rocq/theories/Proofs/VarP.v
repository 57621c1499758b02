(** The sample variance of at most 64 numbers is never negative in binary64 (C118). *)
From Coq Require Import ZArith List Bool Reals Lra Lia Floats Psatz.
From Flocq Require Import Core.Core IEEE754.BinarySingleNaN IEEE754.PrimFloat.
From Verif Require Import Base.Num Base.NumR Base.NumF Base.Mat Model.Amatrix Proofs.B64P Proofs.ScoresP Proofs.RoundP Proofs.BoundP Proofs.NsimFP.
Import ListNotations.
Open Scope R_scope.

#[local] Instance Hprec64 : Prec_gt_0 prec := eq_refl.
#[local] Instance Hmax64 : Prec_lt_emax prec emax := eq_refl.

(** *** the grid of a number *)
Lemma grid x q : (-1074 <= q)%Z -> bpow radix2 (q + 52) <= Rabs (FR x) -> exists m, FR x = IZR m * bpow radix2 q.
Proof.
  intros Hq H. assert (G : generic_format radix2 (fexp prec emax) (FR x)).
  { rewrite <- (rnd_FR x). unfold rnd. apply generic_format_round; [apply fexp_correct, Hprec64|apply valid_rnd_N]. }
  unfold generic_format in G. set (M := Ztrunc (scaled_mantissa radix2 (fexp prec emax) (FR x))) in *. set (c := cexp radix2 (fexp prec emax) (FR x)) in *.
  assert (HC : (q <= c)%Z).
  { assert (HM : (q + 53 <= mag radix2 (FR x))%Z) by (apply mag_ge_bpow; replace (q + 53 - 1)%Z with (q + 52)%Z by lia; exact H).
    unfold c, cexp. unfold fexp, SpecFloat.fexp, SpecFloat.emin. change prec with 53%Z. change emax with 1024%Z. lia. }
  exists (M * 2 ^ (c - q))%Z. rewrite G. unfold F2R. cbn [Fnum Fexp]. rewrite mult_IZR. rewrite (IZR_Zpower radix2) by lia. rewrite Rmult_assoc, <- bpow_plus. f_equal. f_equal. lia.
Qed.
Lemma rnd_ge k z : (-1074 <= k)%Z -> bpow radix2 k <= z -> bpow radix2 k <= rnd z.
Proof. intros Hk H. rewrite <- (rnd_exact 1 k (bpow radix2 k)) by (lia || (cbn [IZR IPR]; lra)). apply rnd_le, H. Qed.
Lemma rnd_opp z : rnd (- z) = - rnd z.
Proof. unfold rnd. apply round_NE_opp. Qed.
Lemma rnd_abs_ge k z : (-1074 <= k)%Z -> bpow radix2 k <= Rabs z -> bpow radix2 k <= Rabs (rnd z).
Proof.
  intros Hk H. unfold Rabs in H. destruct (Rcase_abs z) as [N|N].
  - apply rnd_ge in H; [|exact Hk]. rewrite rnd_opp in H. apply Rle_trans with (1 := H). rewrite <- Rabs_Ropp. apply Rle_abs.
  - apply rnd_ge in H; [|exact Hk]. apply Rle_trans with (1 := H), Rle_abs.
Qed.

(** *** sums *)
Definition rsum (l : list PrimFloat.float) : R := fold_right (fun x s => FR x + s) 0 l.
Lemma fold_err k : (-900 <= k < 900)%Z -> forall l x r m, Forall (bd k) l -> fin x -> (0 <= m)%Z -> (m + Z.of_nat (length l) <= 64)%Z ->
  Rabs (FR x) <= IZR m * bpow radix2 k -> Rabs (FR x - r) <= IZR m * (u * (64 * bpow radix2 k)) ->
  Rabs (FR (fold_left PrimFloat.add l x) - (r + rsum l)) <= IZR (m + Z.of_nat (length l)) * (u * (64 * bpow radix2 k)).
Proof.
  intros K. induction l as [|y l IH]; intros x r m HF Fx Hm HL Hx He.
  - cbn [fold_left rsum fold_right length Z.of_nat]. rewrite Z.add_0_r, Rplus_0_r. exact He.
  - inversion HF as [|? ? [Fy Hy] F2]; subst. cbn [fold_left rsum fold_right length] in *. fold (rsum l). replace (m + Z.of_nat (S (length l)))%Z with (m + 1 + Z.of_nat (length l))%Z by lia.
    set (B := bpow radix2 k) in *. assert (B0 : 0 < B) by apply bpow_gt_0.
    assert (Mb : 0 <= IZR m <= 63) by (split; apply IZR_le; lia).
    assert (S1 : Rabs (FR x + FR y) <= IZR (m + 1) * B) by (apply Rle_trans with (1 := Rabs_triang _ _); rewrite plus_IZR; lra).
    assert (S2 : Rabs (rnd (FR x + FR y)) <= IZR (m + 1) * B) by (apply rnd_scaled; [lia|lia|exact S1]).
    assert (S3 : Rabs (FR x + FR y) <= 64 * B) by (apply Rle_trans with (1 := S1); rewrite plus_IZR; nra).
    assert (TB : tiny <= 64 * B) by (apply Rle_trans with B; [unfold tiny, B; apply bpow_le; lia|lra]).
    pose proof (rnd_err _ _ S3 TB) as R1.
    destruct (FR_add x y Fx Fy) as [E F].
    { apply (rnd_fmax _ (64 * B)); [exact S3|exact TB|]. unfold big, B. change 64 with (bpow radix2 6). rewrite <- bpow_plus. apply bpow_le. lia. }
    replace (r + (FR y + rsum l)) with (r + FR y + rsum l) by ring.
    apply IH; [exact F2|exact F|lia|lia|rewrite E; exact S2|].
    rewrite E. replace (rnd (FR x + FR y) - (r + FR y)) with ((rnd (FR x + FR y) - (FR x + FR y)) + (FR x - r)) by ring.
    apply Rle_trans with (1 := Rabs_triang _ _). rewrite plus_IZR. lra.
Qed.
Lemma sum_err k l : (-900 <= k < 900)%Z -> Forall (bd k) l -> (Z.of_nat (length l) <= 64)%Z ->
  Rabs (FR (nsum l) - rsum l) <= 4096 * (u * bpow radix2 k) /\ bd (k + 6) (nsum l).
Proof.
  intros K HF HL. destruct (FR_ofZ 0 ltac:(lia)) as [E F]. split.
  - pose proof (fold_err k K l (F_ofZ 0) 0 0 HF F ltac:(lia) ltac:(lia)) as H. rewrite E in H. rewrite Rabs_R0, Rminus_0_r, Rabs_R0, !Rmult_0_l, Rplus_0_l, Z.add_0_l in H.
    change (Rabs (FR (nsum l) - rsum l)) with (Rabs (FR (fold_left PrimFloat.add l (F_ofZ 0)) - rsum l)).
    apply Rle_trans with (1 := H ltac:(lra) ltac:(lra)).
    assert (0 <= IZR (Z.of_nat (length l)) <= 64) by (split; apply IZR_le; lia). pose proof u_pos. pose proof (bpow_gt_0 radix2 k). assert (0 < u * bpow radix2 k) by (apply Rmult_lt_0_compat; assumption). nra.
  - apply bd_sum; [lia|lia|lia|exact HL|exact HF].
Qed.
(** a sum of numbers that are not negative is at least each of them *)
Lemma fold_low k : (-1000 <= k < 900)%Z -> forall l x m, Forall (fun y => bd k y /\ 0 <= FR y) l -> fin x -> 0 <= FR x -> (0 <= m)%Z -> (m + Z.of_nat (length l) < 2 ^ 53)%Z -> Rabs (FR x) <= IZR m * bpow radix2 k ->
  FR x <= FR (fold_left PrimFloat.add l x) /\ (forall y, In y l -> FR y <= FR (fold_left PrimFloat.add l x)).
Proof.
  intros K. induction l as [|y l IH]; intros x m HF Fx Px Hm HL Hx; [split; [apply Rle_refl|intros y []]|].
  inversion HF as [|? ? [[Fy Hy] Py] F2]; subst. cbn [fold_left length] in *.
  assert (S1 : Rabs (FR x + FR y) <= IZR (m + 1) * bpow radix2 k) by (apply Rle_trans with (1 := Rabs_triang _ _); rewrite plus_IZR; lra).
  assert (S2 : Rabs (rnd (FR x + FR y)) <= IZR (m + 1) * bpow radix2 k) by (apply rnd_scaled; [lia|lia|exact S1]).
  destruct (FR_add x y Fx Fy) as [E F].
  { apply Rle_lt_trans with (1 := S2). apply Rlt_le_trans with (bpow radix2 53 * bpow radix2 k).
    - apply Rmult_lt_compat_r; [apply bpow_gt_0|]. change (bpow radix2 53) with (IZR (2 ^ 53)). apply IZR_lt. lia.
    - unfold fmax. rewrite <- bpow_plus. apply bpow_le. change emax with 1024%Z. lia. }
  assert (L1 : FR x <= FR (PrimFloat.add x y)) by (rewrite E, <- (rnd_FR x) at 1; apply rnd_le; lra).
  assert (L2 : FR y <= FR (PrimFloat.add x y)) by (rewrite E, <- (rnd_FR y) at 1; apply rnd_le; lra).
  destruct (IH (PrimFloat.add x y) (m + 1)%Z F2 F ltac:(lra) ltac:(lia) ltac:(lia)) as [G1 G2]; [rewrite E; exact S2|].
  split; [lra|]. intros z [<-|Hz]; [lra|apply G2, Hz].
Qed.

(** *** exact sums *)
Definition on (q : Z) (x : PrimFloat.float) (m : Z) : Prop := fin x /\ FR x = IZR m * bpow radix2 q.
Definition zsum (ms : list Z) : Z := fold_right Z.add 0%Z ms.
Lemma fold_exact q M : (-1074 <= q < 900)%Z -> (0 <= M)%Z -> forall l ms, Forall2 (on q) l ms -> Forall (fun m => (Z.abs m <= M)%Z) ms -> forall x m0 b, on q x m0 -> (Z.abs m0 <= b)%Z ->
  (b + M * Z.of_nat (length l) < 2 ^ 53)%Z -> on q (fold_left PrimFloat.add l x) (m0 + zsum ms).
Proof.
  intros K HM l ms H2. induction H2 as [|y m l ms [Fy Ey] H2 IH]; intros HA x m0 b [Fx Ex] Hb HL; [cbn; rewrite Z.add_0_r; split; assumption|].
  inversion HA as [|? ? A1 A2]; subst. cbn [fold_left zsum fold_right length] in *. fold (zsum ms). replace (m0 + (m + zsum ms))%Z with (m0 + m + zsum ms)%Z by lia.
  assert (EQ : FR x + FR y = IZR (m0 + m) * bpow radix2 q) by (rewrite Ex, Ey, plus_IZR; ring).
  assert (RE : rnd (FR x + FR y) = IZR (m0 + m) * bpow radix2 q) by (rewrite EQ; apply (rnd_exact (m0 + m) q); [reflexivity|nia|lia]).
  destruct (FR_add x y Fx Fy) as [E F].
  { rewrite RE, Rabs_mult, (Rabs_pos_eq (bpow radix2 q)) by apply bpow_ge_0. rewrite <- abs_IZR. apply Rlt_le_trans with (bpow radix2 53 * bpow radix2 q).
    - apply Rmult_lt_compat_r; [apply bpow_gt_0|]. change (bpow radix2 53) with (IZR (2 ^ 53)). apply IZR_lt. nia.
    - unfold fmax. rewrite <- bpow_plus. apply bpow_le. change emax with 1024%Z. lia. }
  apply (IH A2 (PrimFloat.add x y) (m0 + m)%Z (b + M)%Z); [split; [exact F|rewrite E; exact RE]|lia|nia].
Qed.
Lemma sum_exact q M l ms : (-1074 <= q < 900)%Z -> (0 <= M)%Z -> Forall2 (on q) l ms -> Forall (fun m => (Z.abs m <= M)%Z) ms -> (M * Z.of_nat (length l) < 2 ^ 53)%Z -> on q (nsum l) (zsum ms).
Proof.
  intros K HM H2 HA HL. destruct (FR_ofZ 0 ltac:(lia)) as [E F]. replace (zsum ms) with (0 + zsum ms)%Z by lia.
  apply (fold_exact q M K HM l ms H2 HA (F_ofZ 0) 0 0); [split; [exact F|rewrite E; ring]|lia|lia].
Qed.
Lemma squares ms : (zsum ms * zsum ms <= Z.of_nat (length ms) * zsum (map (fun m => m * m) ms))%Z.
Proof.
  induction ms as [|m ms IH]; [cbn; lia|]. cbn [zsum fold_right map length]. fold (zsum ms). fold (zsum (map (fun m => (m * m)%Z) ms)).
  set (a := zsum ms) in *. set (b := zsum (map (fun m => (m * m)%Z) ms)) in *. set (n := Z.of_nat (length ms)) in *. replace (Z.of_nat (S (length ms))) with (n + 1)%Z by lia.
  assert (N : (0 <= n)%Z) by lia. destruct (Z.eq_dec n 0) as [N0|N0].
  - assert (ms = []) by (destruct ms; [reflexivity|cbn in n; lia]). subst ms. clear IH. subst a b n. cbn [zsum fold_right map length Z.of_nat]. rewrite !Z.add_0_r. lia.
  - pose proof (Z.square_nonneg (n * m - a)) as P. clearbody a b n.
    assert (Q : (2 * m * a * n <= n * (n * m * m + b))%Z) by nia.
    assert (R : (2 * m * a <= n * m * m + b)%Z) by (apply Z.mul_le_mono_pos_l with n; [lia|nia]). nia.
Qed.
Lemma zsum_bound M ms : Forall (fun m => (Z.abs m <= M)%Z) ms -> (Z.abs (zsum ms) <= M * Z.of_nat (length ms))%Z.
Proof. induction 1 as [|m ms H _ IH]; [cbn; lia|]. cbn [zsum fold_right length]. fold (zsum ms). rewrite Nat2Z.inj_succ, Z.mul_succ_r. lia. Qed.

(** *** the sample variance *)
Definition spread (mu : PrimFloat.float) (l : list PrimFloat.float) : PrimFloat.float :=
  let ds := map (fun x => nsub mu x) l in
  nsub (nsum (map nsq ds)) (ndiv (nmul (nsum ds) (nsum ds)) (nofnat (length l))).
Lemma vvar_spread l : (2 <= length l)%nat -> vvar l = ndiv (spread (vmean l) l) (nofnat (length l - 1)).
Proof. destruct l as [|a [|b l]]; cbn [length]; try lia. reflexivity. Qed.
Lemma on_bd q x m k : (0 <= k)%Z -> on q x m -> (Z.abs m <= 2 ^ k)%Z -> bd (q + k) x.
Proof.
  intros Hk [F E] H. split; [exact F|]. rewrite E, Rabs_mult, (Rabs_pos_eq (bpow radix2 q)) by apply bpow_ge_0. rewrite Z.add_comm, bpow_plus. apply Rmult_le_compat_r; [apply bpow_ge_0|].
  rewrite <- abs_IZR, <- (IZR_Zpower radix2) by exact Hk. apply IZR_le, H.
Qed.
Lemma on_mul q x m y m' b : (-537 <= q < 300)%Z -> on q x m -> on q y m' -> (0 <= b <= 60)%Z -> (Z.abs (m * m') <= 2 ^ b)%Z -> (2 ^ b < 2 ^ 53)%Z -> on (q + q) (PrimFloat.mul x y) (m * m').
Proof.
  intros Hq [F1 E1] [F2 E2] Hb HB HB'.
  assert (EQ : FR x * FR y = IZR (m * m') * bpow radix2 (q + q)) by (rewrite E1, E2, mult_IZR, bpow_plus; ring).
  assert (RE : rnd (FR x * FR y) = IZR (m * m') * bpow radix2 (q + q)) by (rewrite EQ; apply (rnd_exact (m * m') (q + q)); [reflexivity|lia|lia]).
  destruct (FR_mul x y F1 F2) as [E F].
  - rewrite RE, Rabs_mult, (Rabs_pos_eq (bpow radix2 _)) by apply bpow_ge_0. rewrite <- abs_IZR. apply Rle_lt_trans with (bpow radix2 b * bpow radix2 (q + q)).
    + apply Rmult_le_compat_r; [apply bpow_ge_0|]. rewrite <- (IZR_Zpower radix2) by lia. apply IZR_le, HB.
    + unfold fmax. rewrite <- bpow_plus. apply bpow_lt. change emax with 1024%Z. lia.
  - split; [exact F|rewrite E; exact RE].
Qed.
Lemma count_ofZ n : (1 <= n <= 64)%nat -> FR (nofnat n) = IZR (Z.of_nat n) /\ fin (nofnat n : PrimFloat.float) /\ 1 <= IZR (Z.of_nat n) <= 64.
Proof. intros H. destruct (FR_ofZ (Z.of_nat n) ltac:(lia)) as [E F]. split; [exact E|]. split; [exact F|]. split; apply IZR_le; lia. Qed.
Lemma sub_nonneg k x y : (-1074 <= k < 1000)%Z -> bd k x -> bd k y -> FR y <= FR x -> bd (k + 1) (PrimFloat.sub x y) /\ 0 <= FR (PrimFloat.sub x y).
Proof.
  intros K X Y H. split; [apply bd_sub; [lia|exact X|exact Y]|]. destruct X as [FX X]. destruct Y as [FY Y]. destruct (FR_sub x y FX FY) as [E _].
  - apply Rle_lt_trans with (bpow radix2 (k + 1)); [|unfold fmax; apply bpow_lt; change emax with 1024%Z; lia]. apply rnd_bd; [lia|].
    unfold Rminus. apply Rle_trans with (1 := Rabs_triang _ _). rewrite Rabs_Ropp, <- bpow_double. lra.
  - rewrite E. replace 0 with (rnd 0) by apply (rnd_Z 0 ltac:(lia)). apply rnd_le. lra.
Qed.

Lemma spread_grid mu l q : (1 <= length l <= 64)%nat -> (-520 <= q <= 200)%Z -> fin mu ->
  (forall x, In x l -> fin x /\ exists m, (Z.abs m <= 2 ^ 17)%Z /\ FR mu - FR x = IZR m * bpow radix2 q) -> bd (q + q + 47) (spread mu l) /\ 0 <= FR (spread mu l).
Proof.
  intros HL Hq Fm H. unfold spread. set (ds := map (fun x => nsub mu x) l).
  assert (G : exists ms, Forall2 (on q) ds ms /\ Forall (fun m => (Z.abs m <= 2 ^ 17)%Z) ms).
  { unfold ds. clear HL ds. induction l as [|x l IH]; [exists []; split; constructor|].
    destruct (IH (fun y Hy => H y (or_intror Hy))) as (ms & G1 & G2). destruct (H x (or_introl eq_refl)) as (Fx & m & Hm & E).
    exists (m :: ms). split; [|constructor; assumption]. cbn [map]. constructor; [|exact G1]. cbn [nsub NumF].
    assert (RE : rnd (FR mu - FR x) = IZR m * bpow radix2 q) by (rewrite E; apply (rnd_exact m q); [reflexivity|lia|lia]).
    destruct (FR_sub mu x Fm Fx) as [E' F'].
    - rewrite RE, Rabs_mult, (Rabs_pos_eq (bpow radix2 q)) by apply bpow_ge_0. rewrite <- abs_IZR. apply Rle_lt_trans with (bpow radix2 17 * bpow radix2 q).
      + apply Rmult_le_compat_r; [apply bpow_ge_0|]. change (bpow radix2 17) with (IZR (2 ^ 17)). apply IZR_le, Hm.
      + unfold fmax. rewrite <- bpow_plus. apply bpow_lt. change emax with 1024%Z. lia.
    - split; [exact F'|rewrite E'; exact RE]. }
  destruct G as (ms & G1 & G2).
  assert (LD : length ds = length l) by (unfold ds; apply map_length). assert (LM : length ms = length l) by (rewrite <- LD; symmetry; clear - G1; induction G1; cbn; congruence).
  assert (A3 : on q (nsum ds) (zsum ms)) by (apply (sum_exact q (2 ^ 17)); [lia|lia|exact G1|exact G2|rewrite LD; lia]).
  pose proof (zsum_bound (2 ^ 17) ms G2) as ZB. rewrite LM in ZB.
  assert (SQ : Forall2 (on (q + q)) (map nsq ds) (map (fun m => (m * m)%Z) ms) /\ Forall (fun m => (Z.abs m <= 2 ^ 34)%Z) (map (fun m => (m * m)%Z) ms)).
  { clear - G1 G2 Hq. clearbody ds. induction G1 as [|x m l1 ms O1 _ IH]; [split; constructor|]. inversion G2; subst. destruct (IH ltac:(assumption)) as [I1 I2]. cbn [map].
    split; constructor; try assumption; [|nia]. apply (on_mul q x m x m 34); try assumption; nia || lia. }
  destruct SQ as [Q1 Q2].
  assert (A2 : on (q + q) (nsum (map nsq ds)) (zsum (map (fun m => (m * m)%Z) ms))) by (apply (sum_exact (q + q) (2 ^ 34)); [lia|lia|exact Q1|exact Q2|rewrite map_length, LD; lia]).
  pose proof (zsum_bound (2 ^ 34) _ Q2) as ZB2. rewrite map_length, LM in ZB2. pose proof (squares ms) as CS. rewrite LM in CS.
  set (s1 := zsum ms) in *. set (s2 := zsum (map (fun m => (m * m)%Z) ms)) in *.
  assert (ZB' : (Z.abs s1 <= 2 ^ 23)%Z) by nia. assert (SS : (0 <= s1 * s1 <= 2 ^ 46)%Z) by nia.
  assert (AP : on (q + q) (PrimFloat.mul (nsum ds) (nsum ds)) (s1 * s1)) by (apply (on_mul q _ s1 _ s1 46); try assumption; lia).
  destruct (count_ofZ (length l) HL) as (EN & FN & NB). cbn [nsub ndiv nmul NumF].
  replace (q + q + 47)%Z with (q + q + 46 + 1)%Z by lia. apply (sub_nonneg (q + q + 46)); [lia|apply (on_bd (q + q) _ s2 46); [lia|exact A2|lia]| |].
  - replace (q + q + 46)%Z with (q + q + 46 - 0)%Z by lia. apply bd_div; [lia|apply (on_bd (q + q) _ (s1 * s1) 46); [lia|exact AP|lia]|]. rewrite EN. change (bpow radix2 0) with 1. lra.
  - destruct A2 as [F2 E2]. destruct AP as [FP EP].
    assert (LE : IZR (s1 * s1) * bpow radix2 (q + q) / IZR (Z.of_nat (length l)) <= IZR s2 * bpow radix2 (q + q)).
    { apply Rmult_le_reg_r with (IZR (Z.of_nat (length l))); [lra|]. unfold Rdiv. rewrite Rmult_assoc, Rinv_l, Rmult_1_r by lra.
      apply IZR_le in CS. rewrite (mult_IZR (Z.of_nat _)) in CS. pose proof (bpow_gt_0 radix2 (q + q)). nra. }
    assert (GE : 0 <= IZR (s1 * s1) * bpow radix2 (q + q) / IZR (Z.of_nat (length l))).
    { apply Rmult_le_pos; [apply Rmult_le_pos; [apply (IZR_le 0); lia|apply bpow_ge_0]|apply Rlt_le, Rinv_0_lt_compat; lra]. }
    destruct (FR_div (PrimFloat.mul (nsum ds) (nsum ds)) (nofnat (length l)) FP) as [EV _].
    + rewrite EN. lra.
    + rewrite EN, EP. apply Rle_lt_trans with (bpow radix2 (q + q + 46)); [|unfold fmax; apply bpow_lt; change emax with 1024%Z; lia]. apply rnd_bd; [lia|].
      rewrite Rabs_pos_eq by exact GE. apply Rle_trans with (1 := LE). replace (q + q + 46)%Z with (46 + (q + q))%Z by lia. rewrite (bpow_plus radix2 46). apply Rmult_le_compat_r; [apply bpow_ge_0|]. change (bpow radix2 46) with (IZR (2 ^ 46)). apply IZR_le. lia.
    + cbn [ndiv NumF] in EV. change (FR (PrimFloat.div (PrimFloat.mul (nsum ds) (nsum ds)) (nofnat (length l))) = rnd (FR (PrimFloat.mul (nsum ds) (nsum ds)) / FR (nofnat (length l)))) in EV.
      rewrite EV, EN, EP. rewrite <- (rnd_FR (nsum (map nsq ds))), E2. apply rnd_le, LE.
Qed.

Lemma sq_low k x : (-500 <= k <= 400)%Z -> bd k x -> bd (k + k) (PrimFloat.mul x x) /\ 0 <= FR (PrimFloat.mul x x) /\ (forall j, (-500 <= j)%Z -> bpow radix2 j <= Rabs (FR x) -> bpow radix2 (j + j) <= FR (PrimFloat.mul x x)).
Proof.
  intros K B. split; [apply bd_mul; [lia|exact B|exact B]|]. destruct B as [F B]. destruct (FR_mul x x F F) as [E _].
  - apply Rle_lt_trans with (bpow radix2 (k + k)); [|unfold fmax; apply bpow_lt; change emax with 1024%Z; lia].
    apply rnd_bd; [lia|]. rewrite Rabs_mult, bpow_plus. apply Rmult_le_compat; try apply Rabs_pos; assumption.
  - rewrite E. split; [replace 0 with (rnd 0) by apply (rnd_Z 0 ltac:(lia)); apply rnd_le, Rle_0_sqr|].
    intros j Hj H. apply rnd_ge; [lia|]. rewrite bpow_plus. replace (FR x * FR x) with (Rabs (FR x) * Rabs (FR x)) by (rewrite <- Rabs_mult; apply Rabs_pos_eq, Rle_0_sqr).
    pose proof (bpow_ge_0 radix2 j). apply Rmult_le_compat; assumption.
Qed.
Lemma spread_wide mu l e : (1 <= length l <= 64)%nat -> (-300 <= e <= 200)%Z -> bd e mu -> Forall (bd e) l ->
  Rabs (IZR (Z.of_nat (length l)) * FR mu - rsum l) <= 4160 * (u * bpow radix2 e) -> (exists x, In x l /\ bpow radix2 (e - 37) <= Rabs (FR mu - FR x)) ->
  bd (e + e + 9) (spread mu l) /\ 0 <= FR (spread mu l).
Proof.
  intros HL He Bm HB HM (x0 & I0 & W0). unfold spread. set (ds := map (fun x => nsub mu x) l).
  set (B := bpow radix2 e) in *. assert (B0 : 0 < B) by apply bpow_gt_0. pose proof u_pos as U0. assert (UB : 0 < u * B) by (apply Rmult_lt_0_compat; assumption).
  assert (E1 : bpow radix2 (e + 1) = 2 * B) by (rewrite <- bpow_double; fold B; ring).
  assert (DX : forall x, bd e x -> bd (e + 1) (PrimFloat.sub mu x) /\ FR (PrimFloat.sub mu x) = rnd (FR mu - FR x) /\ Rabs (FR (PrimFloat.sub mu x) - (FR mu - FR x)) <= 2 * (u * B)).
  { intros x Bx. split; [apply bd_sub; [lia|exact Bm|exact Bx]|]. destruct Bm as [Fm Hm]. destruct Bx as [Fx Hx]. fold B in Hm, Hx.
    assert (Z1 : Rabs (FR mu - FR x) <= 2 * B) by (unfold Rminus; apply Rle_trans with (1 := Rabs_triang _ _); rewrite Rabs_Ropp; lra).
    assert (TB : tiny <= 2 * B) by (rewrite <- E1; unfold tiny; apply bpow_le; lia).
    pose proof (rnd_err _ _ Z1 TB) as R1. destruct (FR_sub mu x Fm Fx) as [E _]; [apply (rnd_fmax _ (2 * B)); [exact Z1|exact TB|rewrite <- E1; unfold big; apply bpow_le; lia]|].
    split; [exact E|]. rewrite E. apply Rle_trans with (1 := R1). lra. }
  assert (LD : length ds = length l) by (unfold ds; apply map_length).
  assert (BD : Forall (bd (e + 1)) ds) by (unfold ds; apply Forall_map; eapply Forall_impl; [|exact HB]; intros x Bx; apply DX, Bx).
  assert (RS : Rabs (rsum ds - (IZR (Z.of_nat (length l)) * FR mu - rsum l)) <= IZR (Z.of_nat (length l)) * (2 * (u * B))).
  { unfold ds. clear - HB DX. induction l as [|x l IH]; [cbn; rewrite !Rmult_0_l, !Rminus_0_r, Rabs_R0; lra|].
    inversion HB; subst. specialize (IH H2). cbn [map rsum fold_right length]. fold (rsum l). fold (rsum (map (fun x => nsub mu x) l)). rewrite Nat2Z.inj_succ, succ_IZR.
    destruct (DX x H1) as (_ & _ & D3). cbn [nsub NumF] in *. apply Rabs_le_inv in D3, IH. apply Rabs_le. lra. }
  destruct (sum_err (e + 1) ds ltac:(lia) BD ltac:(lia)) as [S1 _]. rewrite E1 in S1.
  destruct (count_ofZ (length l) HL) as (EN & FN & NB).
  destruct (bd_sum (e + 1) 6 ds ltac:(lia) ltac:(lia) ltac:(lia) ltac:(lia) BD) as [F3 _].
  assert (A3 : bd (e - 39) (nsum ds)).
  { split; [exact F3|]. apply Rle_trans with (16384 * (u * B)).
    - apply Rabs_le_inv in S1, RS, HM. apply Rabs_le. nra.
    - unfold B. replace (e - 39)%Z with (14 + (-53 + e))%Z by lia. rewrite bpow_plus, (bpow_plus radix2 (-53)). change (bpow radix2 14) with 16384. replace (bpow radix2 (-53)) with u by reflexivity. lra. }
  pose proof (bd_mul (e - 39) (e - 39) _ _ ltac:(lia) A3 A3) as P3.
  assert (Q3 : bd (e - 39 + (e - 39)) (ndiv (nmul (nsum ds) (nsum ds)) (nofnat (length l)))).
  { cbn [ndiv nmul NumF]. replace (e - 39 + (e - 39))%Z with (e - 39 + (e - 39) - 0)%Z by lia. apply bd_div; [lia|exact P3|]. rewrite EN. change (bpow radix2 0) with 1. lra. }
  assert (SQ : Forall (fun y => bd (e + 1 + (e + 1)) y /\ 0 <= FR y) (map nsq ds)).
  { apply Forall_map. eapply Forall_impl; [|exact BD]. intros d Bd. destruct (sq_low (e + 1) d ltac:(lia) Bd) as (X1 & X2 & _). split; assumption. }
  destruct (FR_ofZ 0 ltac:(lia)) as [EZ FZ].
  destruct (fold_low (e + 1 + (e + 1)) ltac:(lia) (map nsq ds) (F_ofZ 0) 0 SQ FZ) as [_ LOW]; [rewrite EZ; lra|lia|rewrite map_length; lia|rewrite EZ, Rabs_R0; lra|].
  change (fold_left PrimFloat.add (map nsq ds) (F_ofZ 0)) with (nsum (map nsq ds)) in LOW.
  assert (A2 : bpow radix2 (e - 37 + (e - 37)) <= FR (nsum (map nsq ds))).
  { rewrite Forall_forall in HB. destruct (DX x0 (HB x0 I0)) as (D1 & D2 & _). set (d0 := PrimFloat.sub mu x0) in *.
    apply Rle_trans with (FR (PrimFloat.mul d0 d0)).
    - apply (sq_low (e + 1) d0 ltac:(lia) D1); [lia|]. rewrite D2. apply rnd_abs_ge; [lia|exact W0].
    - apply LOW. change (PrimFloat.mul d0 d0) with (nsq d0). apply (in_map nsq ds d0). unfold ds. apply in_map_iff. exists x0. split; [reflexivity|exact I0]. }
  assert (B2 : bd (e + 1 + (e + 1) + 6) (nsum (map nsq ds))) by (apply bd_sum; [lia|lia|lia|rewrite map_length; lia|eapply Forall_impl; [|exact SQ]; intros y [Y _]; exact Y]).
  cbn [nsub NumF]. replace (e + e + 9)%Z with (e + 1 + (e + 1) + 6 + 1)%Z by lia. apply sub_nonneg; [lia|exact B2|eapply bd_weaken; [exact Q3|lia]|].
  apply Rle_trans with (bpow radix2 (e - 37 + (e - 37))); [|exact A2]. destruct Q3 as [_ Q3]. apply Rle_trans with (1 := Rle_abs _). apply Rle_trans with (1 := Q3). apply bpow_le. lia.
Qed.

Lemma largest (l : list PrimFloat.float) : l <> [] -> exists x0, In x0 l /\ forall x, In x l -> Rabs (FR x) <= Rabs (FR x0).
Proof.
  induction l as [|x l IH]; [congruence|]. intros _. destruct l as [|y l]; [exists x; split; [now left|]; intros z [<-|[]]; apply Rle_refl|].
  destruct IH as (x0 & I0 & M0); [discriminate|]. destruct (Rle_lt_dec (Rabs (FR x)) (Rabs (FR x0))) as [H|H].
  - exists x0. split; [now right|]. intros z [<-|Hz]; [exact H|apply M0, Hz].
  - exists x. split; [now left|]. intros z [<-|Hz]; [apply Rle_refl|]. specialize (M0 z Hz). lra.
Qed.
Lemma far_or_near (mu : R) (d : R) (l : list PrimFloat.float) : (exists x, In x l /\ d <= Rabs (mu - FR x)) \/ (forall x, In x l -> Rabs (mu - FR x) < d).
Proof.
  induction l as [|x l [(y & I & H)|H]]; [right; intros x []|left; exists y; split; [now right|exact H]|].
  destruct (Rle_lt_dec d (Rabs (mu - FR x))) as [G|G]; [left; exists x; split; [now left|exact G]|right]. intros y [<-|Hy]; [exact G|apply H, Hy].
Qed.
(** numbers that are zero or neither tiny nor huge *)
Definition moderate (x : PrimFloat.float) : Prop := bd 100 x /\ (FR x = 0 \/ bpow radix2 (-250) <= Rabs (FR x)).

Lemma mean_near e l : (-300 <= e <= 200)%Z -> (1 <= length l <= 64)%nat -> Forall (bd e) l -> bd e (vmean l) /\ Rabs (IZR (Z.of_nat (length l)) * FR (vmean l) - rsum l) <= 4160 * (u * bpow radix2 e).
Proof.
  intros He HL HB. destruct (count_ofZ (length l) HL) as (EN & FN & NB). destruct (sum_err e l ltac:(lia) HB ltac:(lia)) as [S1 _].
  destruct (FR_ofZ 0 ltac:(lia)) as [EZ FZ]. destruct (bd_fold e ltac:(lia) ltac:(lia) l (F_ofZ 0) 0 ltac:(lia) ltac:(lia) HB FZ) as [FS BS]; [rewrite EZ, Rabs_R0; lra|].
  change (fold_left PrimFloat.add l (F_ofZ 0)) with (nsum l) in FS, BS. rewrite Z.add_0_l in BS. unfold vmean. cbn [ndiv NumF].
  set (B := bpow radix2 e) in *. assert (B0 : 0 < B) by apply bpow_gt_0. pose proof u_pos as U0. set (s := nsum l) in *. set (n := IZR (Z.of_nat (length l))) in *.
  assert (Z1 : Rabs (FR s / n) <= B).
  { unfold Rdiv. rewrite Rabs_mult, (Rabs_pos_eq (/ n)) by (apply Rlt_le, Rinv_0_lt_compat; lra). apply Rmult_le_reg_r with n; [lra|]. rewrite Rmult_assoc, Rinv_l, Rmult_1_r by lra. lra. }
  assert (TB : tiny <= B) by (unfold tiny, B; apply bpow_le; lia). pose proof (rnd_err _ _ Z1 TB) as R1.
  destruct (FR_div s (nofnat (length l)) FS) as [EV FV].
  - rewrite EN. fold n. lra.
  - rewrite EN. apply (rnd_fmax _ B); [exact Z1|exact TB|unfold big, B; apply bpow_le; lia].
  - rewrite EN in EV. fold n in EV. set (mu := PrimFloat.div s (nofnat (length l))) in *. change (fin mu) in FV. change (FR mu = rnd (FR s / n)) in EV.
    split; [split; [exact FV|rewrite EV; apply rnd_bd; [lia|exact Z1]]|].
    assert (UB : 0 < u * B) by (apply Rmult_lt_0_compat; assumption).
    assert (R2 : Rabs (n * FR mu - FR s) <= 64 * (u * B)).
    { rewrite EV. replace (n * rnd (FR s / n) - FR s) with (n * (rnd (FR s / n) - FR s / n)) by (field; lra). rewrite Rabs_mult, (Rabs_pos_eq n) by lra. apply Rmult_le_compat; [lra|apply Rabs_pos|lra|exact R1]. }
    apply Rabs_le_inv in S1, R2. apply Rabs_le. lra.
Qed.
Lemma spread_nonneg l : (2 <= length l <= 64)%nat -> Forall moderate l -> bd 220 (spread (vmean l) l) /\ 0 <= FR (spread (vmean l) l).
Proof.
  intros HL HM. destruct (largest l) as (x0 & I0 & M0); [destruct l; [cbn in HL; lia|discriminate]|]. rewrite Forall_forall in HM.
  destruct (HM x0 I0) as [[Fx0 Bx0] [Z0|N0]].
  - assert (AZ : forall x, In x l -> fin x /\ FR x = 0).
    { intros x Hx. destruct (HM x Hx) as [[Fx _] _]. split; [exact Fx|]. specialize (M0 x Hx). rewrite Z0, Rabs_R0 in M0. pose proof (Rabs_pos (FR x)). assert (E : Rabs (FR x) = 0) by lra. destruct (Req_dec (FR x) 0) as [C|C]; [exact C|apply Rabs_no_R0 in C; congruence]. }
    assert (BL : Forall (bd (-300)) l). { apply Forall_forall. intros x Hx. destruct (AZ x Hx) as [Fx Ex]. split; [exact Fx|rewrite Ex, Rabs_R0; apply bpow_ge_0]. }
    assert (ON : on 0 (nsum l) (zsum (map (fun _ => 0%Z) l))).
    { apply (sum_exact 0 0); [lia|lia| |apply Forall_map, Forall_forall; intros; lia|lia]. clear - AZ. induction l as [|x l IH]; [constructor|]. cbn [map]. constructor; [|apply IH; intros y Hy; apply AZ; now right].
      destruct (AZ x (or_introl eq_refl)) as [F E]. split; [exact F|rewrite E; ring]. }
    assert (ZS : zsum (map (fun _ => 0%Z) l) = 0%Z) by (clear; induction l; [reflexivity|cbn; exact IHl]). rewrite ZS in ON. destruct ON as [FS ES].
    destruct (count_ofZ (length l) ltac:(lia)) as (EN & FN & NB).
    assert (MU : fin (vmean l) /\ FR (vmean l) = 0).
    { unfold vmean. cbn [ndiv NumF]. assert (RE : rnd (FR (nsum l) / FR (nofnat (length l))) = 0) by (rewrite ES, EN; replace (0 * bpow radix2 0 / IZR (Z.of_nat (length l))) with 0 by (field; lra); apply (rnd_Z 0 ltac:(lia))).
      destruct (FR_div (nsum l) (nofnat (length l)) FS) as [E F]; [rewrite EN; lra|rewrite RE, Rabs_R0; apply bpow_gt_0|]. split; [exact F|rewrite <- RE; exact E]. }
    destruct MU as [FM EM]. destruct (spread_grid (vmean l) l 0 ltac:(lia) ltac:(lia) FM) as [G1 G2].
    { intros x Hx. destruct (AZ x Hx) as [Fx Ex]. split; [exact Fx|]. exists 0%Z. split; [lia|]. rewrite EM, Ex. ring. }
    split; [eapply bd_weaken; [exact G1|lia]|exact G2].
  - assert (NZ : FR x0 <> 0) by (intros C; rewrite C, Rabs_R0 in N0; pose proof (bpow_gt_0 radix2 (-250)); lra).
    set (e := mag radix2 (FR x0) : Z).
    assert (E1 : Rabs (FR x0) < bpow radix2 e) by apply bpow_mag_gt. assert (E2 : bpow radix2 (e - 1) <= Rabs (FR x0)) by (apply bpow_mag_le, NZ).
    assert (E3 : (-249 <= e)%Z) by (apply mag_ge_bpow; exact N0).
    assert (E4 : (e <= 101)%Z) by (apply mag_le_bpow; [exact NZ|apply Rle_lt_trans with (1 := Bx0), bpow_lt; lia]).
    assert (BL : Forall (bd e) l). { apply Forall_forall. intros x Hx. destruct (HM x Hx) as [[Fx _] _]. split; [exact Fx|]. specialize (M0 x Hx). lra. }
    destruct (mean_near e l ltac:(lia) ltac:(lia) BL) as [BM NM]. set (mu := vmean l) in *.
    destruct (far_or_near (FR mu) (bpow radix2 (e - 37)) l) as [FAR|NEAR].
    + destruct (spread_wide mu l e ltac:(lia) ltac:(lia) BM BL NM FAR) as [G1 G2]. split; [eapply bd_weaken; [exact G1|lia]|exact G2].
    + assert (BP : bpow radix2 (e - 1) = 2 * bpow radix2 (e - 2) /\ bpow radix2 (e - 37) <= bpow radix2 (e - 2) / 8).
      { split; [replace (e - 1)%Z with (e - 2 + 1)%Z by lia; rewrite <- bpow_double; ring|]. replace (e - 2)%Z with (e - 5 + 3)%Z by lia. rewrite (bpow_plus radix2 (e - 5)). change (bpow radix2 3) with 8.
        apply Rle_trans with (bpow radix2 (e - 5)); [apply bpow_le; lia|lra]. }
      destruct BP as [BP1 BP2]. pose proof (bpow_gt_0 radix2 (e - 2)) as BP0.
      assert (LM : bpow radix2 (e - 2) <= Rabs (FR mu)).
      { pose proof (NEAR x0 I0) as H. pose proof (Rabs_triang_inv (FR x0) (FR x0 - FR mu)) as T. replace (FR x0 - (FR x0 - FR mu)) with (FR mu) in T by ring. rewrite (Rabs_minus_sym (FR x0)) in T. lra. }
      assert (LX : forall x, In x l -> bpow radix2 (e - 2) <= Rabs (FR x)).
      { intros x Hx. pose proof (NEAR x0 I0) as H. pose proof (NEAR x Hx) as H'. pose proof (Rabs_triang_inv (FR x0) (FR x0 - FR x)) as T. replace (FR x0 - (FR x0 - FR x)) with (FR x) in T by ring.
        assert (T2 : Rabs (FR x0 - FR x) <= Rabs (FR mu - FR x0) + Rabs (FR mu - FR x)) by (rewrite (Rabs_minus_sym (FR mu) (FR x0)); replace (FR x0 - FR x) with ((FR x0 - FR mu) + (FR mu - FR x)) by ring; apply Rabs_triang). lra. }
      destruct (spread_grid mu l (e - 54) ltac:(lia) ltac:(lia) (proj1 BM)) as [G1 G2].
      { intros x Hx. destruct (HM x Hx) as [[Fx _] _]. split; [exact Fx|].
        destruct (grid mu (e - 54) ltac:(lia)) as (a & Ea); [replace (e - 54 + 52)%Z with (e - 2)%Z by lia; exact LM|].
        destruct (grid x (e - 54) ltac:(lia)) as (b & Eb); [replace (e - 54 + 52)%Z with (e - 2)%Z by lia; apply LX, Hx|].
        exists (a - b)%Z. split; [|rewrite Ea, Eb, minus_IZR; ring].
        pose proof (NEAR x Hx) as H. rewrite Ea, Eb in H. replace (IZR a * bpow radix2 (e - 54) - IZR b * bpow radix2 (e - 54)) with (IZR (a - b) * bpow radix2 (e - 54)) in H by (rewrite minus_IZR; ring).
        rewrite Rabs_mult, (Rabs_pos_eq (bpow radix2 _)), <- abs_IZR in H by apply bpow_ge_0.
        assert (LT : IZR (Z.abs (a - b)) < IZR (2 ^ 17)).
        { apply Rmult_lt_reg_r with (bpow radix2 (e - 54)); [apply bpow_gt_0|]. apply Rlt_le_trans with (1 := H). change (IZR (2 ^ 17)) with (bpow radix2 17). rewrite <- bpow_plus. apply bpow_le. lia. }
        apply lt_IZR in LT. lia. }
      split; [eapply bd_weaken; [exact G1|lia]|exact G2].
Qed.
Lemma sqrt_bd k x : (-500 <= k <= 500)%Z -> bd (k + k) x -> 0 <= FR x -> bd k (PrimFloat.sqrt x) /\ 0 <= FR (PrimFloat.sqrt x).
Proof.
  intros K [F B] P. assert (FS : fin (PrimFloat.sqrt x)).
  { apply NsimFP.sqrt_finite; [exact F|]. destruct (FR_ofZ 0 ltac:(lia)) as [E0 F0]. change 0%float with (F_ofZ 0). rewrite FR_ltb by assumption. rewrite E0. apply Raux.Rlt_bool_false, P. }
  assert (E := FR_sqrt x). assert (S1 : R_sqrt.sqrt (FR x) <= bpow radix2 k).
  { rewrite <- (sqrt_square (bpow radix2 k)) by apply bpow_ge_0. apply sqrt_le_1_alt. rewrite <- bpow_plus. apply Rle_trans with (2 := B), Rle_abs. }
  assert (S0 := sqrt_pos (FR x)).
  assert (N : 0 <= FR (PrimFloat.sqrt x)) by (rewrite E; replace 0 with (rnd 0) by apply (rnd_Z 0 ltac:(lia)); apply rnd_le, S0).
  split; [split; [exact FS|]|exact N]. rewrite E. apply rnd_bd; [lia|]. rewrite Rabs_pos_eq; assumption.
Qed.
(** the variance of at most 64 moderate numbers is not negative, and the standard deviation is a finite number *)
Lemma variance_nonneg l : (1 <= length l <= 64)%nat -> Forall moderate l -> bd 220 (vvar l) /\ 0 <= FR (vvar l).
Proof.
  intros HL HM. destruct (Nat.eq_dec (length l) 1) as [E1|E1].
  - destruct l as [|a [|b l]]; try discriminate E1. cbn [vvar]. destruct (FR_ofZ 0 ltac:(lia)) as [E F]. change (@n0 PrimFloat.float NumF) with (F_ofZ 0). rewrite E. split; [split; [exact F|rewrite E, Rabs_R0; apply bpow_ge_0]|lra].
  - rewrite vvar_spread by lia. destruct (spread_nonneg l ltac:(lia) HM) as [B P]. destruct (count_ofZ (length l - 1) ltac:(lia)) as (EN & FN & NB). cbn [ndiv NumF]. set (s := spread _ _) in *.
    split; [replace 220%Z with (220 - 0)%Z by lia; apply bd_div; [lia|exact B|rewrite EN; change (bpow radix2 0) with 1; lra]|].
    assert (Z0 : 0 <= FR s / FR (nofnat (length l - 1))) by (apply Rmult_le_pos; [exact P|rewrite EN; apply Rlt_le, Rinv_0_lt_compat; lra]).
    destruct (FR_div s (nofnat (length l - 1)) (proj1 B)) as [E _]; [rewrite EN; lra| |].
    + apply Rle_lt_trans with (bpow radix2 220); [|unfold fmax; apply bpow_lt; reflexivity]. apply rnd_bd; [lia|]. rewrite Rabs_pos_eq by exact Z0. destruct B as [_ B]. rewrite Rabs_pos_eq in B by exact P.
      apply Rle_trans with (2 := B). apply Rmult_le_reg_r with (FR (nofnat (length l - 1))); [rewrite EN; lra|]. unfold Rdiv. rewrite Rmult_assoc, Rinv_l by (rewrite EN; lra). rewrite EN. nra.
    + change (FR (PrimFloat.div s (nofnat (length l - 1))) = rnd (FR s / FR (nofnat (length l - 1)))) in E. rewrite E. replace 0 with (rnd 0) by apply (rnd_Z 0 ltac:(lia)). apply rnd_le, Z0.
Qed.
Lemma deviation_finite l : (1 <= length l <= 64)%nat -> Forall moderate l -> bd 110 (nsqrt (vvar l)) /\ 0 <= FR (nsqrt (vvar l)).
Proof. intros HL HM. destruct (variance_nonneg l HL HM) as [B P]. exact (sqrt_bd 110 (vvar l) ltac:(lia) B P). Qed.
