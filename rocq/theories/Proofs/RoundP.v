(** Rounding errors of binary64 expressions: the computed value is within a given distance of the exact one. *)
From Coq Require Import ZArith List Bool Reals Lra Lia Floats.
From Coq Require Import Psatz.
From Flocq Require Import Core.Core IEEE754.BinarySingleNaN IEEE754.PrimFloat.
From Verif Require Import Base.Num Base.NumR Base.NumF Proofs.B64P.
Import ListNotations.
Open Scope R_scope.

#[local] Instance Hprec64 : Prec_gt_0 prec := eq_refl.
#[local] Instance Hmax64 : Prec_lt_emax prec emax := eq_refl.

(** half the distance of neighbouring numbers near 1 *)
Definition u : R := / IZR (2 ^ 53).
Lemma u_pos : 0 < u. Proof. unfold u. apply Rinv_0_lt_compat, IZR_lt. reflexivity. Qed.
Lemma u_small : u <= 12 / 100000000000000000.
Proof. unfold u. apply Rmult_le_reg_r with (IZR (2 ^ 53)); [apply IZR_lt; reflexivity|]. rewrite Rinv_l by (apply Rgt_not_eq, IZR_lt; reflexivity). cbn. lra. Qed.

Definition tiny : R := bpow radix2 (-1022).
Definition big : R := bpow radix2 1000.
Lemma tiny_small : tiny <= 1 / 1000000000000000000000000.
Proof.
  unfold tiny. apply Rle_trans with (bpow radix2 (-80)); [apply bpow_le; lia|]. cbn -[Rdiv]. lra.
Qed.
Lemma big_large : 1000000000000000000000000 <= big.
Proof. unfold big. apply Rle_trans with (bpow radix2 80); [cbn; lra|apply bpow_le; lia]. Qed.

Lemma rnd_err z B : Rabs z <= B -> tiny <= B -> Rabs (rnd z - z) <= u * B.
Proof.
  intros Hz HB. unfold rnd.
  assert (V : Valid_exp (fexp prec emax)) by apply fexp_correct, Hprec64.
  apply Rle_trans with (/ 2 * ulp radix2 (fexp prec emax) z); [apply (error_le_half_ulp radix2 (fexp prec emax) (fun x => negb (Z.even x)) z)|].
  assert (B0 : 0 < B) by (apply Rlt_le_trans with tiny; [apply bpow_gt_0|exact HB]).
  assert (L1 : ulp radix2 (fexp prec emax) z <= ulp radix2 (fexp prec emax) B).
  { apply (@ulp_le radix2 (fexp prec emax) V (fexp_monotone prec emax)). rewrite (Rabs_pos_eq B) by lra. exact Hz. }
  assert (L2 : ulp radix2 (fexp prec emax) B <= B * bpow radix2 (1 - prec)).
  { rewrite <- (Rabs_pos_eq B) at 2 by lra. apply (ulp_FLT_le radix2 (3 - emax - prec) prec). rewrite Rabs_pos_eq by lra. exact HB. }
  assert (E : u = / 2 * bpow radix2 (1 - prec)). { unfold u. cbn. lra. }
  rewrite E. apply Rle_trans with (/ 2 * (B * bpow radix2 (1 - prec))); [lra|]. lra.
Qed.
Lemma rnd_fmax z B : Rabs z <= B -> tiny <= B -> B <= big -> Rabs (rnd z) < fmax.
Proof.
  intros H1 H2 H3. pose proof (rnd_err z B H1 H2) as E. pose proof u_small. pose proof u_pos.
  assert (Rabs (rnd z) <= 2 * B).
  { replace (rnd z) with (rnd z - z + z) by ring. apply Rle_trans with (1 := Rabs_triang _ _). assert (0 <= B) by (apply Rle_trans with (2 := H1), Rabs_pos). nra. }
  apply Rle_lt_trans with (1 := H4). apply Rle_lt_trans with (2 * big); [lra|]. unfold big, fmax. change (2 * bpow radix2 1000) with (bpow radix2 1 * bpow radix2 1000).
  rewrite <- bpow_plus. apply bpow_lt. reflexivity.
Qed.

Definition near (x : PrimFloat.float) (r d M : R) : Prop := fin x /\ Rabs (FR x - r) <= d /\ Rabs r <= M.

Lemma near_weaken x r d M d' M' : near x r d M -> d <= d' -> M <= M' -> near x r d' M'.
Proof. intros (F & H1 & H2) D1 D2. split; [exact F|]. split; lra. Qed.
Lemma near_exact x M : fin x -> Rabs (FR x) <= M -> near x (FR x) 0 M.
Proof. intros F H. split; [exact F|]. split; [rewrite Rminus_diag_eq, Rabs_R0 by reflexivity; lra|exact H]. Qed.
Lemma near_pos x r d M : near x r d M -> 0 <= d /\ 0 <= M.
Proof. intros (_ & H1 & H2). pose proof (Rabs_pos (FR x - r)). pose proof (Rabs_pos r). lra. Qed.
Lemma near_value x r d M : near x r d M -> Rabs (FR x) <= M + d.
Proof. intros (_ & H1 & H2). replace (FR x) with (FR x - r + r) by ring. apply Rle_trans with (1 := Rabs_triang _ _). lra. Qed.

(** one operation, given the distance of the exact operation on the computed operands *)
Lemma near_op (x : PrimFloat.float) z r Q B D M : (Rabs (rnd z) < fmax -> FR x = rnd z /\ fin x) ->
  Rabs (z - r) <= Q -> Rabs z <= B -> tiny <= B -> B <= big -> Q + u * B <= D -> Rabs r <= M -> near x r D M.
Proof.
  intros HX HQ HB T1 T2 HD HM. destruct (HX (rnd_fmax z B HB T1 T2)) as [E F]. split; [exact F|]. split; [|exact HM].
  rewrite E. replace (rnd z - r) with ((rnd z - z) + (z - r)) by ring. apply Rle_trans with (1 := Rabs_triang _ _). pose proof (rnd_err z B HB T1). lra.
Qed.

Lemma near_add x r d M y s e K B D : near x r d M -> near y s e K -> M + d + K + e <= B -> tiny <= B -> B <= big -> d + e + u * B <= D ->
  near (PrimFloat.add x y) (r + s) D (M + K).
Proof.
  intros HX HY HB T1 T2 HD. pose proof (near_value _ _ _ _ HX) as VX. pose proof (near_value _ _ _ _ HY) as VY. destruct HX as (FX & X1 & X2). destruct HY as (FY & Y1 & Y2).
  apply (near_op _ (FR x + FR y) _ (d + e) B); [intros H; exact (FR_add x y FX FY H)| | |assumption ..|].
  - replace (FR x + FR y - (r + s)) with ((FR x - r) + (FR y - s)) by ring. apply Rle_trans with (1 := Rabs_triang _ _). lra.
  - apply Rle_trans with (1 := Rabs_triang _ _). lra.
  - apply Rle_trans with (1 := Rabs_triang _ _). lra.
Qed.
Lemma near_sub x r d M y s e K B D : near x r d M -> near y s e K -> M + d + K + e <= B -> tiny <= B -> B <= big -> d + e + u * B <= D ->
  near (PrimFloat.sub x y) (r - s) D (M + K).
Proof.
  intros HX HY HB T1 T2 HD. pose proof (near_value _ _ _ _ HX) as VX. pose proof (near_value _ _ _ _ HY) as VY. destruct HX as (FX & X1 & X2). destruct HY as (FY & Y1 & Y2).
  assert (TR : forall a b, Rabs (a - b) <= Rabs a + Rabs b) by (intros a b; replace (a - b) with (a + - b) by ring; rewrite <- (Rabs_Ropp b); apply Rabs_triang).
  apply (near_op _ (FR x - FR y) _ (d + e) B); [intros H; exact (FR_sub x y FX FY H)| | |assumption ..|].
  - replace (FR x - FR y - (r - s)) with ((FR x - r) - (FR y - s)) by ring. apply Rle_trans with (1 := TR _ _). lra.
  - apply Rle_trans with (1 := TR _ _). lra.
  - apply Rle_trans with (1 := TR _ _). lra.
Qed.
Lemma near_mul x r d M y s e K Q B D : near x r d M -> near y s e K -> d * K + M * e + d * e <= Q -> (M + d) * (K + e) <= B -> tiny <= B -> B <= big ->
  Q + u * B <= D -> near (PrimFloat.mul x y) (r * s) D (M * K).
Proof.
  intros HX HY HQ HB T1 T2 HD. pose proof (near_value _ _ _ _ HX) as VX. pose proof (near_value _ _ _ _ HY) as VY.
  pose proof (near_pos _ _ _ _ HX) as [PX PX']. pose proof (near_pos _ _ _ _ HY) as [PY PY']. destruct HX as (FX & X1 & X2). destruct HY as (FY & Y1 & Y2).
  apply (near_op _ (FR x * FR y) _ Q B); [intros H; exact (FR_mul x y FX FY H)| | |assumption ..|].
  - replace (FR x * FR y - r * s) with ((FR x - r) * s + r * (FR y - s) + (FR x - r) * (FR y - s)) by ring.
    apply Rle_trans with (1 := Rabs_triang _ _). apply Rle_trans with (2 := HQ). apply Rplus_le_compat.
    + apply Rle_trans with (1 := Rabs_triang _ _). rewrite !Rabs_mult. apply Rplus_le_compat; apply Rmult_le_compat; (apply Rabs_pos || assumption).
    + rewrite Rabs_mult. apply Rmult_le_compat; (apply Rabs_pos || assumption).
  - rewrite Rabs_mult. apply Rle_trans with (2 := HB). apply Rmult_le_compat; (apply Rabs_pos || assumption).
  - rewrite Rabs_mult. apply Rmult_le_compat; (apply Rabs_pos || assumption).
Qed.
(** the divisor is at least L; the exact quotient at most G *)
Lemma near_div x r d M y s e K L G Q D : near x r d M -> near y s e K -> 0 < L -> L <= s -> e < L -> Rabs r <= G * s -> 0 <= G ->
  d + G * e <= Q * (L - e) -> G + Q <= big -> tiny <= G + Q -> Q + u * (G + Q) <= D -> near (PrimFloat.div x y) (r / s) D G.
Proof.
  intros HX HY L0 HL HE HG G0 HQ HB HT HD. pose proof (near_pos _ _ _ _ HX) as [PX PX']. pose proof (near_pos _ _ _ _ HY) as [PY PY']. destruct HX as (FX & X1 & X2). destruct HY as (FY & Y1 & Y2).
  assert (Y1a := Rle_trans _ _ _ (Rle_abs _) Y1). assert (Y1b := Rle_trans _ _ _ (Rle_abs (- (FR y - s))) ltac:(rewrite Rabs_Ropp; exact Y1)). assert (Y0 : 0 < L - e <= FR y) by lra.
  assert (EG : Rabs (r / s) <= G).
  { unfold Rdiv. rewrite Rabs_mult, (Rabs_pos_eq (/ s)) by (left; apply Rinv_0_lt_compat; lra). apply Rmult_le_reg_r with s; [lra|]. rewrite Rmult_assoc, Rinv_l by lra. lra. }
  assert (EQ : Rabs (FR x / FR y - r / s) <= Q).
  { replace (FR x / FR y - r / s) with (((FR x - r) + (r / s) * (s - FR y)) / FR y) by (field; split; lra).
    unfold Rdiv at 1. rewrite Rabs_mult, (Rabs_pos_eq (/ FR y)) by (left; apply Rinv_0_lt_compat; lra).
    apply Rmult_le_reg_r with (FR y); [lra|]. rewrite Rmult_assoc, Rinv_l, Rmult_1_r by lra.
    assert (Q0 : 0 <= Q). { destruct (Rlt_le_dec Q 0); [|assumption]. exfalso. assert (0 <= d + G * e) by nra. assert (Q * (L - e) < 0) by nra. lra. }
    apply Rle_trans with (d + G * e); [|nra]. apply Rle_trans with (1 := Rabs_triang _ _). rewrite Rabs_mult. apply Rplus_le_compat; [exact X1|].
    apply Rmult_le_compat; try apply Rabs_pos; [exact EG|]. apply Rabs_le. lra. }
  apply (near_op _ (FR x / FR y) _ Q (G + Q)); [intros H; apply FR_div; [exact FX|lra|exact H]|exact EQ| |assumption ..].
  replace (FR x / FR y) with ((FR x / FR y - r / s) + r / s) by ring. apply Rle_trans with (1 := Rabs_triang _ _). lra.
Qed.

Lemma fin_sqrt x : fin x -> 0 <= FR x -> fin (PrimFloat.sqrt x).
Proof.
  unfold fin, FR. rewrite sqrt_equiv. intros F H. pose proof (Bsqrt_correct prec emax _ _ mode_NE (Prim2B x)) as C. destruct C as (_ & C & _). refine (eq_trans C _). clear C.
  destruct (Prim2B x) as [s|s| |s m e E]; try reflexivity; try discriminate. destruct s; [|reflexivity]. exfalso. cbn [B2R] in H.
  assert (F2R (Float radix2 (cond_Zopp true (Zpos m)) e) < 0) by (apply F2R_lt_0; reflexivity). lra.
Qed.

Lemma sqrt_close a b : 0 <= a -> 0 < b -> Rabs (R_sqrt.sqrt a - R_sqrt.sqrt b) <= Rabs (a - b) / R_sqrt.sqrt b.
Proof.
  intros Ha Hb. pose proof (sqrt_lt_R0 b Hb) as SB. pose proof (sqrt_pos a) as SA.
  replace (a - b) with ((R_sqrt.sqrt a - R_sqrt.sqrt b) * (R_sqrt.sqrt a + R_sqrt.sqrt b)).
  2:{ pose proof (sqrt_sqrt a Ha). pose proof (sqrt_sqrt b ltac:(lra)). lra. }
  rewrite Rabs_mult, (Rabs_pos_eq (R_sqrt.sqrt a + R_sqrt.sqrt b)) by lra.
  apply Rmult_le_reg_r with (R_sqrt.sqrt b); [exact SB|]. unfold Rdiv. rewrite Rmult_assoc, Rinv_l by lra. pose proof (Rabs_pos (R_sqrt.sqrt a - R_sqrt.sqrt b)). nra.
Qed.

(** *** sums *)
Lemma near_ofZ z M : (Z.abs z < 2 ^ 53)%Z -> Rabs (IZR z) <= M -> near (F_ofZ z) (IZR z) 0 M.
Proof. intros H HM. destruct (FR_ofZ z H) as [E F]. rewrite <- E in *. apply near_exact; assumption. Qed.

Definition sum_bound : R := 3000000.
Lemma near_sum eps : 0 <= eps <= 1 / 2 -> forall (l : list (PrimFloat.float * R)) x r k, Forall (fun p => near (fst p) (snd p) eps 1) l ->
  near x r (k * (eps + u * sum_bound)) k -> 0 <= k -> k + INR (length l) <= 1000000 ->
  near (fold_left PrimFloat.add (map fst l) x) (fold_left Rplus (map snd l) r) ((k + INR (length l)) * (eps + u * sum_bound)) (k + INR (length l)).
Proof.
  intros HE. assert (UB : 0 <= u * sum_bound <= 1 / 10000) by (unfold sum_bound; pose proof u_pos; pose proof u_small; lra). assert (EU : 0 <= eps + u * sum_bound <= 1) by lra.
  induction l as [|[y s] l IH]; intros x r k HF HX HK HN.
  - cbn [map fold_left length INR]. rewrite !Rplus_0_r. exact HX.
  - inversion HF as [|? ? H1 H2]; subst. cbn [fst snd] in H1. cbn [map fst snd fold_left].
    replace (k + INR (length ((y, s) :: l))) with (k + 1 + INR (length l)) in * by (cbn [length]; rewrite S_INR; ring). pose proof (pos_INR (length l)).
    apply IH; [exact H2| |lra|exact HN].
    pose proof tiny_small. pose proof big_large.
    apply (near_weaken _ _ ((k + 1) * (eps + u * sum_bound)) (k + 1)); [|lra ..].
    apply (near_add x r (k * (eps + u * sum_bound)) k y s eps 1 sum_bound); [exact HX|exact H1| |unfold sum_bound; lra|unfold sum_bound; lra|lra].
    unfold sum_bound at 2. nra.
Qed.
Lemma near_mean eps (l : list (PrimFloat.float * R)) : 0 <= eps <= 1 / 100 -> l <> [] -> (Z.of_nat (length l) <= 1000000)%Z -> Forall (fun p => near (fst p) (snd p) eps 1) l ->
  near (ndiv (nsum (map fst l)) (nofnat (length l))) (fold_left Rplus (map snd l) 0 / INR (length l)) (eps + 1 / 1000000000) 1.
Proof.
  intros HE HL HN HF. set (n := length l) in *.
  assert (N1 : 1 <= INR n). { replace 1 with (INR 1) by reflexivity. apply le_INR. unfold n. destruct l; [congruence|cbn [length]; lia]. }
  assert (N2 : INR n <= 1000000) by (rewrite INR_IZR_INZ; apply IZR_le; exact HN).
  assert (Z0 : near (F_ofZ 0) 0 (0 * (eps + u * sum_bound)) 0).
  { rewrite Rmult_0_l. apply (near_ofZ 0); [reflexivity|rewrite Rabs_R0; lra]. }
  pose proof (near_sum eps ltac:(lra) l (F_ofZ 0) 0 0 HF Z0 ltac:(lra) ltac:(fold n; lra)) as HS. fold n in HS. rewrite !Rplus_0_l in HS.
  assert (HD : near (F_ofZ (Z.of_nat n)) (INR n) 0 (INR n)).
  { rewrite INR_IZR_INZ. apply near_ofZ; [lia|]. rewrite Rabs_pos_eq by (apply IZR_le; lia). lra. }
  assert (UB : 0 <= u * sum_bound <= 5 / 10000000000) by (unfold sum_bound; pose proof u_pos; pose proof u_small; lra).
  pose proof tiny_small. pose proof big_large. pose proof u_small. pose proof u_pos.
  refine (near_div _ _ _ _ _ _ _ _ (INR n) 1 (eps + u * sum_bound) _ HS HD _ _ _ _ _ _ _ _ _); try lra.
  - destruct HS as (_ & _ & HS). lra.
  - assert (u * (1 + (eps + u * sum_bound)) <= u * 2) by (apply Rmult_le_compat_l; lra). lra.
Qed.
