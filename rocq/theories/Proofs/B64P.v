(** Real values of binary64 numbers, through Flocq. *)
From Coq Require Import ZArith Bool Reals Lra Lia Floats.
From Flocq Require Import Core.Core IEEE754.BinarySingleNaN IEEE754.PrimFloat.
From Verif Require Import Base.Num Base.NumF.
Open Scope R_scope.

#[local] Instance Hprec64 : Prec_gt_0 prec := eq_refl.
#[local] Instance Hmax64 : Prec_lt_emax prec emax := eq_refl.

Definition FR (x : PrimFloat.float) : R := B2R (Prim2B x).
Definition fin (x : PrimFloat.float) : Prop := is_finite (Prim2B x) = true.
Definition rnd (r : R) : R := round radix2 (fexp prec emax) ZnearestE r.
Definition fmax : R := bpow radix2 emax.

Lemma FR_add x y : fin x -> fin y -> Rabs (rnd (FR x + FR y)) < fmax ->
  FR (PrimFloat.add x y) = rnd (FR x + FR y) /\ fin (PrimFloat.add x y).
Proof.
  intros Fx Fy H. unfold FR, fin in *. rewrite add_equiv.
  pose proof (Bplus_correct prec emax _ _ mode_NE (Prim2B x) (Prim2B y) Fx Fy) as C.
  rewrite Rlt_bool_true in C by exact H. tauto.
Qed.
Lemma FR_sub x y : fin x -> fin y -> Rabs (rnd (FR x - FR y)) < fmax ->
  FR (PrimFloat.sub x y) = rnd (FR x - FR y) /\ fin (PrimFloat.sub x y).
Proof.
  intros Fx Fy H. unfold FR, fin in *. rewrite sub_equiv.
  pose proof (Bminus_correct prec emax _ _ mode_NE (Prim2B x) (Prim2B y) Fx Fy) as C.
  rewrite Rlt_bool_true in C by exact H. tauto.
Qed.
Lemma FR_mul x y : fin x -> fin y -> Rabs (rnd (FR x * FR y)) < fmax ->
  FR (PrimFloat.mul x y) = rnd (FR x * FR y) /\ fin (PrimFloat.mul x y).
Proof.
  intros Fx Fy H. unfold FR, fin in *. rewrite mul_equiv.
  pose proof (Bmult_correct prec emax _ _ mode_NE (Prim2B x) (Prim2B y)) as C.
  rewrite Rlt_bool_true in C by exact H. rewrite Fx, Fy in C. tauto.
Qed.
Lemma FR_div x y : fin x -> FR y <> 0 -> Rabs (rnd (FR x / FR y)) < fmax ->
  FR (PrimFloat.div x y) = rnd (FR x / FR y) /\ fin (PrimFloat.div x y).
Proof.
  intros Fx Fy H. unfold FR, fin in *. rewrite div_equiv.
  pose proof (Bdiv_correct prec emax _ _ mode_NE (Prim2B x) (Prim2B y) Fy) as C.
  rewrite Rlt_bool_true in C by exact H. rewrite Fx in C. tauto.
Qed.
Lemma FR_sqrt x : FR (PrimFloat.sqrt x) = rnd (R_sqrt.sqrt (FR x)).
Proof. unfold FR. rewrite sqrt_equiv. apply (Bsqrt_correct prec emax _ _ mode_NE (Prim2B x)). Qed.

(** numbers with at most 53 bits are kept *)
Lemma rnd_exact (m e : Z) r : r = IZR m * bpow radix2 e -> (Z.abs m < 2 ^ 53)%Z -> (-1074 <= e)%Z -> rnd r = r.
Proof.
  intros -> Hm He. apply round_generic; [apply valid_rnd_N|].
  apply (generic_format_FLT radix2 (3 - emax - prec) prec).
  exists (Float radix2 m e); [reflexivity|exact Hm|exact He].
Qed.
Lemma rnd_Z z : (Z.abs z < 2 ^ 53)%Z -> rnd (IZR z) = IZR z.
Proof. intros H. apply (rnd_exact z 0); [cbn; ring|exact H|lia]. Qed.
Lemma IZR_lt_fmax z : (Z.abs z < 2 ^ 53)%Z -> Rabs (IZR z) < fmax.
Proof.
  intros H. rewrite <- abs_IZR. unfold fmax. apply Rlt_trans with (IZR (2 ^ 53)); [now apply IZR_lt|].
  change (IZR (2 ^ 53)) with (IZR (Zpower radix2 53)). rewrite IZR_Zpower by lia. now apply bpow_lt.
Qed.
Lemma FR_ofZ z : (Z.abs z < 2 ^ 53)%Z -> FR (F_ofZ z) = IZR z /\ fin (F_ofZ z).
Proof.
  intros H. unfold FR, fin, F_ofZ.
  rewrite (binary_normalize_equiv z 0 false).
  replace (SF2Prim (B2SF _)) with (B2Prim (BinarySingleNaN.binary_normalize prec emax Hprec64 Hmax64 mode_NE z 0 false)).
  2:{ apply Prim2SF_inj. rewrite Prim2SF_B2Prim, Prim2SF_SF2Prim; [reflexivity|apply valid_binary_B2SF]. }
  rewrite Prim2B_B2Prim.
  pose proof (binary_normalize_correct prec emax Hprec64 Hmax64 mode_NE z 0 false) as C. cbv zeta in C.
  replace (F2R (Float radix2 z 0)) with (IZR z) in C by (unfold F2R; cbn; ring).
  change (round radix2 (fexp prec emax) (round_mode mode_NE) (IZR z)) with (rnd (IZR z)) in C.
  rewrite rnd_Z in C by exact H. rewrite Rlt_bool_true in C by (apply IZR_lt_fmax; exact H). tauto.
Qed.

Lemma FR_ltb x y : fin x -> fin y -> PrimFloat.ltb x y = Rlt_bool (FR x) (FR y).
Proof.
  intros Fx Fy. rewrite ltb_spec. unfold FR. rewrite <- (Bltb_correct prec emax _ _ Fx Fy).
  unfold Bltb. now rewrite !B2SF_Prim2B.
Qed.
Lemma FR_leb x y : fin x -> fin y -> PrimFloat.leb x y = Rle_bool (FR x) (FR y).
Proof.
  intros Fx Fy. rewrite leb_spec. unfold FR. rewrite <- (Bleb_correct prec emax _ _ Fx Fy).
  unfold Bleb. now rewrite !B2SF_Prim2B.
Qed.

(** the integer a float converts to *)
Lemma mag_trunc_floor m e : mag_trunc m e = Zfloor (IZR (Zpos m) * bpow radix2 e).
Proof.
  unfold mag_trunc. destruct e as [|p|p].
  - cbn [bpow]. now rewrite Rmult_1_r, Zfloor_IZR.
  - rewrite <- IZR_Zpower by lia. rewrite <- mult_IZR, Zfloor_IZR. reflexivity.
  - rewrite <- Zfloor_div by lia. reflexivity.
Qed.
Lemma F_trunc_spec x : fin x -> F_trunc x = Some (Ztrunc (FR x)).
Proof.
  unfold fin, FR, F_trunc. rewrite <- B2SF_Prim2B.
  destruct (Prim2B x) as [s|s| |s m e H]; cbn [is_finite B2SF B2R]; try discriminate; intros _.
  - now rewrite Ztrunc_IZR.
  - rewrite mag_trunc_floor. set (v := IZR (Zpos m) * bpow radix2 e).
    assert (Hv : 0 <= v) by (unfold v; apply Rmult_le_pos; [apply IZR_le; lia|apply bpow_ge_0]).
    replace (F2R _) with (if s then - v else v) by (destruct s; unfold F2R, v; cbn [Fnum Fexp cond_Zopp]; [rewrite opp_IZR|]; ring).
    destruct s; [rewrite Ztrunc_opp|]; now rewrite (Ztrunc_floor v Hv).
Qed.
