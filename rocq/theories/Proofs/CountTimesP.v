(** The reference times of a patch whose frames can be counted are finite and in order (C117). *)
From Coq Require Import ZArith List Bool Reals Lra Lia Floats.
From Flocq Require Import Core.Core IEEE754.BinarySingleNaN IEEE754.PrimFloat.
From Verif Require Import Base.Res Base.Num Base.NumR Base.NumF Base.Mat Model.Nsim Model.Visqol Proofs.B64P Proofs.ScoresP Proofs.AggFloatP Proofs.FinitePrepP Proofs.FiniteRunP.
Import ListNotations.
Open Scope Z_scope.

#[local] Instance Hprec64 : Prec_gt_0 prec := eq_refl.
#[local] Instance Hmax64 : Prec_lt_emax prec emax := eq_refl.

Lemma over_not_fin (b : binary_float prec emax) s : B2SF b = binary_overflow prec emax mode_NE s -> is_finite b = false.
Proof. intros H. destruct b; cbn in H; try discriminate; reflexivity. Qed.
Lemma sub_fin_inv x y : fin (PrimFloat.sub x y) -> fin x /\ fin y /\ FR (PrimFloat.sub x y) = rnd (FR x - FR y).
Proof.
  intros H. assert (XY : fin x /\ fin y).
  { revert H. unfold fin. rewrite sub_equiv. destruct (Prim2B x) as [sx|sx| |sx mx ex bx], (Prim2B y) as [sy|sy| |sy my ey b_y]; cbn; try discriminate; try (split; reflexivity); destruct sx, sy; cbn; try discriminate; split; reflexivity. }
  destruct XY as [Fx Fy]. split; [exact Fx|]. split; [exact Fy|]. unfold fin, FR in *. rewrite sub_equiv in *.
  pose proof (Bminus_correct prec emax _ _ mode_NE (Prim2B x) (Prim2B y) Fx Fy) as C. destruct (Rlt_bool_spec (Rabs (round radix2 (fexp prec emax) (round_mode mode_NE) (B2R (Prim2B x) - B2R (Prim2B y)))) (bpow radix2 emax)) as [G|G]; [exact (proj1 C)|].
  destruct C as [C _]. exfalso. pose proof (over_not_fin _ _ C) as N. exact (eq_true_false_abs _ H N).
Qed.
Lemma div_fin_inv x y : fin y -> (0 < FR y)%R -> fin (PrimFloat.div x y) -> fin x /\ FR (PrimFloat.div x y) = rnd (FR x / FR y).
Proof.
  intros Fy Py H. assert (Fx : fin x).
  { revert H Py. unfold fin, FR in *. rewrite div_equiv. destruct (Prim2B x) as [sx|sx| |sx mx ex bx], (Prim2B y) as [sy|sy| |sy my ey b_y]; cbn; try discriminate; reflexivity. }
  split; [exact Fx|]. unfold fin, FR in *. rewrite div_equiv in *.
  pose proof (Bdiv_correct prec emax _ _ mode_NE (Prim2B x) (Prim2B y) ltac:(lra)) as C. destruct (Rlt_bool_spec (Rabs (round radix2 (fexp prec emax) (round_mode mode_NE) (B2R (Prim2B x) / B2R (Prim2B y)))) (bpow radix2 emax)) as [G|G]; [exact (proj1 C)|].
  exfalso. pose proof (over_not_fin _ _ C) as N. exact (eq_true_false_abs _ H N).
Qed.
Lemma counted_times fd P (x : psr F) : fin fd -> (0 < FR fd)%R -> counted fd P x ->
  fin (ps_ref_start x) /\ fin (ps_ref_end x) /\ PrimFloat.ltb (ps_ref_start x) (ps_ref_end x) = true.
Proof.
  intros Ff Hf (c & E & B). unfold frame_count in E. cbn [nceil ndiv nsub NumF] in E. set (f := PrimFloat.sub (ps_ref_end x) (ps_ref_start x)) in *. set (v := PrimFloat.div f fd) in *.
  assert (Fv : fin v). { destruct (F_ceil v) eqn:EC; [|discriminate]. revert EC. unfold F_ceil, fin. rewrite <- B2SF_Prim2B. destruct (Prim2B v); cbn; try discriminate; reflexivity. }
  rewrite (F_ceil_spec _ Fv) in E. match type of E with (if ?b then _ else _) = _ => destruct b; [|discriminate] end. assert (EC : Zceil (FR v) = c) by congruence.
  assert (V1 : (1 < FR v)%R). { destruct (Rlt_le_dec 1 (FR v)) as [Hv|Hv]; [exact Hv|]. exfalso. assert (Zceil (FR v) <= 1) by (apply Zceil_glb; exact Hv). lia. }
  destruct (div_fin_inv f fd Ff Hf Fv) as [F1 E1]. fold v in E1. destruct (sub_fin_inv _ _ F1) as (F2 & F3 & E2). fold f in E2. split; [exact F3|]. split; [exact F2|].
  assert (Z0 : rnd 0 = 0%R) by apply (rnd_Z 0 ltac:(lia)).
  assert (FP : (0 < FR f)%R).
  { destruct (Rlt_le_dec 0 (FR f)) as [G|G]; [exact G|]. exfalso. assert (FR v <= 0)%R; [|lra]. rewrite E1, <- Z0. apply ScoresP.rnd_le. unfold Rdiv. assert (0 < / FR fd)%R by (apply Rinv_0_lt_compat; exact Hf). nra. }
  rewrite FR_ltb by assumption. apply Rlt_bool_true. destruct (Rlt_le_dec (FR (ps_ref_start x)) (FR (ps_ref_end x))) as [G|G]; [exact G|]. exfalso.
  assert (FR f <= 0)%R; [|lra]. rewrite E2, <- Z0. apply ScoresP.rnd_le. lra.
Qed.
