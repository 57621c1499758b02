(** Correctly rounded elementary functions are accurate (C101). *)
From Coq Require Import ZArith List Bool Reals Lra Lia Floats Psatz.
From Flocq Require Import Core.Core IEEE754.BinarySingleNaN IEEE754.PrimFloat.
From Interval Require Import Tactic.
From Verif Require Import Base.Num Base.NumF Spec.UndefinedSpec Spec.StableSpec Spec.LibmSpec Proofs.B64P Proofs.RoundP Proofs.ScoresP Proofs.FinitePrepP Proofs.StableBankP Proofs.RelP Proofs.LevelFloatP Proofs.AccurateRunP.
Open Scope R_scope.

(** the nearest number in binary64 *)
Definition nearest_float (r : R) : PrimFloat.float :=
  B2Prim (binary_normalize prec emax Hprec Hmax mode_NE (ZnearestE (scaled_mantissa radix2 (SpecFloat.fexp prec emax) r)) (cexp radix2 (SpecFloat.fexp prec emax) r) false).
Lemma FR_nearest r : Rabs (rnd r) < fmax -> FR (nearest_float r) = rnd r /\ fin (nearest_float r).
Proof.
  intros H. unfold nearest_float, FR, fin. rewrite Prim2B_B2Prim.
  pose proof (binary_normalize_correct prec emax Hprec Hmax mode_NE (ZnearestE (scaled_mantissa radix2 (SpecFloat.fexp prec emax) r)) (cexp radix2 (SpecFloat.fexp prec emax) r) false) as C.
  change (F2R (Float radix2 (ZnearestE (scaled_mantissa radix2 (SpecFloat.fexp prec emax) r)) (cexp radix2 (SpecFloat.fexp prec emax) r))) with (rnd r) in C.
  assert (I : round radix2 (SpecFloat.fexp prec emax) (round_mode mode_NE) (rnd r) = rnd r).
  { apply round_generic; [apply valid_rnd_round_mode|]. apply generic_format_round; [apply fexp_correct; exact Hprec|apply valid_rnd_N]. }
  change (bpow radix2 emax) with fmax in C. cbv zeta in C. rewrite I in C. rewrite Rlt_bool_true in C by exact H. destruct C as (C1 & C2 & _). auto.
Qed.
Lemma nearest_near r B : Rabs r <= B -> tiny <= B -> B <= big -> fin (nearest_float r) /\ Rabs (FR (nearest_float r) - r) <= u * B.
Proof.
  intros H1 H2 H3. destruct (FR_nearest r) as [E Fr]; [apply (rnd_fmax _ B); assumption|]. split; [exact Fr|]. rewrite E. apply rnd_err; assumption.
Qed.
(** correctly rounded functions, with the usual values at zero and the infinities *)
Definition rounded_libm : Libm PrimFloat.float := Build_Libm _
  (fun x => nearest_float (exp (FR x))) (fun x => nearest_float (ln (FR x)))
  (fun x => if PrimFloat.eqb x 0 then neg_infinity else if PrimFloat.ltb 0 x && PrimFloat.ltb x infinity then nearest_float (ln (FR x) / ln 10) else if PrimFloat.eqb x infinity then infinity else nan)
  (fun x => if PrimFloat.eqb x infinity then infinity else if PrimFloat.eqb x neg_infinity then 0%float else if PrimFloat.eqb x x then nearest_float (exp (FR x * ln 10)) else nan)
  (fun x => nearest_float (cos (FR x))) (fun x => nearest_float (sin (FR x))) (nearest_float PI).

Lemma u_dl : u <= dl / 2. Proof. pose proof u_small. unfold dl. lra. Qed.
Lemma nearest_rel r : 0 < r -> tiny <= r <= big -> fin (nearest_float r) /\ Rabs (FR (nearest_float r) - r) <= dl * r.
Proof. intros P [H1 H2]. destruct (nearest_near r r) as [Fr E]; [rewrite Rabs_pos_eq; lra|exact H1|exact H2|]. split; [exact Fr|]. pose proof u_dl. pose proof u_pos. apply Rle_trans with (1 := E). apply Rmult_le_compat_r; lra. Qed.
Lemma nearest_abs r B : 1 <= B <= 1000 -> Rabs r <= B -> fin (nearest_float r) /\ Rabs (FR (nearest_float r) - r) <= B * dl.
Proof.
  intros P H. destruct (nearest_near r B H) as [Fr E]; [pose proof tiny_small; lra|pose proof big_large; lra|]. split; [exact Fr|]. pose proof u_dl. pose proof u_pos. apply Rle_trans with (1 := E). rewrite Rmult_comm. apply Rmult_le_compat_l; lra.
Qed.
Lemma exp_range y : -120 <= y <= 120 -> tiny <= exp y <= big.
Proof.
  intros H. assert (L2 : 69 / 100 <= ln 2) by interval. unfold tiny, big. rewrite !bpow_exp. change (IZR radix2) with 2. split; apply Raux.exp_le; lra.
Qed.
Lemma eqb_fin x y : fin x -> fin y -> PrimFloat.eqb x y = true -> FR x = FR y.
Proof. intros Fx Fy H. rewrite eqb_equiv, Beqb_correct in H by assumption. revert H. fold (FR x) (FR y). case Req_bool_spec; [auto|discriminate]. Qed.
Lemma eqb_inf x s : fin x -> Prim2B s = B754_infinity true \/ Prim2B s = B754_infinity false -> PrimFloat.eqb x s = false.
Proof. unfold fin. rewrite eqb_equiv. intros Fx [->| ->]; destruct (Prim2B x) as [[]|?| |[] ? ? ?]; try discriminate; reflexivity. Qed.
Lemma eqb_self x : fin x -> PrimFloat.eqb x x = true.
Proof. intros Fx. rewrite eqb_equiv, Beqb_correct by assumption. apply Req_bool_true. reflexivity. Qed.
Lemma undefined_cmp x y : undefined x -> PrimFloat.eqb x y = false /\ PrimFloat.ltb y x = false.
Proof. rewrite undefined_B, eqb_equiv, ltb_equiv. intros ->. split; [reflexivity|]. destruct (Prim2B y) as [[]|[]| |[] ? ? ?]; reflexivity. Qed.
Lemma rounded_accurate : accurate rounded_libm.
Proof.
  pose proof ln10_b as L10. constructor; cbn [mexp mlog mlog10 mpow10 mcos msin mpi rounded_libm].
  - intros x Fx H. apply nearest_rel; [apply exp_pos|]. apply exp_range. apply Rabs_le_inv in H. lra.
  - intros x Fx H. assert (LB : 69 / 100 <= ln (FR x) <= 21).
    { split; [apply Rle_trans with (ln 2); [interval|apply Rcomplements.ln_le; lra]|apply Rle_trans with (ln 1000000000); [apply Rcomplements.ln_le; lra|interval]]. }
    apply nearest_rel; [lra|]. pose proof tiny_small. pose proof big_large. lra.
  - intros x Fx H. rewrite <- (Rmult_1_l dl). apply nearest_abs; [lra|]. apply Rabs_le, COS_bound.
  - intros x Fx H. rewrite <- (Rmult_1_l dl). apply nearest_abs; [lra|]. apply Rabs_le, SIN_bound.
  - assert (PB : 3 <= PI <= 35 / 10) by (split; interval). destruct (nearest_near PI 4) as [Fp E]; [rewrite Rabs_pos_eq; lra|pose proof tiny_small; lra|pose proof big_large; lra|]. split; [exact Fp|]. pose proof u_small. unfold dl. lra.
  - intros x Fx H. destruct (PrimFloat.eqb x 0) eqn:E0; [apply eqb_fin in E0; [|exact Fx|reflexivity]; change (FR 0) with 0 in E0; lra|].
    assert (L1 : PrimFloat.ltb 0 x = true). { rewrite ltb_equiv, Bltb_correct; [|reflexivity|exact Fx]. apply Rlt_bool_true. exact H. }
    assert (L2 : PrimFloat.ltb x infinity = true). { rewrite ltb_equiv. unfold fin in Fx. destruct (Prim2B x) as [[]|?| |[] ? ? ?]; try discriminate; reflexivity. }
    rewrite L1, L2. cbn [andb]. apply nearest_abs; [lra|]. pose proof (ln_fin x Fx H) as B.
    unfold Rdiv. rewrite Rabs_mult, (Rabs_pos_eq (/ ln 10)) by (left; apply Rinv_0_lt_compat; lra). apply Rmult_le_reg_r with (ln 10); [lra|]. rewrite Rmult_assoc, Rinv_l, Rmult_1_r by lra. lra.
  - intros x Fx H. rewrite !eqb_inf by (try exact Fx; first [left; reflexivity|right; reflexivity]). rewrite eqb_self by exact Fx. apply nearest_rel; [apply exp_pos|]. apply exp_range. apply Rabs_le_inv in H. split; nra.
  - intros x Fx. pose proof (COS_bound (FR x)) as B. assert (RB : -1 <= rnd (cos (FR x)) <= 1).
    { split; [replace (-1) with (rnd (-1)) by (apply (rnd_exact (-1) 0); [cbn; ring|lia|lia])|replace 1 with (rnd 1) by (apply (rnd_exact 1 0); [cbn; ring|lia|lia])]; apply rnd_le; lra. }
    destruct (FR_nearest (cos (FR x))) as [E Fc]; [apply (rnd_fmax _ 1); [apply Rabs_le; lra|pose proof tiny_small; lra|pose proof big_large; lra]|]. apply within_of; [reflexivity|exact Fc|]. rewrite E, FR_1. apply Rabs_le. exact RB.
  - intros x Fx H. replace (PrimFloat.eqb x 0) with true; [reflexivity|]. symmetry. rewrite eqb_equiv, Beqb_correct; [|exact Fx|reflexivity]. apply Req_bool_true. exact H.
  - intros x U. destruct (undefined_cmp x 0 U) as [-> ->]. cbn [andb]. destruct (undefined_cmp x infinity U) as [-> _]. reflexivity.
  - split; reflexivity.
  - reflexivity.
  - intros x U. destruct (undefined_cmp x infinity U) as [-> _]. destruct (undefined_cmp x neg_infinity U) as [-> _]. rewrite U. reflexivity.
Qed.
