(** The arrays of MakeFilters hold the coefficients of Model/Erb.v (C89): values over the reals. *)
From Coq Require Import ZArith List Bool Lia Arith Reals Lra.
From Verif Require Import Base.Res Base.Num Base.NumR Base.Lists Base.Cplx Model.Amatrix Model.Erb Model.BankArrays
  Spec.ToneSpec Spec.ArgSpec Proofs.RealP Proofs.ErbP Proofs.ToneP Proofs.GammatoneP Proofs.BankArraysP Proofs.BankArraysKP.
Import ListNotations.
Open Scope R_scope.

Lemma nltb_R (a b : R) : nltb a b = true <-> a < b.
Proof. cbn [nltb NumR]. unfold Rltb. destruct (Rlt_dec a b); split; intros; (congruence || lra || auto). Qed.

(** *** powers *)
Lemma dpow_1 x : 0 < x -> dpow (L := LibmR) x 1 = x.
Proof. intros H. unfold dpow. cbn [nmul mexp mlog NumR LibmR]. rewrite Rmult_1_l. apply exp_ln. exact H. Qed.
Lemma exp_4 x : exp (4 * x) = exp x * exp x * (exp x * exp x).
Proof. rewrite <- !exp_plus. f_equal. ring. Qed.
Lemma pow_15 : dpow (L := LibmR) 2 (15 / 10) = sqrt 8.
Proof.
  unfold dpow. cbn [nmul mexp mlog NumR LibmR]. set (a := exp (15 / 10 * ln 2)).
  assert (P : 0 < a) by apply exp_pos. assert (E : a * a = 8).
  { unfold a. rewrite <- exp_plus. replace (15 / 10 * ln 2 + 15 / 10 * ln 2) with (ln 2 + ln 2 + ln 2) by field. rewrite !exp_plus, !exp_ln by lra. ring. }
  rewrite <- E. symmetry. apply sqrt_square. lra.
Qed.
Section Arg.
  Variable arg : R * R -> R.
  Hypothesis HA : is_arg arg.
  Lemma cpow_1 x : 0 < x -> cpow (L := LibmR) arg (x, 0) 1 = (x, 0).
  Proof.
    intros H. unfold cpow, cre, cim. cbn [fst snd]. change (@n0 R NumR) with 0.
    replace (neqb 0 0) with true by (symmetry; cbn [neqb NumR]; unfold Reqb; destruct (Req_EM_T 0 0); [reflexivity|congruence]).
    replace (nltb 0 x) with true by (symmetry; apply nltb_R; exact H). cbn [andb]. rewrite dpow_1 by exact H. reflexivity.
  Qed.
  Lemma cpow_4 (z : R * R) : cnorm2 z <> 0 -> cpow (L := LibmR) arg z 4 = cmul (cmul z z) (cmul z z).
  Proof.
    destruct z as [x y]. intros H. change (x * x + y * y <> 0) in H. unfold cpow. cbn [cre cim fst snd]. change (@n0 R NumR) with 0.
    destruct (neqb y 0 && nltb 0 x) eqn:E.
    - apply andb_prop in E. destruct E as [E1 E2]. apply nltb_R in E2. assert (y = 0) as -> by (cbn [neqb NumR] in E1; unfold Reqb in E1; destruct (Req_EM_T y 0); [assumption|discriminate]).
      unfold dpow. cbn [nmul mexp mlog NumR LibmR]. rewrite exp_4, exp_ln by exact E2. unfold cofr, cmul, cre, cim. cbn [fst snd nmul nadd nsub n0 nofZ NumR]. f_equal; ring.
    - destruct (HA x y H) as [HC HS]. cbn [nmul mexp mlog mcos msin NumR LibmR]. set (m := sqrt (x * x + y * y)) in *.
      change (cabs (T := R) (x, y)) with m. assert (P : 0 < m) by (apply sqrt_lt_R0; assert (0 <= x * x + y * y) by nra; lra).
      rewrite exp_4, exp_ln by exact P. set (t := arg (x, y)) in *.
      replace (4 * t) with (2 * (2 * t)) by ring. rewrite (cos_2a (2 * t)), (sin_2a (2 * t)), cos_2a, sin_2a.
      rewrite <- HC, <- HS. unfold cmul, cre, cim. cbn [fst snd nmul nadd nsub NumR]. f_equal; ring.
  Qed.

  (** *** one channel *)
  Lemma sin_real x : csin (L := LibmR) (x, 0) = (sin x, 0).
  Proof. unfold csin, ccosh, csinh, cre, cim. cbn [fst snd nmul nadd nsub ndiv nopp nofZ mexp mcos msin NumR LibmR]. rewrite Ropp_0, exp_0. f_equal; field. Qed.
  Lemma cos_real x : ccos (L := LibmR) (x, 0) = (cos x, 0).
  Proof. unfold ccos, ccosh, csinh, cre, cim. cbn [fst snd nmul nadd nsub ndiv nopp nofZ mexp mcos msin NumR LibmR]. rewrite Ropp_0, exp_0. f_equal; field. Qed.
  Lemma exp_real x : cexp (L := LibmR) (x, 0) = (exp x, 0).
  Proof. unfold cexp, cre, cim. cbn [fst snd nmul mexp mcos msin NumR LibmR]. rewrite cos_0, sin_0. f_equal; ring. Qed.
  Lemma exp_imag x : cexp (L := LibmR) (0, x) = (cos x, sin x).
  Proof. unfold cexp, cre, cim. cbn [fst snd nmul mexp mcos msin NumR LibmR]. rewrite exp_0. f_equal; ring. Qed.
  Lemma scale_real x y : cscale (T := R) (x, 0) y = (x * y, 0).
  Proof. unfold cscale, cre, cim. cbn [fst snd nmul NumR]. f_equal. ring. Qed.
  Lemma div_real x y : y <> 0 -> cdiv (T := R) (x, 0) (y, 0) = (x / y, 0).
  Proof. intros H. unfold cdiv, cnorm2, cre, cim. cbn [fst snd nmul nadd nsub ndiv NumR]. f_equal; field; exact H. Qed.
  Lemma mul_real_r (z : R * R) y : cmul z (y, 0) = cscale z y.
  Proof. destruct z. unfold cmul, cscale, cre, cim. cbn [fst snd nmul nadd nsub NumR]. f_equal; ring. Qed.
  Lemma mul_imag x y : cmul (T := R) (x, 0) (0, y) = (0, x * y).
  Proof. unfold cmul, cre, cim. cbn [fst snd nmul nadd nsub NumR]. f_equal; ring. Qed.
  Lemma div_by_real (z : R * R) y : y <> 0 -> cdiv z (y, 0) = cscale z (/ y).
  Proof. intros H. destruct z. unfold cdiv, cnorm2, cscale, cre, cim. cbn [fst snd nmul nadd nsub ndiv NumR]. f_equal; field; exact H. Qed.
End Arg.

Lemma add_real x y : cadd (T := R) (x, 0) (y, 0) = (x + y, 0).
Proof. unfold cadd, cre, cim. cbn [fst snd nadd NumR]. f_equal. ring. Qed.
Lemma sub_real x y : csub (T := R) (x, 0) (y, 0) = (x - y, 0).
Proof. unfold csub, cre, cim. cbn [fst snd nsub NumR]. f_equal. ring. Qed.
Lemma opp_real x : copp (T := R) (x, 0) = (- x, 0).
Proof. unfold copp, cre, cim. cbn [fst snd nopp NumR]. f_equal. ring. Qed.
Lemma divr_real x y : cdiv_r (T := R) (x, 0) y = (x / y, 0).
Proof. unfold cdiv_r, cre, cim. cbn [fst snd ndiv NumR]. f_equal. unfold Rdiv. ring. Qed.
Lemma addr_real x y : cadd_r (T := R) (x, 0) y = (x + y, 0).
Proof. reflexivity. Qed.
Lemma scale_imag x y : cscale (T := R) (0, x) y = (0, x * y).
Proof. unfold cscale, cre, cim. cbn [fst snd nmul NumR]. f_equal. ring. Qed.
Lemma add_mixed x y : cadd (T := R) (x, 0) (0, y) = (x, y).
Proof. unfold cadd, cre, cim. cbn [fst snd nadd NumR]. f_equal; ring. Qed.

Lemma center_pos low high n x : 0 < low -> 0 < high -> In x (center_freqs (L := LibmR) low high n) -> 0 < x.
Proof.
  intros Hl Hh Hx. destruct (In_nth _ _ 0 Hx) as (i & Hi & <-). rewrite center_freqs_length in Hi.
  rewrite nth_center_freqs by exact Hi. pose proof erb_c_pos as C.
  set (a := ln (low + erb_c)). set (b := ln (high + erb_c)).
  assert (A : ln erb_c < a) by (unfold a; apply ln_increasing; lra).
  assert (B : ln erb_c < b) by (unfold b; apply ln_increasing; lra).
  rewrite <- (exp_ln (high + erb_c)) by lra. fold b. rewrite <- exp_plus.
  assert (Pn : 0 < INR n) by (apply lt_0_INR; lia).
  assert (U : 0 <= INR (S i) / INR n <= 1).
  { split; [apply Rmult_le_pos; [apply pos_INR|left; apply Rinv_0_lt_compat; exact Pn]|].
    apply Rmult_le_reg_r with (INR n); [exact Pn|]. unfold Rdiv. rewrite Rmult_assoc, Rinv_l by lra. rewrite Rmult_1_l, Rmult_1_r. apply le_INR. lia. }
  replace (INR (S i) * ((a - b) / INR n) + b) with (INR (S i) / INR n * a + (1 - INR (S i) / INR n) * b) by (field; lra).
  set (u := INR (S i) / INR n) in *.
  assert (E : ln erb_c < u * a + (1 - u) * b).
  { destruct (Rle_lt_dec a b) as [H|H].
    - assert (0 <= (1 - u) * (b - a)) by (apply Rmult_le_pos; lra). lra.
    - assert (0 <= u * (a - b)) by (apply Rmult_le_pos; lra). lra. }
  apply exp_increasing in E. rewrite exp_ln in E by exact C. lra.
Qed.
Lemma repeat_map {A B} (f : A -> B) (v : B) l : (forall x, In x l -> f x = v) -> repeat v (length l) = map f l.
Proof. induction l as [|x l IH]; intros H; [reflexivity|]. cbn [length repeat map]. rewrite (H x) by (left; reflexivity). rewrite IH; [reflexivity|]. intros y Hy. apply H. right. exact Hy. Qed.


Section Channel.
  Variable arg : R * R -> R.
  Hypothesis HA : is_arg arg.
  Variables (sr : Z) (x : R).
  Hypotheses (Hsr : (0 < sr)%Z) (Px : 0 < x).
  Let t := 1 / IZR sr.
  Let BB := 1019 / 1000 * 2 * PI * (x / (926449 / 100000) + 247 / 10).
  Let ch := erb_channel (L := LibmR) sr x.
  Lemma T_t : T_ (T := R) sr = t. Proof. reflexivity. Qed.
  Lemma n4 : nofZ (T := R) 4 = 4. Proof. reflexivity. Qed.
  Lemma s2_eq : nsqrt (nadd (nofZ 3) (dpow (T := R) (L := LibmR) (nofZ 2) (ndec 15 1))) = s2.
  Proof. change (sqrt (3 + dpow (L := LibmR) 2 (15 / 10)) = sqrt (3 + sqrt 8)). now rewrite pow_15. Qed.
  Lemma s1_eq : nsqrt (nadd (nofZ 3) (nopp (dpow (T := R) (L := LibmR) (nofZ 2) (ndec 15 1)))) = s1.
  Proof. change (sqrt (3 + - dpow (L := LibmR) 2 (15 / 10)) = sqrt (3 - sqrt 8)). now rewrite pow_15. Qed.
  Lemma half3 : 3 / 2 = 15 / 10. Proof. field. Qed.
  Lemma s2_eq' : nsqrt (nadd (nofZ 3) (dpow (T := R) (L := LibmR) (nofZ 2) (ndiv (nofZ 3) (nofZ 2)))) = s2.
  Proof. change (sqrt (3 + dpow (L := LibmR) 2 (3 / 2)) = sqrt (3 + sqrt 8)). now rewrite half3, pow_15. Qed.
  Lemma s1_eq' : nsqrt (nsub (nofZ 3) (dpow (T := R) (L := LibmR) (nofZ 2) (ndiv (nofZ 3) (nofZ 2)))) = s1.
  Proof. change (sqrt (3 - dpow (L := LibmR) 2 (3 / 2)) = sqrt (3 - sqrt 8)). now rewrite half3, pow_15. Qed.
  Ltac kr := change (cofr x) with (x, 0); change (@nofZ R NumR) with IZR; change (@mpi R LibmR) with PI; rewrite ?T_t.
  Lemma v_B : k_B (L := LibmR) arg x = (BB, 0).
  Proof.
    unfold k_B. cbv zeta. kr. change earQ with (926449 / 100000). change minBW with (247 / 10). rewrite divr_real.
    assert (P1 : 0 < x / (926449 / 100000)) by (apply Rdiv_lt_0_compat; lra).
    rewrite (cpow_1 arg) by exact P1. rewrite dpow_1 by lra. rewrite addr_real. change (@ndiv R NumR) with Rdiv.
    replace (1 / 1) with 1 by field. rewrite (cpow_1 arg) by lra. rewrite scale_real. unfold BB. f_equal.
    change (ndec 1019 3) with (1019 / 1000). change (@nmul R NumR) with Rmult. ring.
  Qed.
  Lemma v_BT : k_BT (L := LibmR) arg sr x = (BB * t, 0).
  Proof. unfold k_BT. rewrite v_B, T_t. apply scale_real. Qed.
  Lemma v_expBT : k_expBT (L := LibmR) arg sr x = (exp (BB * t), 0).
  Proof. unfold k_expBT. rewrite v_BT. apply exp_real. Qed.
  Lemma nz : exp (BB * t) <> 0.
  Proof. pose proof (exp_pos (BB * t)). lra. Qed.
  Let th := x * 2 * PI * t.
  Lemma v_w : k_w (L := LibmR) sr x = (th, 0).
  Proof. unfold k_w, k_w2, k_w1. kr. now rewrite !scale_real. Qed.
  Lemma v_sin : k_sw (L := LibmR) sr x = (sin th, 0).
  Proof. unfold k_sw. rewrite v_w. apply sin_real. Qed.
  Lemma v_xSin : k_xSin (L := LibmR) sr x = (sin th, 0).
  Proof. unfold k_xSin. rewrite v_w. apply sin_real. Qed.
  Lemma v_cos : k_cw (L := LibmR) sr x = (cos th, 0).
  Proof. unfold k_cw. rewrite v_w. apply cos_real. Qed.
  Lemma v_xCos : k_xCos (L := LibmR) sr x = (cos th, 0).
  Proof. unfold k_xCos. rewrite v_w. apply cos_real. Qed.
  Lemma v_ae : k_ae (L := LibmR) arg sr x = (cos th * 2 * t / exp (BB * t), 0).
  Proof. unfold k_ae, k_a, k_a2. rewrite v_cos, v_expBT. kr. rewrite !scale_real. apply div_real, nz. Qed.
  Lemma v_pe : k_pe (L := LibmR) arg sr x = (sin th * t * 2 * s2 / exp (BB * t), 0).
  Proof. unfold k_pe, k_bPos, k_b1_2, k_b1. rewrite v_sin, v_expBT, s2_eq. kr. rewrite !scale_real. apply div_real, nz. Qed.
  Lemma v_ne : k_ne (L := LibmR) arg sr x = (sin th * t * 2 * s1 / exp (BB * t), 0).
  Proof. unfold k_ne, k_bNeg, k_b1_2, k_b1. rewrite v_sin, v_expBT, s1_eq. kr. rewrite !scale_real. apply div_real, nz. Qed.
  Lemma c_A11 : k_A11r (L := LibmR) arg sr x = e_A11 ch.
  Proof. unfold k_A11r, k_A11, k_m11, k_s11. rewrite v_ae, v_pe, add_real, opp_real, divr_real. unfold ch, erb_channel. cbv zeta. rewrite B_def. reflexivity. Qed.
  Lemma c_A12 : k_A12r (L := LibmR) arg sr x = e_A12 ch.
  Proof. unfold k_A12r, k_A12, k_m12, k_s12. rewrite v_ae, v_pe, sub_real, opp_real, divr_real. unfold ch, erb_channel. cbv zeta. rewrite B_def. reflexivity. Qed.
  Lemma c_A13 : k_A13r (L := LibmR) arg sr x = e_A13 ch.
  Proof. unfold k_A13r, k_A13, k_m13, k_s13. rewrite v_ae, v_ne, add_real, opp_real, divr_real. unfold ch, erb_channel. cbv zeta. rewrite B_def. reflexivity. Qed.
  Lemma c_A14 : k_A14r (L := LibmR) arg sr x = e_A14 ch.
  Proof. unfold k_A14r, k_A14, k_m14, k_s14. rewrite v_ae, v_ne, sub_real, opp_real, divr_real. unfold ch, erb_channel. cbv zeta. rewrite B_def. reflexivity. Qed.
  Lemma c_B1 : k_B1r (L := LibmR) arg sr x = e_B1 ch.
  Proof.
    unfold k_B1r, k_B1. rewrite v_expBT. kr. rewrite !scale_real, cos_real, scale_real, div_real by apply nz.
    unfold ch, erb_channel. cbv zeta. rewrite B_def. cbn [e_B1 cre fst nmul ndiv nofZ mpi mexp mcos NumR LibmR]. fold t. fold BB.
    replace (2 * x * PI * t) with (x * 2 * PI * t) by ring. unfold Rdiv. ring.
  Qed.
  Lemma c_B2 : k_B2r (L := LibmR) arg sr x = e_B2 ch.
  Proof. unfold k_B2r, k_B2, k_BT2. rewrite v_BT, scale_real, exp_real. unfold ch, erb_channel. cbv zeta. rewrite B_def. reflexivity. Qed.
  Lemma A4 : x * 4 * PI * t = 4 * x * PI * t. Proof. ring. Qed.
  Lemma A2 : th = 2 * x * PI * t. Proof. unfold th. ring. Qed.
  Lemma v_xExp : k_xExp (L := LibmR) sr x = (cos (4 * x * PI * t), sin (4 * x * PI * t)).
  Proof. unfold k_xExp, k_q3, k_q2, k_q1. kr. change (@n0 R NumR) with 0. rewrite mul_imag, !scale_imag, A4. apply exp_imag. Qed.
  Lemma v_x01 : k_x01 (L := LibmR) sr x = (cos (4 * x * PI * t) * (-2 * t), sin (4 * x * PI * t) * (-2 * t)).
  Proof. unfold k_x01, k_x01a. rewrite v_xExp. kr. unfold cscale, cre, cim. cbn [fst snd nmul NumR]. f_equal; ring. Qed.
  Lemma v_x02 : k_x02 (L := LibmR) arg sr x = (exp (- (BB * t)) * cos (2 * x * PI * t) * (2 * t), exp (- (BB * t)) * sin (2 * x * PI * t) * (2 * t)).
  Proof.
    unfold k_x02, k_r6, k_r5, k_r4, k_r3, k_r2, k_r1, k_mBT. rewrite v_BT. kr. change (@n0 R NumR) with 0. rewrite mul_imag, !scale_imag, opp_real, add_mixed. fold th. rewrite A2.
    unfold cexp, cscale, cre, cim. cbn [fst snd nmul mexp mcos msin NumR LibmR]. f_equal; ring.
  Qed.
  Lemma v_x5 : k_x5 (L := LibmR) arg sr x =
    (-2 / exp (2 * BB * t) - cos (4 * x * PI * t) * 2 + (1 + cos (4 * x * PI * t)) * (2 / exp (BB * t)),
     0 - sin (4 * x * PI * t) * 2 + (0 + sin (4 * x * PI * t)) * (2 / exp (BB * t))).
  Proof.
    unfold k_x5, k_u6, k_u5, k_u4, k_u3, k_u2, k_u1, k_e2, k_B_2T, k_B_2, k_eBT. rewrite v_B, v_BT, v_xExp. kr. rewrite !scale_real, !exp_real. replace (BB * 2 * t) with (2 * BB * t) by ring.
    change (cofr (-2)) with (-2, 0). pose proof (exp_pos (2 * BB * t)) as Pe. rewrite div_real by lra. pose proof nz as Q. rewrite div_by_real by exact Q.
    unfold cadd, csub, cscale, cadd_r, cre, cim. cbn [fst snd nmul nadd nsub NumR]. f_equal; field; repeat split; lra.
  Qed.
  Lemma nz5 : cnorm2 (k_x5 (L := LibmR) arg sr x) <> 0.
  Proof.
    rewrite v_x5. pose proof (x5_norm sr x) as X5. fold t in X5. fold BB in X5.
    assert (R0 : exp (- (BB * t)) = / exp (BB * t)) by apply exp_Ropp. pose proof nz as Q.
    assert (P4 : 2 * tone_angle sr x = 4 * x * PI * t) by (unfold tone_angle, t; pose proof (IZR_lt _ _ Hsr); field; lra). rewrite P4 in X5.
    match goal with |- cnorm2 ?p <> 0 => match type of X5 with cnorm2 ?q = _ => replace p with q end end.
    - rewrite X5. pose proof (r_range sr x Hsr ltac:(lra)) as RR. fold t in RR. fold BB in RR.
      pose proof (den_nonzero (exp (- (BB * t))) (tone_angle sr x) ltac:(lra)) as D. lra.
    - rewrite R0. replace (2 * BB * t) with (BB * t + BB * t) by ring. rewrite exp_plus. f_equal; field; exact Q.
  Qed.
  Lemma v_xi u v (z : cplx R) : z = cadd (k_x01 (L := LibmR) sr x) (cmul (k_x02 (L := LibmR) arg sr x) (u, 0)) -> u = v ->
    z = cadd (cscale (cexp (L := LibmR) (0, 4 * x * PI * t)) (-2 * t)) (cscale (cscale (cexp (L := LibmR) (- (BB * t), 2 * x * PI * t)) (2 * t)) v).
  Proof. intros -> ->. rewrite v_x01, v_x02, mul_real_r, exp_imag. unfold cexp, cscale, cre, cim. cbn [fst snd nmul mexp mcos msin NumR LibmR]. reflexivity. Qed.
  Lemma c_gain : k_gain (L := LibmR) arg sr x = e_gain ch.
  Proof.
    unfold k_gain, k_g5, k_g4, k_g3, k_g2, k_g1. rewrite n4. rewrite (cpow_4 arg HA) by exact nz5.
    assert (Y1 := v_xi (cos th - sin th * s1) (cos (2 * x * PI * t) - s1 * sin (2 * x * PI * t)) (k_x1 (L := LibmR) arg sr x)).
    specialize (Y1 ltac:(unfold k_x1, k_p1x, k_x12, k_s1x; rewrite s1_eq', v_xSin, v_xCos, scale_real, sub_real; reflexivity) ltac:(rewrite <- A2; ring)).
    assert (Y2 := v_xi (cos th + sin th * s1) (cos (2 * x * PI * t) + s1 * sin (2 * x * PI * t)) (k_x2 (L := LibmR) arg sr x)).
    specialize (Y2 ltac:(unfold k_x2, k_p2x, k_x22, k_s1x; rewrite s1_eq', v_xSin, v_xCos, scale_real, add_real; reflexivity) ltac:(rewrite <- A2; ring)).
    assert (Y3 := v_xi (cos th - sin th * s2) (cos (2 * x * PI * t) - s2 * sin (2 * x * PI * t)) (k_x3 (L := LibmR) arg sr x)).
    specialize (Y3 ltac:(unfold k_x3, k_p3x, k_x32, k_s2x; rewrite s2_eq', v_xSin, v_xCos, scale_real, sub_real; reflexivity) ltac:(rewrite <- A2; ring)).
    assert (Y4 := v_xi (cos th + sin th * s2) (cos (2 * x * PI * t) + s2 * sin (2 * x * PI * t)) (k_x4 (L := LibmR) arg sr x)).
    specialize (Y4 ltac:(unfold k_x4, k_p4x, k_x42, k_s2x; rewrite s2_eq', v_xSin, v_xCos, scale_real, add_real; reflexivity) ltac:(rewrite <- A2; ring)).
    assert (X5 : k_x5 (L := LibmR) arg sr x = cadd (csub (cofr (-2 / exp (2 * BB * t))) (cscale (cexp (L := LibmR) (0, 4 * x * PI * t)) 2)) (cscale (cadd (cofr 1) (cexp (L := LibmR) (0, 4 * x * PI * t))) (2 / exp (BB * t)))).
    { rewrite v_x5, exp_imag. reflexivity. }
    rewrite X5, Y1, Y2, Y3, Y4. unfold ch, erb_channel. cbv zeta. rewrite B_def. reflexivity.
  Qed.
End Channel.

Section Bank.
  Variable arg : R * R -> R.
  Hypothesis HA : is_arg arg.
  Variables (sr : Z) (n : nat) (low high : R).
  Hypotheses (Hsr : (0 < sr)%Z) (Hl : 0 < low) (Hh : 0 < high).
  Lemma capped_pos : 0 < capped_high sr high.
  Proof. unfold capped_high. cbv zeta. destruct (nltb _ _); [|exact Hh]. cbn [ndiv nofZ NumR]. pose proof (IZR_lt _ _ Hsr). lra. Qed.
  Lemma arrays_values : let m := make_filters (L := LibmR) sr n low high in make_filters_arrays (L := LibmR) arg sr n low high = Ret (cols_of (fst m), snd m).
  Proof.
    intros m. unfold m, make_filters. cbn [fst snd]. set (cfs := center_freqs (L := LibmR) low (capped_high sr high) n).
    assert (P : forall x, In x cfs -> 0 < x) by (intros x; apply center_pos; [exact Hl|exact capped_pos]).
    rewrite arrays_shape. fold cfs. unfold cols_of. rewrite !map_map.
    assert (Ln : length cfs = n) by apply center_freqs_length. rewrite <- Ln at 1 2 3.
    rewrite (repeat_map (fun x => e_A0 (erb_channel (L := LibmR) sr x)) _ cfs) by (intros x _; reflexivity).
    rewrite (repeat_map (fun x => e_A2 (erb_channel (L := LibmR) sr x)) (@n0 R NumR) cfs) by (intros x _; reflexivity).
    rewrite (repeat_map (fun x => e_B0 (erb_channel (L := LibmR) sr x)) _ cfs) by (intros x _; reflexivity).
    rewrite (map_ext_in (k_A11r (L := LibmR) arg sr) (fun x => e_A11 (erb_channel (L := LibmR) sr x)) cfs) by (intros x Hx; apply c_A11; auto).
    rewrite (map_ext_in (k_A12r (L := LibmR) arg sr) (fun x => e_A12 (erb_channel (L := LibmR) sr x)) cfs) by (intros x Hx; apply c_A12; auto).
    rewrite (map_ext_in (k_A13r (L := LibmR) arg sr) (fun x => e_A13 (erb_channel (L := LibmR) sr x)) cfs) by (intros x Hx; apply c_A13; auto).
    rewrite (map_ext_in (k_A14r (L := LibmR) arg sr) (fun x => e_A14 (erb_channel (L := LibmR) sr x)) cfs) by (intros x Hx; apply c_A14; auto).
    rewrite (map_ext_in (k_B1r (L := LibmR) arg sr) (fun x => e_B1 (erb_channel (L := LibmR) sr x)) cfs) by (intros x Hx; apply c_B1; auto).
    rewrite (map_ext_in (k_B2r (L := LibmR) arg sr) (fun x => e_B2 (erb_channel (L := LibmR) sr x)) cfs) by (intros x Hx; apply c_B2; auto).
    rewrite (map_ext_in (k_gain (L := LibmR) arg sr) (fun x => e_gain (erb_channel (L := LibmR) sr x)) cfs) by (intros x Hx; apply c_gain; auto).
    replace (map k_cfr cfs) with cfs; [reflexivity|]. rewrite <- (map_id cfs) at 1. apply map_ext. reflexivity.
  Qed.
End Bank.
