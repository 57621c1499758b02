(** The coefficients of src/equivalent_rectangular_bandwidth.cc and the response of a band (C88). *)
From Coq Require Import ZArith List Bool Lia Arith Reals Lra.
From Verif Require Import Base.Res Base.Num Base.NumR Base.Lists Base.Cplx Model.SignalFilter Model.Erb Model.FilterBank
  Spec.ToneSpec Proofs.RealP Proofs.FilterP Proofs.ErbP Proofs.ToneP.
Import ListNotations.
Open Scope R_scope.

Section Coeffs.
  Variables (sr : Z) (cf : R).
  Hypotheses (Hsr : (0 < sr)%Z) (Hcf : 0 <= cf).
  Let t := 1 / IZR sr.
  Let w := tone_angle sr cf.
  Let B : R := 1019 / 1000 * 2 * PI * (cf / (926449 / 100000) + 247 / 10).
  Let r := exp (- (B * t)).
  Let q1 : R := s1. Let q2 : R := s2.
  Let ch : erb_coeffs R := erb_channel (L := LibmR) sr cf.
  Lemma sr_pos : 0 < IZR sr.
  Proof. now apply IZR_lt. Qed.
  Lemma t_pos : 0 < t.
  Proof. unfold t. apply Rdiv_lt_0_compat; [lra|exact sr_pos]. Qed.
  Lemma r_range : 0 < r < 1.
  Proof.
    unfold r. split; [apply exp_pos|]. rewrite <- exp_0. apply exp_increasing.
    assert (0 < B). { unfold B. pose proof PI_RGT_0. apply Rmult_lt_0_compat; [lra|]. assert (0 <= cf / (926449 / 100000)) by (apply Rmult_le_pos; [exact Hcf|left; apply Rinv_0_lt_compat; lra]). lra. }
    pose proof t_pos. nra.
  Qed.
  Lemma exp_r : exp (B * t) = / r.
  Proof. unfold r. rewrite exp_Ropp, Rinv_inv. reflexivity. Qed.
  Lemma B_def : nmul (nmul (nmul (ndec 1019 3) (nofZ 2)) mpi) (nadd (ndiv cf earQ) minBW) = B.
  Proof. unfold B, earQ, minBW, ndec. cbn [nmul nadd ndiv nofZ mpi NumR LibmR Z.pow Z.pow_pos Pos.iter Z.mul Pos.mul Pos.add]. reflexivity. Qed.
  Lemma w1 : 2 * cf * PI * t = w. Proof. unfold w, tone_angle, t. pose proof sr_pos. field. lra. Qed.
  Lemma w2 : cf * 2 * PI * t = w. Proof. unfold w, tone_angle, t. pose proof sr_pos. field. lra. Qed.
  Lemma w4 : 4 * cf * PI * t = 2 * w. Proof. unfold w, tone_angle, t. pose proof sr_pos. field. lra. Qed.

  Lemma coef_A0 : e_A0 ch = t. Proof. reflexivity. Qed.
  Lemma coef_A2 : e_A2 ch = 0. Proof. reflexivity. Qed.
  Lemma coef_B0 : e_B0 ch = 1. Proof. reflexivity. Qed.
  Ltac open := unfold ch, erb_channel; cbv zeta; rewrite ?B_def; cbn [e_A0 e_A11 e_A12 e_A13 e_A14 e_A2 e_B0 e_B1 e_B2 e_gain];
    cbn [nmul nadd nsub ndiv nopp nofZ mpi mexp mcos msin NumR LibmR]; fold t; rewrite ?w1, ?w2, ?w4, ?exp_r; fold q1; fold q2.
  Lemma coef_B1 : e_B1 ch = - (2 * r * cos w).
  Proof. open. pose proof r_range. field. lra. Qed.
  Lemma coef_B2 : e_B2 ch = r * r.
  Proof. open. unfold r. rewrite <- exp_plus. f_equal. ring. Qed.
  Lemma coef_A11 : e_A11 ch = - (t * r * (cos w + q2 * sin w)).
  Proof. open. pose proof r_range. field. lra. Qed.
  Lemma coef_A12 : e_A12 ch = - (t * r * (cos w + (- q2) * sin w)).
  Proof. open. pose proof r_range. field. lra. Qed.
  Lemma coef_A13 : e_A13 ch = - (t * r * (cos w + q1 * sin w)).
  Proof. open. pose proof r_range. field. lra. Qed.
  Lemma coef_A14 : e_A14 ch = - (t * r * (cos w + (- q1) * sin w)).
  Proof. open. pose proof r_range. field. lra. Qed.

  Definition zz : R * R := (cos (2 * w), sin (2 * w)).
  Lemma zz_norm : cnorm2 zz = 1.
  Proof. unfold cnorm2, zz, cre, cim. cbn [fst snd]. exact (cs1 (2 * w)). Qed.
  Lemma x_norm k : cnorm2 (T := R) (cos (2 * w) * (-2 * t) + r * cos w * (2 * t) * k, sin (2 * w) * (-2 * t) + r * sin w * (2 * t) * k) = 4 * cnorm2 (num_at t r k w).
  Proof.
    transitivity (cnorm2 (T := R) (cscale (cmul zz (num_at t r k w)) (-2))).
    - f_equal. unfold cscale, cmul, zz, num_at, cre, cim. cbn [fst snd nmul nadd nsub NumR]. rewrite sin_2a, cos_2a. pose proof (cs1 w) as E. set (C := cos w) in *. set (Q := sin w) in *. f_equal.
      + transitivity ((C * C - Q * Q) * (-2 * t) + r * C * (2 * t) * k * (C * C + Q * Q)); [rewrite E; ring|ring].
      + transitivity (2 * Q * C * (-2 * t) + r * Q * (2 * t) * k * (C * C + Q * Q)); [rewrite E; ring|ring].
    - rewrite norm_scale, norm_mul, zz_norm. ring.
  Qed.
  Lemma x5_norm : cnorm2 (T := R) (-2 * (r * r) - cos (2 * w) * 2 + (1 + cos (2 * w)) * (2 * r), 0 - sin (2 * w) * 2 + (0 + sin (2 * w)) * (2 * r)) = 4 * cnorm2 (den_at r w).
  Proof.
    transitivity (cnorm2 (T := R) (cscale (cmul zz (den_at r w)) (-2))).
    - f_equal. unfold cscale, cmul, zz, den_at, cre, cim. cbn [fst snd nmul nadd nsub NumR]. rewrite sin_2a, cos_2a. pose proof (cs1 w) as E. set (C := cos w) in *. set (Q := sin w) in *.
      assert (F : Q * Q = 1 - C * C) by lra. f_equal.
      + transitivity (-2 * (r * r) * ((C * C + Q * Q) * (C * C + Q * Q)) - (C * C - Q * Q) * 2 + (2 * C * C) * (2 * r) * (C * C + Q * Q)); [rewrite E, F; ring|ring].
      + transitivity (- (2 * Q * C) * 2 + (2 * Q * C) * (2 * r) * (C * C + Q * Q)); [rewrite E; ring|ring].
    - rewrite norm_scale, norm_mul, zz_norm. ring.
  Qed.
  Let dd := cnorm2 (den_at r w).
  Let nn a := cnorm2 (num_at t r (cos w + a * sin w) w).
  Lemma coef_gain : e_gain ch = sqrt (nn q2 * nn (- q2) * nn q1 * nn (- q1) / (dd * dd * dd * dd)) /\
                    0 < nn q2 * nn (- q2) * nn q1 * nn (- q1) / (dd * dd * dd * dd).
  Proof.
    assert (Pd : 0 < dd) by (apply den_nonzero; pose proof r_range; lra).
    assert (Pn : forall a, 0 < nn a) by (intros a; apply num_nonzero; [exact t_pos|exact r_range]).
    split; [|apply Rdiv_lt_0_compat; repeat apply Rmult_lt_0_compat; auto].
    unfold ch, erb_channel. cbv zeta. rewrite B_def. cbn [e_gain]. unfold cabs. cbn [nsqrt NumR]. f_equal.
    match goal with |- cnorm2 (cdiv (cmul (cmul (cmul ?a ?b) ?c) ?d) (cmul (cmul ?e ?e) (cmul ?e ?e))) = _ => set (X1 := a); set (X2 := b); set (X3 := c); set (X4 := d); set (X5 := e) end.
    assert (N5 : cnorm2 X5 = 4 * dd).
    { unfold dd. rewrite <- x5_norm. f_equal. unfold X5, cadd, csub, cscale, cofr, cexp, cre, cim.
      cbn [fst snd nmul nadd nsub ndiv nopp nofZ mpi mexp mcos msin NumR LibmR n0 n1]. fold t. rewrite ?w4, ?exp_r, exp_0.
      replace (2 * B * t) with (B * t + B * t) by ring. rewrite exp_plus, exp_r. pose proof r_range. f_equal; field; lra. }
    assert (NX : forall a X, X = cadd (cscale (cexp (L := LibmR) (0, 4 * cf * PI * t)) (-2 * t)) (cscale (cscale (cexp (L := LibmR) (- (B * t), 2 * cf * PI * t)) (2 * t)) (cos w + a * sin w)) -> cnorm2 X = 4 * nn a).
    { intros a X ->. unfold nn. rewrite <- x_norm. f_equal. unfold cadd, cscale, cexp, cre, cim.
      cbn [fst snd nmul nadd nsub ndiv nopp nofZ mpi mexp mcos msin NumR LibmR]. rewrite w1, w4, exp_0. fold r. f_equal; ring. }
    assert (N1 : cnorm2 X1 = 4 * nn (- q1)). { apply NX. unfold X1. cbn [nmul nadd nsub ndiv nopp nofZ mpi mexp mcos msin NumR LibmR n0]. fold t. rewrite ?w1. fold q1. do 2 f_equal. ring. }
    assert (N2 : cnorm2 X2 = 4 * nn q1). { apply NX. unfold X2. cbn [nmul nadd nsub ndiv nopp nofZ mpi mexp mcos msin NumR LibmR n0]. fold t. rewrite ?w1. fold q1. do 2 f_equal. }
    assert (N3 : cnorm2 X3 = 4 * nn (- q2)). { apply NX. unfold X3. cbn [nmul nadd nsub ndiv nopp nofZ mpi mexp mcos msin NumR LibmR n0]. fold t. rewrite ?w1. fold q2. do 2 f_equal. ring. }
    assert (N4 : cnorm2 X4 = 4 * nn q2). { apply NX. unfold X4. cbn [nmul nadd nsub ndiv nopp nofZ mpi mexp mcos msin NumR LibmR n0]. fold t. rewrite ?w1. fold q2. do 2 f_equal. }
    rewrite norm_div; rewrite !norm_mul, ?N1, ?N2, ?N3, ?N4, ?N5.
    - field. lra.
    - repeat apply Rmult_integral_contrapositive_currified; lra.
  Qed.
  Lemma gain_nonzero : e_gain ch <> 0.
  Proof. destruct coef_gain as [-> P]. pose proof (sqrt_lt_R0 _ P). lra. Qed.

  Definition band_response (x : nat -> R) : nat -> R :=
    cascade (e_gain ch) t (cos w + q2 * sin w) (cos w + (- q2) * sin w) (cos w + q1 * sin w) (cos w + (- q1) * sin w) r (cos w) x.
  Lemma band_filter_response x n : exists f, band_filter ch zero_cond (map x (seq 0 n)) = Ret (map (band_response x) (seq 0 n), f).
  Proof.
    unfold band_filter, zero_cond. cbv zeta beta iota. rewrite coef_A0, coef_A2, coef_B0, coef_B1, coef_B2, coef_A11, coef_A12, coef_A13, coef_A14.
    change (@ndiv R NumR) with Rdiv. change (@n0 R NumR) with 0.
    replace (0 / e_gain ch) with 0 by (unfold Rdiv; ring).
    edestruct filter_out as (f1 & ->). cbn [bind]. edestruct filter_out as (f2 & ->). cbn [bind]. edestruct filter_out as (f3 & ->). cbn [bind].
    edestruct filter_out as (f4 & ->). cbn [bind]. eexists. reflexivity.
  Qed.
  Lemma response_stable : exists K, forall x X, (forall n, Rabs (x n) <= X) -> forall n, Rabs (band_response x n) <= K * X.
  Proof. unfold band_response. apply (cascade_stable _ _ _ _ _ _ r (cos w) (sin w)); [pose proof r_range; lra|apply cs1]. Qed.
  Lemma response_tone p q : exists P Q, P * P + Q * Q = p * p + q * q /\ vanishes (fun n => band_response (tone w p q) n - tone w P Q n).
  Proof.
    unfold band_response. apply cascade_tone; [exact r_range|exact gain_nonzero|].
    destruct coef_gain as [-> P]. rewrite sqrt_sqrt by lra. reflexivity.
  Qed.
End Coeffs.

Lemma band_stable (sr : Z) (cf : R) : (0 < sr)%Z -> 0 <= cf ->
  exists K, forall X sig, (forall x, In x sig -> Rabs x <= X) -> 0 <= X ->
    exists y f, band_filter (erb_channel (L := LibmR) sr cf) zero_cond sig = Ret (y, f) /\ length y = length sig /\ forall v, In v y -> Rabs v <= K * X.
Proof.
  intros Hs Hc. destruct (response_stable sr cf Hs Hc) as (K & HK). exists K. intros X sig HX X0.
  set (x := fun i => nth i sig 0).
  assert (E : sig = map x (seq 0 (length sig))).
  { apply nth_ext with (d := 0) (d' := x (length sig)); [now rewrite map_length, seq_length|]. intros i Hi. rewrite map_nth, seq_nth by exact Hi. reflexivity. }
  destruct (band_filter_response sr cf Hs Hc x (length sig)) as (f & Hf). rewrite <- E in Hf.
  eexists _, f. split; [exact Hf|]. split; [now rewrite map_length, seq_length|]. intros v Hv. apply in_map_iff in Hv. destruct Hv as (i & <- & _).
  apply HK. intros j. unfold x. destruct (Nat.lt_ge_cases j (length sig)) as [Hj|Hj]; [apply HX, nth_In, Hj|]. rewrite nth_overflow by exact Hj. rewrite Rabs_R0. exact X0.
Qed.
Lemma band_tone (sr : Z) (cf : R) (p q : R) : (0 < sr)%Z -> 0 <= cf ->
  exists P Q, P * P + Q * Q = p * p + q * q /\
    forall eps, 0 < eps -> exists m, forall n, exists y f,
      band_filter (erb_channel (L := LibmR) sr cf) zero_cond (tone_signal (tone_angle sr cf) p q n) = Ret (y, f) /\ length y = n /\
      forall k, (m <= k < n)%nat -> Rabs (nth k y 0 - tone (tone_angle sr cf) P Q k) < eps.
Proof.
  intros Hs Hc. destruct (response_tone sr cf Hs Hc p q) as (P & Q & HE & HV). exists P, Q. split; [exact HE|]. intros eps He. destruct (HV eps He) as (m & Hm). exists m. intros n.
  destruct (band_filter_response sr cf Hs Hc (tone (tone_angle sr cf) p q) n) as (f & Hf). eexists _, f. split; [exact Hf|]. split; [now rewrite map_length, seq_length|].
  intros k Hk. rewrite (nth_indep _ 0 (band_response sr cf (tone (tone_angle sr cf) p q) 0)) by (rewrite map_length, seq_length; lia).
  rewrite map_nth, seq_nth by lia. apply Hm. lia.
Qed.

Lemma center_nonneg low high n i : 0 <= low -> 0 <= high -> (i < n)%nat -> 0 <= nth i (center_freqs low high n) 0.
Proof.
  intros Hl Hh Hi. rewrite nth_center_freqs by exact Hi. pose proof erb_c_pos as C.
  set (a := ln (low + erb_c)). set (b := ln (high + erb_c)).
  assert (A : ln erb_c <= a) by (unfold a; destruct Hl as [Hl|<-]; [left; apply ln_increasing; lra|rewrite Rplus_0_l; lra]).
  assert (B : ln erb_c <= b) by (unfold b; destruct Hh as [Hh|<-]; [left; apply ln_increasing; lra|rewrite Rplus_0_l; lra]).
  rewrite <- (exp_ln (high + erb_c)) by lra. fold b. rewrite <- exp_plus.
  assert (Pn : 0 < INR n) by (apply lt_0_INR; lia).
  assert (U : 0 <= INR (S i) / INR n <= 1).
  { split; [apply Rmult_le_pos; [apply pos_INR|left; apply Rinv_0_lt_compat; exact Pn]|].
    apply Rmult_le_reg_r with (INR n); [exact Pn|]. unfold Rdiv. rewrite Rmult_assoc, Rinv_l by lra. rewrite Rmult_1_l, Rmult_1_r. apply le_INR. lia. }
  replace (INR (S i) * ((a - b) / INR n) + b) with (INR (S i) / INR n * a + (1 - INR (S i) / INR n) * b) by (field; lra).
  set (u := INR (S i) / INR n) in *.
  assert (E : ln erb_c <= u * a + (1 - u) * b) by nra.
  assert (exp (ln erb_c) <= exp (u * a + (1 - u) * b)) by (destruct E as [E|E]; [left; apply exp_increasing; exact E|rewrite E; lra]).
  rewrite exp_ln in H by exact C. lra.
Qed.
Lemma capped_nonneg sr (high : R) : (0 < sr)%Z -> 0 <= high -> 0 <= capped_high sr high.
Proof.
  intros Hs Hh. unfold capped_high. cbv zeta. destruct (nltb _ _); [|exact Hh]. cbn [ndiv nofZ NumR]. pose proof (IZR_lt _ _ Hs). lra.
Qed.
Lemma made_filter sr n (low high : R) c cf : (0 < sr)%Z -> 0 <= low -> 0 <= high ->
  let m := make_filters (L := LibmR) sr n low high in In (c, cf) (combine (fst m) (snd m)) -> c = erb_channel (L := LibmR) sr cf /\ 0 <= cf.
Proof.
  intros Hs Hl Hh m Hin. unfold m, make_filters in Hin. cbn [fst snd] in Hin.
  destruct (In_nth _ _ (erb_channel (L := LibmR) sr 0, 0) Hin) as (i & Hi & E). rewrite combine_length, map_length, center_freqs_length in Hi.
  rewrite combine_nth in E by apply map_length. injection E as E1 E2. rewrite map_nth in E1. rewrite E2 in E1. split; [symmetry; exact E1|].
  rewrite <- E2. apply center_nonneg; [exact Hl|apply capped_nonneg; assumption|lia].
Qed.
Lemma bank_stable sr n (low high : R) c cf : (0 < sr)%Z -> 0 <= low -> 0 <= high ->
  let m := make_filters (L := LibmR) sr n low high in In (c, cf) (combine (fst m) (snd m)) ->
  exists K, forall X sig, (forall x, In x sig -> Rabs x <= X) -> 0 <= X ->
    exists y f, band_filter c zero_cond sig = Ret (y, f) /\ length y = length sig /\ forall v, In v y -> Rabs v <= K * X.
Proof. intros Hs Hl Hh m Hin. destruct (made_filter sr n low high c cf Hs Hl Hh Hin) as (-> & Hc). exact (band_stable sr cf Hs Hc). Qed.
Lemma bank_tone sr n (low high : R) c cf p q : (0 < sr)%Z -> 0 <= low -> 0 <= high ->
  let m := make_filters (L := LibmR) sr n low high in In (c, cf) (combine (fst m) (snd m)) ->
  exists P Q, P * P + Q * Q = p * p + q * q /\
    forall eps, 0 < eps -> exists m, forall n, exists y f,
      band_filter c zero_cond (tone_signal (tone_angle sr cf) p q n) = Ret (y, f) /\ length y = n /\
      forall k, (m <= k < n)%nat -> Rabs (nth k y 0 - tone (tone_angle sr cf) P Q k) < eps.
Proof. intros Hs Hl Hh m Hin. destruct (made_filter sr n low high c cf Hs Hl Hh Hin) as (-> & Hc). exact (band_tone sr cf p q Hs Hc). Qed.
Lemma bank_member sr n (low high : R) i : (i < n)%nat ->
  let m := make_filters (L := LibmR) sr n low high in
  In (nth i (fst m) (erb_channel (L := LibmR) sr 0), nth i (snd m) 0) (combine (fst m) (snd m)).
Proof.
  intros Hi m. assert (L1 : length (fst m) = length (snd m)) by (unfold m, make_filters; cbn [fst snd]; apply map_length).
  assert (L2 : length (snd m) = n) by (unfold m, make_filters; cbn [snd]; apply center_freqs_length).
  rewrite <- combine_nth by exact L1. apply nth_In. rewrite combine_length, L1, L2. lia.
Qed.
