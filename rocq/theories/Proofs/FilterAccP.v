(** A second-order recursive filter in binary64 stays close to the exact filter (C114). *)
From Coq Require Import ZArith List Bool Reals Lra Lia Floats Psatz.
From Coquelicot Require Import Complex.
From Flocq Require Import Core.Core IEEE754.BinarySingleNaN IEEE754.PrimFloat.
From Verif Require Import Base.Res Base.Num Base.NumF Base.NumR Base.Lists Model.SignalFilter Proofs.B64P Proofs.RoundP Proofs.BoundP Proofs.StableP.
Import ListNotations.
Open Scope R_scope.

Lemma le_mul a b x y : Rabs a <= x -> Rabs b <= y -> Rabs (a * b) <= x * y.
Proof. intros H K. rewrite Rabs_mult. apply Rmult_le_compat; try apply Rabs_pos; assumption. Qed.

(** one sample in binary64 *)
Lemma acc_step (b0 b1 b2 a1 a2 x s0 s1 z : PrimFloat.float) (c0 c1 c2 M : R) : fin b0 -> fin b1 -> fin b2 -> fin a1 -> fin a2 ->
  Rabs (FR a2) <= 1 -> Rabs (FR a1) <= 2 -> tiny <= M -> 16 * M <= big -> fin x -> fin s0 -> fin s1 -> fin z -> FR z = 0 ->
  Rabs (FR b0 * FR x) <= M -> Rabs (FR b1 * FR x) <= M -> Rabs (FR b2 * FR x) <= M -> Rabs (FR s0) <= M -> Rabs (FR s1) <= M ->
  Rabs ((FR b0 - c0) * FR x) <= u * M -> Rabs ((FR b1 - c1) * FR x) <= u * M -> Rabs ((FR b2 - c2) * FR x) <= u * M ->
  let y := (b0 * x + s0)%float in let t0 := (b1 * x + s1 - a1 * y)%float in let t1 := (b2 * x + z - a2 * y)%float in
  fin y /\ fin t0 /\ fin t1 /\ Rabs (FR y - (c0 * FR x + FR s0)) <= 6 * (u * M) /\
  Rabs (FR t0 - (c1 * FR x + FR s1 - FR a1 * (c0 * FR x + FR s0))) <= 40 * (u * M) /\
  Rabs (FR t1 - (c2 * FR x - FR a2 * (c0 * FR x + FR s0))) <= 40 * (u * M).
Proof.
  intros Fb0 Fb1 Fb2 Fa1 Fa2 H2 H1 M0 MB Fx Fs0 Fs1 Fz Hz B0 B1 B2 S0 S1 C0 C1 C2 y t0 t1.
  assert (U0 := u_pos). assert (U1 := u_small). assert (T0 : 0 < tiny) by apply bpow_gt_0.
  assert (MP : 0 < M) by lra. assert (U2 : 0 < u * M <= M / 10000) by (split; [apply Rmult_lt_0_compat; lra|nra]).
  destruct (op_err (b0 * x)%float (FR b0 * FR x) M (FR_mul _ _ Fb0 Fx) B0 M0 ltac:(lra)) as [Fp0 P0].
  destruct (op_err (b1 * x)%float (FR b1 * FR x) M (FR_mul _ _ Fb1 Fx) B1 M0 ltac:(lra)) as [Fp1 P1].
  destruct (op_err (b2 * x)%float (FR b2 * FR x) M (FR_mul _ _ Fb2 Fx) B2 M0 ltac:(lra)) as [Fp2 P2].
  set (p0 := (b0 * x)%float) in *. set (p1 := (b1 * x)%float) in *. set (p2 := (b2 * x)%float) in *.
  assert (UM3 : u * (3 * M) = 3 * (u * M)) by ring. assert (UM2 : u * (2 * M) = 2 * (u * M)) by ring. assert (UM7 : u * (7 * M) = 7 * (u * M)) by ring.
  assert (UM4 : u * (4 * M) = 4 * (u * M)) by ring. assert (UM11 : u * (11 * M) = 11 * (u * M)) by ring. assert (UM8 : u * (8 * M) = 8 * (u * M)) by ring.
  destruct (op_err y (FR p0 + FR s0) (3 * M) (FR_add _ _ Fp0 Fs0)) as [Fy Y]; [tri|lra|lra|].
  assert (Yb : Rabs (FR y) <= 3 * M).
  { tri. }
  destruct (op_err (p1 + s1)%float (FR p1 + FR s1) (3 * M) (FR_add _ _ Fp1 Fs1)) as [Fq0 Q0]; [tri|lra|lra|].
  destruct (op_err (p2 + z)%float (FR p2 + FR z) (2 * M) (FR_add _ _ Fp2 Fz)) as [Fq1 Q1]; [rewrite Hz; tri|lra|lra|].
  assert (R1 : Rabs (FR a1 * FR y) <= 2 * (3 * M)) by (apply le_mul; assumption).
  assert (R2 : Rabs (FR a2 * FR y) <= 1 * (3 * M)) by (apply le_mul; assumption).
  destruct (op_err (a1 * y)%float (FR a1 * FR y) (7 * M) (FR_mul _ _ Fa1 Fy)) as [Fr0 V0]; [lra|lra|lra|].
  destruct (op_err (a2 * y)%float (FR a2 * FR y) (4 * M) (FR_mul _ _ Fa2 Fy)) as [Fr1 V1]; [lra|lra|lra|].
  set (q0 := (p1 + s1)%float) in *. set (q1 := (p2 + z)%float) in *. set (r0 := (a1 * y)%float) in *. set (r1 := (a2 * y)%float) in *.
  destruct (op_err t0 (FR q0 - FR r0) (11 * M) (FR_sub _ _ Fq0 Fr0)) as [Ft0 T0']; [tri|lra|lra|].
  destruct (op_err t1 (FR q1 - FR r1) (8 * M) (FR_sub _ _ Fq1 Fr1)) as [Ft1 T1']; [rewrite Hz in *; tri|lra|lra|].
  split; [exact Fy|]. split; [exact Ft0|]. split; [exact Ft1|].
  rewrite Rmult_minus_distr_r in C0, C1, C2.
  set (e1 := FR y - (c0 * FR x + FR s0)). assert (Ee1 : Rabs e1 <= 6 * (u * M)) by (unfold e1; tri).
  split; [exact Ee1|].
  assert (X1 : Rabs (FR a1 * e1) <= 2 * (6 * (u * M))) by (apply le_mul; assumption).
  assert (X2 : Rabs (FR a2 * e1) <= 1 * (6 * (u * M))) by (apply le_mul; assumption).
  assert (Ey : FR y = c0 * FR x + FR s0 + e1) by (unfold e1; ring).
  rewrite Hz, Rplus_0_r in *.
  split.
  - replace (FR a1 * (c0 * FR x + FR s0)) with (FR a1 * FR y - FR a1 * e1) by (rewrite Ey; ring). tri.
  - replace (FR a2 * (c0 * FR x + FR s0)) with (FR a2 * FR y - FR a2 * e1) by (rewrite Ey; ring). tri.
Qed.

(** the pole and the recursion seen from it *)
Section Pole.
  Variables (a1 a2 : R).
  Hypotheses (D1 : a1 * a1 < 4 * a2) (D2 : a2 < 1).
  Let rad := R_sqrt.sqrt a2.
  Let hei := R_sqrt.sqrt (a2 - a1 * a1 / 4).
  Definition pole : C := (- a1 / 2, hei).
  Lemma pole_facts : 0 < rad < 1 /\ 0 < hei < 1 /\ Rabs a2 <= 1 /\ Rabs a1 <= 2.
  Proof.
    assert (P2 : 0 < a2) by nra. assert (S1 : rad * rad = a2) by (apply R_sqrt.sqrt_sqrt; lra).
    assert (S2 : hei * hei = a2 - a1 * a1 / 4) by (apply R_sqrt.sqrt_sqrt; lra).
    assert (0 < rad) by (apply R_sqrt.sqrt_lt_R0; lra). assert (0 < hei) by (apply R_sqrt.sqrt_lt_R0; lra).
    split; [split; [assumption|nra]|]. split; [split; [assumption|nra]|]. split; apply Rabs_le; nra.
  Qed.
  Lemma form (x y : R) : Cmod (pole * x + y)%C = R_sqrt.sqrt (a2 * (x * x) - a1 * (x * y) + y * y).
  Proof.
    assert (S2 : hei * hei = a2 - a1 * a1 / 4) by (apply R_sqrt.sqrt_sqrt; lra).
    unfold Cmod, pole, Cplus, Cmult, RtoC. cbn [fst snd]. f_equal.
    replace ((- a1 / 2 * x - hei * 0 + y) ^ 2 + (- a1 / 2 * 0 + hei * x + 0) ^ 2) with ((- a1 / 2 * x + y) * (- a1 / 2 * x + y) + hei * hei * (x * x)) by ring.
    rewrite S2. field.
  Qed.
  Lemma pole_mod : Cmod pole = rad.
  Proof.
    pose proof (form 1 0) as E. rewrite Cmult_1_r, Cplus_0_r in E. rewrite E. unfold rad. f_equal. ring.
  Qed.
  Lemma pole_root : (pole * pole + a1 * pole + a2)%C = 0%C.
  Proof.
    assert (S2 : hei * hei = a2 - a1 * a1 / 4) by (apply R_sqrt.sqrt_sqrt; lra).
    unfold pole, Cplus, Cmult, RtoC. cbn [fst snd]. f_equal.
    - replace (- a1 / 2 * (- a1 / 2) - hei * hei + (a1 * (- a1 / 2) - 0 * hei) + a2) with (a1 * a1 / 4 - hei * hei - a1 * a1 / 2 + a2) by field. rewrite S2. field.
    - field.
  Qed.
  Lemma seen_step (s0 s1 g0 g1 : R) : (pole * (s1 - a1 * s0 + g0)%R + (- a2 * s0 + g1)%R)%C = (pole * (pole * s0 + s1) + (pole * g0 + g1))%C.
  Proof.
    unfold Rminus. rewrite !RtoC_plus, !RtoC_opp, !RtoC_mult, RtoC_opp. pose proof pole_root as E.
    replace (pole * (s1 + - (a1 * s0) + g0) + (- a2 * s0 + g1))%C with (pole * (pole * s0 + s1) + (pole * g0 + g1) - (pole * pole + a1 * pole + a2) * s0)%C by ring.
    rewrite E. ring.
  Qed.
  Lemma seen_height (s0 s1 : R) : hei * Rabs s0 <= Cmod (pole * s0 + s1)%C.
  Proof.
    destruct pole_facts as (_ & [H0 _] & _). rewrite <- (Rabs_pos_eq hei) at 1 by lra. rewrite <- Rabs_mult.
    eapply Rle_trans; [|apply Rmax_Cmod]. unfold pole, Cplus, Cmult, RtoC. cbn [fst snd].
    eapply Rle_trans; [|apply Rmax_r]. right. f_equal. ring.
  Qed.
  Lemma seen_low (s0 s1 : R) : Rabs s1 <= Cmod (pole * s0 + s1)%C + Rabs s0.
  Proof.
    destruct pole_facts as ([R0 R1] & _). assert (Q : forall a b : C, b = ((a + b) + - a)%C) by (intros a b; ring).
    assert (X : Rabs s1 = Cmod ((pole * s0 + s1) + - (pole * s0))%C) by (rewrite <- Q; symmetry; apply Cmod_R). rewrite X.
    eapply Rle_trans; [apply Cmod_triangle|]. rewrite Cmod_opp, Cmod_mult, pole_mod, Cmod_R. pose proof (Rabs_pos s0). nra.
  Qed.
End Pole.

Section Numer.
  Variables (a1 a2 : PrimFloat.float) (c0 c1 c2 : R).
  Hypotheses (D1 : FR a1 * FR a1 < 4 * FR a2) (D2 : FR a2 < 1).
  Let rad := R_sqrt.sqrt (FR a2).
  Let hei := R_sqrt.sqrt (FR a2 - FR a1 * FR a1 / 4).
  Let A := c1 - FR a1 * c0.
  Let B := c2 - FR a2 * c0.
  Let V := R_sqrt.sqrt (FR a2 * (A * A) - FR a1 * (A * B) + B * B).
  Let G := Rabs c0 + V / ((1 - rad) * hei).
  Lemma V_nonneg : 0 <= V. Proof. apply R_sqrt.sqrt_pos. Qed.
  Lemma V_A : hei * Rabs A <= V.
  Proof. unfold V. rewrite <- (form (FR a1) (FR a2) D1 A B). apply seen_height; assumption. Qed.
  Lemma V_B : Rabs B <= V + Rabs A.
  Proof. unfold V. rewrite <- (form (FR a1) (FR a2) D1 A B). apply seen_low; assumption. Qed.
  Lemma V_G : V / ((1 - rad) * hei) <= G. Proof. unfold G. pose proof (Rabs_pos c0). lra. Qed.
  Lemma numer : Rabs c0 <= G /\ Rabs A <= G /\ Rabs B <= 2 * G /\ Rabs c1 <= 3 * G /\ Rabs c2 <= 3 * G.
  Proof.
    destruct (pole_facts _ _ D1 D2) as ([R0 R1] & [H0 H1] & A2 & A1). fold rad in R0, R1. fold hei in H0, H1.
    pose proof V_A as VA. pose proof V_B as VB. pose proof V_nonneg as VN. assert (VG := V_G).
    assert (Hd : 0 < (1 - rad) * hei) by (apply Rmult_lt_0_compat; lra).
    assert (HV : V <= G * ((1 - rad) * hei)). { apply Rmult_le_reg_r with (/ ((1 - rad) * hei)); [apply Rinv_0_lt_compat, Hd|]. rewrite Rmult_assoc, Rinv_r by lra. unfold Rdiv in VG. lra. }
    assert (G0 : Rabs c0 <= G). { unfold G. assert (0 <= V / ((1 - rad) * hei)) by (apply Rmult_le_pos; [exact VN|left; apply Rinv_0_lt_compat, Hd]). lra. }
    assert (GV : V <= G * hei) by nra.
    assert (GA : Rabs A <= G) by (apply Rmult_le_reg_l with hei; [exact H0|lra]).
    assert (GB : Rabs B <= 2 * G) by nra.
    assert (P1 : Rabs (FR a1 * c0) <= 2 * G) by (apply le_mul; assumption). assert (P2 : Rabs (FR a2 * c0) <= 1 * G) by (apply le_mul; assumption).
    split; [exact G0|]. split; [exact GA|]. split; [exact GB|]. unfold A, B in GA, GB. split; tri.
  Qed.
End Numer.
(** both filters, sample by sample *)
Section Joint.
  Variables (b0 b1 b2 a0 a1 a2 : PrimFloat.float) (c0 c1 c2 a0' : R) (X D : R).
  Hypotheses (Fb0 : fin b0) (Fb1 : fin b1) (Fb2 : fin b2) (Fa1 : fin a1) (Fa2 : fin a2).
  Hypotheses (D1 : FR a1 * FR a1 < 4 * FR a2) (D2 : FR a2 < 1).
  Let rad := R_sqrt.sqrt (FR a2).
  Let hei := R_sqrt.sqrt (FR a2 - FR a1 * FR a1 / 4).
  Let A := c1 - FR a1 * c0.
  Let B := c2 - FR a2 * c0.
  Let V := R_sqrt.sqrt (FR a2 * (A * A) - FR a1 * (A * B) + B * B).
  Let G := Rabs c0 + V / ((1 - rad) * hei).
  Let K := 2 / ((1 - rad) * hei).
  Let M := 8 * (G * X).
  Hypotheses (HX : 0 < X) (HD : 0 <= D <= X) (HG : 0 < G) (HK : K <= 2 ^ 40) (M0 : tiny <= M) (MB : 16 * M <= big).
  Hypotheses (E0 : Rabs (FR b0 - c0) <= 4 * (u * G)) (E1 : Rabs (FR b1 - c1) <= 4 * (u * G)) (E2 : Rabs (FR b2 - c2) <= 4 * (u * G)).
  Let e := 40 * (u * M).
  Let p := pole (FR a1) (FR a2).
  Lemma close_loop : forall (xs : list PrimFloat.float) (xr : list R), Forall2 (fun x r => fin x /\ Rabs (FR x - r) <= D /\ Rabs r <= X) xs xr ->
    forall (s0 s1 z : PrimFloat.float) (r0 r1 : R), fin s0 -> fin s1 -> fin z -> FR z = 0 ->
    Cmod (p * r0 + r1)%C <= V * X / (1 - rad) -> Cmod (p * (FR s0 - r0)%R + (FR s1 - r1)%R)%C <= (V * D + 2 * e) / (1 - rad) ->
    Forall2 (fun y r => fin y /\ Rabs (FR y - r) <= G * D + 400 * (u * K) * (G * X) /\ Rabs r <= G * X)
      (fst (filter_loop [b0; b1; b2] [a0; a1; a2] xs [s0; s1; z])) (fst (filter_loop [c0; c1; c2] [a0'; FR a1; FR a2] xr [r0; r1; 0])).
  Proof.
    destruct (pole_facts _ _ D1 D2) as ([R0 R1] & [H0 H1] & A2 & A1). fold rad in R0, R1. fold hei in H0, H1.
    destruct (numer a1 a2 c0 c1 c2 D1 D2) as (N0 & NA & NB & N1 & N2). fold A B V G in N0, NA, NB, N1, N2. fold rad hei in N0, NA, NB, N1, N2. fold G in N0, NA, NB, N1, N2. assert (VN : 0 <= V) by apply R_sqrt.sqrt_pos.
    assert (U0 := u_pos). assert (U1 := u_small). assert (T0 : 0 < tiny) by apply bpow_gt_0.
    assert (Hd : 0 < (1 - rad) * hei) by (apply Rmult_lt_0_compat; lra).
    assert (GX : 0 < G * X) by (apply Rmult_lt_0_compat; assumption).
    assert (GDX : 0 <= G * D <= G * X) by (split; [apply Rmult_le_pos; lra|apply Rmult_le_compat_l; lra]).
    assert (EM : e = 320 * (u * (G * X))) by (unfold e, M; ring).
    assert (uG : 0 < u * (G * X)) by (apply Rmult_lt_0_compat; assumption).
    assert (E0' : 0 < e) by lra.
    assert (KG : 2 <= K). { unfold K. apply Rmult_le_reg_r with ((1 - rad) * hei); [exact Hd|]. unfold Rdiv. rewrite Rmult_assoc, Rinv_l by lra. nra. }
    assert (U53 : u = / 2 ^ 53) by (unfold u; rewrite pow_IZR; reflexivity).
    assert (Ke : K * e <= G * X).
    { rewrite EM. apply Rle_trans with (2 ^ 40 * (320 * (u * (G * X)))); [apply Rmult_le_compat_r; lra|]. rewrite U53.
      replace (2 ^ 40 * (320 * (/ 2 ^ 53 * (G * X)))) with (320 / 8192 * (G * X)) by (simpl; field). nra. }
    assert (Q1 : forall v, v / (1 - rad) = hei * (v / ((1 - rad) * hei))) by (intros v; field; lra).
    assert (Q2 : V / ((1 - rad) * hei) = G - Rabs c0) by (unfold G; ring).
    assert (WR : V * X / (1 - rad) = hei * ((G - Rabs c0) * X)) by (rewrite Q1, <- Q2; field; lra).
    assert (WD : (V * D + 2 * e) / (1 - rad) = hei * ((G - Rabs c0) * D + K * e)) by (rewrite Q1, <- Q2; unfold K; field; lra).
    pose proof (Rabs_pos c0) as C0.
    assert (B4 : forall b c, Rabs (FR b - c) <= 4 * (u * G) -> Rabs c <= 3 * G -> Rabs (FR b) <= 4 * G).
    { intros b c I J. assert (u * G <= G / 100) by nra. tri. }
    intros xs xr HF. induction HF as [|x r xs xr (Fx & Hx & Hr) HF IH]; intros s0 s1 z r0 r1 Fs0 Fs1 Fz Hz W W'; [constructor|].
    assert (I0 : Rabs r0 <= (G - Rabs c0) * X) by (apply Rmult_le_reg_l with hei; [exact H0|]; rewrite <- WR; eapply Rle_trans; [apply (seen_height (FR a1) (FR a2)) with (s1 := r1); assumption|exact W]).
    assert (J0 : Rabs (FR s0 - r0) <= (G - Rabs c0) * D + K * e) by (apply Rmult_le_reg_l with hei; [exact H0|]; rewrite <- WD; eapply Rle_trans; [apply (seen_height (FR a1) (FR a2)) with (s1 := FR s1 - r1); assumption|exact W']).
    assert (P1 : 0 <= (G - Rabs c0) * X) by (apply Rmult_le_pos; lra). assert (P2 : 0 <= (G - Rabs c0) * D) by (apply Rmult_le_pos; lra).
    assert (P3 : 0 <= Rabs c0 * X) by (apply Rmult_le_pos; lra). assert (P4 : 0 <= Rabs c0 * D) by (apply Rmult_le_pos; lra). assert (P5 : 0 < K * e) by (apply Rmult_lt_0_compat; lra).
    rewrite Rmult_minus_distr_r in I0, J0, P1, P2, WR, WD.
    assert (I1 : Rabs r1 <= 2 * (G * X)).
    { eapply Rle_trans; [apply (seen_low (FR a1) (FR a2) D1 D2 r0 r1)|]. rewrite WR in W. fold p. nra. }
    assert (J1 : Rabs (FR s1 - r1) <= 2 * (G * D + K * e)).
    { eapply Rle_trans; [apply (seen_low (FR a1) (FR a2) D1 D2 (FR s0 - r0) (FR s1 - r1))|]. rewrite WD in W'. fold p. nra. }
    assert (Bx : Rabs (FR x) <= 2 * X) by tri.
    assert (BM : forall b c, Rabs (FR b - c) <= 4 * (u * G) -> Rabs c <= 3 * G -> Rabs (FR b * FR x) <= M /\ Rabs ((FR b - c) * FR x) <= u * M).
    { intros b c I J. split.
      - apply Rle_trans with (4 * G * (2 * X)); [apply le_mul; [eapply B4; eassumption|exact Bx]|unfold M; lra].
      - apply Rle_trans with (4 * (u * G) * (2 * X)); [apply le_mul; [exact I|exact Bx]|unfold M; lra]. }
    destruct (BM b0 c0 E0 ltac:(lra)) as [X0 Y0]. destruct (BM b1 c1 E1 N1) as [X1 Y1]. destruct (BM b2 c2 E2 N2) as [X2 Y2].
    destruct (acc_step b0 b1 b2 a1 a2 x s0 s1 z c0 c1 c2 M) as (Fy & Ft0 & Ft1 & Ey & G0 & G1); try assumption; [unfold M; tri|unfold M; tri|].
    cbn [filter_loop nth]. unfold filter_cond. cbn [length seq map Nat.ltb Nat.leb nth nadd nmul nsub NumF NumR].
    set (y := (b0 * x + s0)%float) in *. set (t0 := (b1 * x + s1 - a1 * y)%float) in *. set (t1 := (b2 * x + z - a2 * y)%float) in *.
    set (yr := c0 * r + r0). set (v0 := c1 * r + r1 - FR a1 * yr). set (v1 := c2 * r + 0 - FR a2 * yr).
    assert (ER0 : v0 = r1 - FR a1 * r0 + A * r) by (unfold v0, yr, A; ring). assert (ER1 : v1 = - FR a2 * r0 + B * r) by (unfold v1, yr, B; ring).
    set (g0 := FR t0 - (c1 * FR x + FR s1 - FR a1 * (c0 * FR x + FR s0))) in *. set (g1 := FR t1 - (c2 * FR x - FR a2 * (c0 * FR x + FR s0))) in *.
    assert (ED0 : FR t0 - v0 = (FR s1 - r1) - FR a1 * (FR s0 - r0) + (A * (FR x - r) + g0)) by (rewrite ER0; unfold g0, A; ring).
    assert (ED1 : FR t1 - v1 = - FR a2 * (FR s0 - r0) + (B * (FR x - r) + g1)) by (rewrite ER1; unfold g1, B; ring).
    assert (DR : forall d, Cmod (p * (A * d)%R + (B * d)%R)%C = V * Rabs d).
    { intros d. rewrite !RtoC_mult. replace (p * (A * d) + B * d)%C with ((p * A + B) * d)%C by ring. rewrite Cmod_mult, Cmod_R. f_equal. apply form. assumption. }
    specialize (IH t0 t1 z v0 v1 Ft0 Ft1 Fz Hz).
    destruct (filter_loop [b0; b1; b2] [a0; a1; a2] xs [t0; t1; z]) as [ys f'] eqn:EL.
    destruct (filter_loop [c0; c1; c2] [a0'; FR a1; FR a2] xr [v0; v1; 0]) as [yr' f''] eqn:EL'. cbn [fst] in IH |- *.
    constructor.
    - split; [exact Fy|]. assert (Hc : Rabs (c0 * (FR x - r)) <= Rabs c0 * D) by (apply le_mul; [apply Rle_refl|exact Hx]).
      assert (Hc' : Rabs (c0 * r) <= Rabs c0 * X) by (apply le_mul; [apply Rle_refl|exact Hr]).
      split; [|unfold yr; tri].
      replace (400 * (u * K) * (G * X)) with (400 * (K * (u * (G * X)))) by ring.
      replace (FR y - yr) with ((FR y - (c0 * FR x + FR s0)) + c0 * (FR x - r) + (FR s0 - r0)) by (unfold yr; ring).
      assert (6 * (u * M) = 48 * (u * (G * X))) by (unfold M; ring). rewrite EM in J0. assert (2 * (u * (G * X)) <= K * (u * (G * X))) by (apply Rmult_le_compat_r; lra).
      replace (K * (320 * (u * (G * X)))) with (320 * (K * (u * (G * X)))) in J0 by ring. tri.
    - apply IH.
      + rewrite ER0, ER1. unfold p. rewrite seen_step by assumption. fold p. eapply Rle_trans; [apply Cmod_triangle|]. rewrite DR, Cmod_mult. unfold p at 1. rewrite (pole_mod (FR a1) (FR a2)) by assumption. fold rad.
        apply Rle_trans with (rad * (V * X / (1 - rad)) + V * X); [|right; field; lra].
        apply Rplus_le_compat; [apply Rmult_le_compat_l; [lra|exact W]|apply Rmult_le_compat_l; [exact VN|exact Hr]].
      + rewrite ED0, ED1. unfold p. rewrite seen_step by assumption. fold p. eapply Rle_trans; [apply Cmod_triangle|]. rewrite Cmod_mult. unfold p at 1. rewrite (pole_mod (FR a1) (FR a2)) by assumption. fold rad.
        apply Rle_trans with (rad * ((V * D + 2 * e) / (1 - rad)) + (V * D + 2 * e)); [|right; field; lra].
        apply Rplus_le_compat; [apply Rmult_le_compat_l; [lra|exact W']|].
        replace (p * (A * (FR x - r) + g0)%R + (B * (FR x - r) + g1)%R)%C with ((p * (A * (FR x - r))%R + (B * (FR x - r))%R) + (p * g0 + g1))%C by (rewrite !RtoC_plus; ring).
        eapply Rle_trans; [apply Cmod_triangle|]. rewrite DR. apply Rplus_le_compat; [apply Rmult_le_compat_l; [exact VN|exact Hx]|].
        eapply Rle_trans; [apply Cmod_triangle|]. rewrite Cmod_mult, !Cmod_R. unfold p. rewrite pole_mod by assumption. fold rad. fold e in G0, G1.
        pose proof (Rabs_pos g0). nra.
  Qed.
End Joint.
