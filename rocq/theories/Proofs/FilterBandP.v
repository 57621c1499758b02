(** The four stages of a band in binary64 stay close to the exact ones (C114). *)
From Coq Require Import ZArith List Bool Reals Lra Lia Floats Psatz ZifyNat.
From Coquelicot Require Import Complex.
From Flocq Require Import Core.Core IEEE754.BinarySingleNaN IEEE754.PrimFloat.
From Verif Require Import Base.Res Base.Num Base.NumF Base.NumR Base.Lists Model.SignalFilter Model.Erb Model.FilterBank Spec.FilterAccSpec
  Proofs.B64P Proofs.RoundP Proofs.BoundP Proofs.StableP Proofs.FilterAccP.
Import ListNotations.
Open Scope R_scope.

Definition close (D X : R) : list PrimFloat.float -> list R -> Prop := Forall2 (fun x r => fin x /\ Rabs (FR x - r) <= D /\ Rabs r <= X).
Lemma close_weaken D X D' X' xs xr : close D X xs xr -> D <= D' -> X <= X' -> close D' X' xs xr.
Proof. intros H HD HX. induction H as [|x r xs xr (F & H1 & H2) H IH]; constructor; [|exact IH]. split; [exact F|]. split; lra. Qed.

Lemma filter_unfold {T : Type} {N : Num T} (b0 b1 b2 a0 a1 a2 : T) sig y f : signal_filter [b0; b1; b2] [a0; a1; a2] sig [n0; n0] = Ret (y, f) ->
  y = fst (filter_loop [b0; b1; b2] [a0; a1; a2] sig [n0; n0; n0]).
Proof. unfold signal_filter. cbn [length Nat.ltb Nat.leb Nat.eqb orb Nat.sub repeat app]. destruct (filter_loop _ _ _ _) as [ys f']. intros E. injection E as <- <-. reflexivity. Qed.

Lemma pow2 n : 2 ^ n = bpow radix2 (Z.of_nat n).
Proof. rewrite bpow_powerRZ, <- pow_powerRZ. reflexivity. Qed.
Lemma pow_tiny : tiny <= / 2 ^ 900.
Proof. unfold tiny. rewrite pow2, <- bpow_opp. apply bpow_le. lia. Qed.
Lemma pow_big : 2 ^ 900 * 128 <= big.
Proof. unfold big. rewrite pow2. change 128 with (bpow radix2 7). rewrite <- bpow_plus. apply bpow_le. lia. Qed.
Lemma u_pow : u = / 2 ^ 53. Proof. unfold u. rewrite pow_IZR. reflexivity. Qed.

Section Stage.
  Variables (c : erb_coeffs PrimFloat.float) (b0 b1 b2 : PrimFloat.float) (c0 c1 c2 : R) (X D : R).
  Let c' := real_coeffs c.
  Let g := stage_gain c' c0 c1 c2.
  Hypotheses (Fb0 : fin b0) (Fb1 : fin b1) (Fb2 : fin b2) (F1 : fin (e_B1 c)) (F2 : fin (e_B2 c)) (DA : damped c') (HK : resonance c' <= 2 ^ 40).
  Hypotheses (HX : 0 < X) (HD : 0 <= D <= X) (HG : 0 < g) (L : / 2 ^ 900 <= g * X) (U : g * X <= 2 ^ 900).
  Hypotheses (E0 : Rabs (FR b0 - c0) <= 4 * (u * g)) (E1 : Rabs (FR b1 - c1) <= 4 * (u * g)) (E2 : Rabs (FR b2 - c2) <= 4 * (u * g)).
  Lemma stage_close xs xr y f yr fr : close D X xs xr ->
    signal_filter [b0; b1; b2] [e_B0 c; e_B1 c; e_B2 c] xs [n0; n0] = Ret (y, f) -> signal_filter [c0; c1; c2] [e_B0 c'; e_B1 c'; e_B2 c'] xr [n0; n0] = Ret (yr, fr) ->
    close (g * D + 400 * (u * resonance c') * (g * X)) (g * X) y yr.
  Proof.
    intros HC EF ER. apply filter_unfold in EF, ER. rewrite EF, ER. destruct DA as [D1 D2].
    destruct (FR_ofZ 0 ltac:(lia)) as [Z0 F0]. pose proof pow_tiny. pose proof pow_big.
    apply (close_loop b0 b1 b2 (e_B0 c) (e_B1 c) (e_B2 c) c0 c1 c2 (e_B0 c') X D); try assumption.
    - change (tiny <= 8 * (g * X)). lra.
    - change (16 * (8 * (g * X)) <= big). lra.
    - replace (n0 : R) with 0 by reflexivity. rewrite Cmult_0_r, Cplus_0_r, Cmod_0.
      destruct (pole_facts (FR (e_B1 c)) (FR (e_B2 c)) D1 D2) as ([_ R1] & _). apply Rmult_le_pos; [apply Rmult_le_pos; [apply R_sqrt.sqrt_pos|lra]|left; apply Rinv_0_lt_compat; lra].
    - change (FR n0) with (FR (F_ofZ 0)). rewrite Z0. change (@n0 R NumR) with 0. rewrite Rminus_0_r, Cmult_0_r, Cplus_0_r, Cmod_0.
      destruct (pole_facts (FR (e_B1 c)) (FR (e_B2 c)) D1 D2) as ([_ R1] & _). apply Rmult_le_pos; [|left; apply Rinv_0_lt_compat; lra].
      apply Rplus_le_le_0_compat; [apply Rmult_le_pos; [apply R_sqrt.sqrt_pos|lra]|].
      change (0 <= 2 * (40 * (u * (8 * (g * X))))). assert (0 < g * X) by (apply Rmult_lt_0_compat; assumption). assert (0 < u * (g * X)) by (apply Rmult_lt_0_compat; [apply u_pos|assumption]). lra.
  Qed.
End Stage.

(** the bound on the numerators that a stage gain implies, as [numer] but without the numbers in binary64 *)
Lemma numer_le (c : erb_coeffs PrimFloat.float) (c0 c1 c2 : R) : damped (real_coeffs c) -> let g := stage_gain (real_coeffs c) c0 c1 c2 in 0 < g ->
  Rabs c0 <= 4 * g /\ Rabs c1 <= 4 * g /\ Rabs c2 <= 4 * g.
Proof.
  intros [D1 D2] g HG. pose proof (numer (e_B1 c) (e_B2 c) c0 c1 c2 D1 D2) as N.
  change (Rabs c0 <= g /\ Rabs (c1 - FR (e_B1 c) * c0) <= g /\ Rabs (c2 - FR (e_B2 c) * c0) <= 2 * g /\ Rabs c1 <= 3 * g /\ Rabs c2 <= 3 * g) in N. lra.
Qed.

Lemma quotient_close a g B : fin a -> fin g -> FR g <> 0 -> Rabs (FR a / FR g) <= B -> tiny <= B -> B <= big ->
  fin (PrimFloat.div a g) /\ Rabs (FR (PrimFloat.div a g) - FR a / FR g) <= u * B.
Proof. intros Fa Fg Hg H1 H2 H3. apply op_err; [intros H; apply FR_div; assumption|assumption..]. Qed.

Lemma exact_coeff b g : 0 < g -> Rabs (FR b - FR b) <= 4 * (u * g).
Proof. intros H. rewrite Rminus_diag_eq, Rabs_R0 by reflexivity. pose proof (Rmult_lt_0_compat _ _ u_pos H). lra. Qed.

Lemma band_close (c : erb_coeffs PrimFloat.float) (X D : R) xs xr : moderate_band c -> / 2 ^ 100 <= X <= 2 ^ 100 -> 0 <= D <= X / 2 -> close D X xs xr ->
  let c' := real_coeffs c in
  exists y f yr fr, band_filter c zero_cond xs = Ret (y, f) /\ band_filter c' zero_cond xr = Ret (yr, fr) /\
    close (band_gain c' * (D + 1600 * (u * resonance c') * X)) (band_gain c' * X) y yr.
Proof.
  intros (FA & HG & DA & HK & GA) HX HD HC c'. fold c' in DA, HK, GA.
  repeat match goal with H : Forall fin (_ :: _) |- _ => inversion H; clear H; subst end.
  unfold stage_gains in GA. unfold band_gain, stage_gains. cbn [fold_right] in *.
  set (g1 := stage_gain c' (e_A0 c' / e_gain c') (e_A11 c' / e_gain c') (e_A2 c' / e_gain c')) in *. set (g2 := stage_gain c' (e_A0 c') (e_A12 c') (e_A2 c')) in *.
  set (g3 := stage_gain c' (e_A0 c') (e_A13 c') (e_A2 c')) in *. set (g4 := stage_gain c' (e_A0 c') (e_A14 c') (e_A2 c')) in *.
  assert (G1 : / 2 ^ 100 <= g1 <= 2 ^ 80) by (inversion GA; assumption). assert (G2 : / 2 ^ 100 <= g2 <= 2 ^ 80) by (inversion GA as [|? ? _ GB]; inversion GB; assumption).
  assert (G3 : / 2 ^ 100 <= g3 <= 2 ^ 80) by (inversion GA as [|? ? _ GB]; inversion GB as [|? ? _ GC]; inversion GC; assumption).
  assert (G4 : / 2 ^ 100 <= g4 <= 2 ^ 80) by (inversion GA as [|? ? _ GB]; inversion GB as [|? ? _ GC]; inversion GC as [|? ? _ GD]; inversion GD; assumption).
  clear GA.
  assert (P100 : 0 < / 2 ^ 100) by (apply Rinv_0_lt_compat, pow_lt; lra).
  assert (PW : forall a b : nat, / 2 ^ a * / 2 ^ b = / 2 ^ (a + b)) by (intros; rewrite pow_add, Rinv_mult_distr by (apply pow_nonzero; lra); reflexivity).
  assert (LO : forall (a b : nat) x z, / 2 ^ a <= x -> / 2 ^ b <= z -> / 2 ^ (a + b) <= x * z).
  { intros a b x z I J. rewrite <- PW. apply Rmult_le_compat; try assumption; left; apply Rinv_0_lt_compat, pow_lt; lra. }
  assert (UP : forall (a b : nat) x z, 0 <= x <= 2 ^ a -> 0 <= z <= 2 ^ b -> x * z <= 2 ^ (a + b)).
  { intros a b x z I J. rewrite pow_add. apply Rmult_le_compat; lra. }
  assert (DI : forall a b : nat, (a <= b)%nat -> / 2 ^ b <= / 2 ^ a) by (intros; apply Rinv_le_contravar; [apply pow_lt; lra|apply Rle_pow; [lra|assumption]]).
  assert (MU : forall a b : nat, (a <= b)%nat -> 2 ^ a <= 2 ^ b) by (intros; apply Rle_pow; [lra|assumption]).
  set (X2 := g1 * X). set (X3 := g2 * X2). set (X4 := g3 * X3). set (X5 := g4 * X4).
  assert (L2 : / 2 ^ 200 <= X2) by (apply (LO 100 100)%nat; lra). assert (U2 : X2 <= 2 ^ 180) by (apply (UP 80 100)%nat; lra).
  assert (L3 : / 2 ^ 300 <= X3) by (apply (LO 100 200)%nat; lra).
  assert (PP : forall n : nat, 0 < / 2 ^ n) by (intros; apply Rinv_0_lt_compat, pow_lt; lra).
  assert (U3 : X3 <= 2 ^ 260) by (pose proof (PP 200%nat); apply (UP 80 180)%nat; lra).
  assert (L4 : / 2 ^ 400 <= X4) by (apply (LO 100 300)%nat; lra). assert (U4 : X4 <= 2 ^ 340) by (pose proof (PP 300%nat); apply (UP 80 260)%nat; lra).
  assert (L5 : / 2 ^ 500 <= X5) by (apply (LO 100 400)%nat; lra). assert (U5 : X5 <= 2 ^ 420) by (pose proof (PP 400%nat); apply (UP 80 340)%nat; lra).
  pose proof (PP 200%nat) as Q2. pose proof (PP 300%nat) as Q3. pose proof (PP 400%nat) as Q4. pose proof (PP 500%nat) as Q5.
  pose proof (DI 200 900 ltac:(lia))%nat. pose proof (DI 300 900 ltac:(lia))%nat. pose proof (DI 400 900 ltac:(lia))%nat. pose proof (DI 500 900 ltac:(lia))%nat.
  pose proof (MU 180 900 ltac:(lia))%nat. pose proof (MU 260 900 ltac:(lia))%nat. pose proof (MU 340 900 ltac:(lia))%nat. pose proof (MU 420 900 ltac:(lia))%nat.
  set (k := u * resonance c').
  assert (K0 : 0 <= k).
  { apply Rmult_le_pos; [left; apply u_pos|]. destruct DA as [D1 D2]. destruct (pole_facts _ _ D1 D2) as ([_ RR1] & [HH0 _] & _).
    unfold resonance, radius, height. apply Rmult_le_pos; [lra|]. left. apply Rinv_0_lt_compat, Rmult_lt_0_compat; [lra|exact HH0]. }
  assert (K1 : k <= 1 / 8192).
  { unfold k. apply Rle_trans with (u * 2 ^ 40); [apply Rmult_le_compat_l; [left; apply u_pos|exact HK]|]. rewrite u_pow. right. simpl. field. }
  assert (XP : 0 < X) by lra.
  assert (DX : forall e : R, 0 <= e <= 1200 -> 0 <= D + e * k * X <= X).
  { intros e He. assert (0 <= e * k <= 1200 / 8192) by (split; [apply Rmult_le_pos; lra|apply Rle_trans with (1200 * (1 / 8192)); [apply Rmult_le_compat; lra|lra]]). nra. }
  unfold band_filter, zero_cond.
  assert (NB : forall c0 c1 c2 : R, 0 < stage_gain c' c0 c1 c2 -> Rabs c0 <= 4 * stage_gain c' c0 c1 c2 /\ Rabs c1 <= 4 * stage_gain c' c0 c1 c2 /\ Rabs c2 <= 4 * stage_gain c' c0 c1 c2) by (intros c0 c1 c2 P; apply numer_le; assumption).
  destruct (NB (e_A0 c' / e_gain c') (e_A11 c' / e_gain c') (e_A2 c' / e_gain c') ltac:(fold g1; lra)) as (N0 & N1 & N2). fold g1 in N0, N1, N2. clear NB. cbn [c' real_coeffs e_A0 e_A11 e_A2 e_gain] in N0, N1, N2.
  assert (TB : tiny <= 4 * g1). { pose proof pow_tiny. pose proof (DI 100 900 ltac:(lia))%nat. lra. }
  assert (BB : 4 * g1 <= big). { pose proof pow_big. pose proof (MU 80 900 ltac:(lia))%nat. lra. }
  destruct (quotient_close (e_A0 c) (e_gain c) (4 * g1)) as [FQ0 EQ0]; try assumption. destruct (quotient_close (e_A11 c) (e_gain c) (4 * g1)) as [FQ1 EQ1]; try assumption.
  destruct (quotient_close (e_A2 c) (e_gain c) (4 * g1)) as [FQ2 EQ2]; try assumption.
  cbn [ndiv NumF NumR].
  assert (STG : forall (b0 b1 b2 : PrimFloat.float) (d0 d1 d2 : R) x xr0 Y E, fin b0 -> fin b1 -> fin b2 ->
    let g := stage_gain c' d0 d1 d2 in 0 < g -> 0 < Y -> 0 <= E <= Y -> / 2 ^ 900 <= g * Y -> g * Y <= 2 ^ 900 ->
    Rabs (FR b0 - d0) <= 4 * (u * g) -> Rabs (FR b1 - d1) <= 4 * (u * g) -> Rabs (FR b2 - d2) <= 4 * (u * g) -> close E Y x xr0 ->
    exists y f yr fr, signal_filter [b0; b1; b2] [e_B0 c; e_B1 c; e_B2 c] x [n0; n0] = Ret (y, f) /\ signal_filter [d0; d1; d2] [e_B0 c'; e_B1 c'; e_B2 c'] xr0 [n0; n0] = Ret (yr, fr) /\
      close (g * E + 400 * k * (g * Y)) (g * Y) y yr).
  { intros b0 b1 b2 d0 d1 d2 x xr0 Y E Fb0 Fb1 Fb2 g Hg HY HE HL HU I0 I1 I2 HCC.
    destruct (signal_filter [b0; b1; b2] [e_B0 c; e_B1 c; e_B2 c] x [n0; n0]) as [[y f]| | |] eqn:EF; try (unfold signal_filter in EF; cbn [length Nat.ltb Nat.leb Nat.eqb orb] in EF; destruct (filter_loop _ _ _ _); discriminate EF).
    destruct (signal_filter [d0; d1; d2] [e_B0 c'; e_B1 c'; e_B2 c'] xr0 [n0; n0]) as [[yr fr]| | |] eqn:ER; try (unfold signal_filter in ER; cbn [length Nat.ltb Nat.leb Nat.eqb orb] in ER; destruct (filter_loop _ _ _ _); discriminate ER).
    exists y, f, yr, fr. split; [reflexivity|]. split; [reflexivity|].
    exact (stage_close c b0 b1 b2 d0 d1 d2 Y E Fb0 Fb1 Fb2 ltac:(assumption) ltac:(assumption) DA HK HY HE Hg HL HU I0 I1 I2 x xr0 y f yr fr HCC EF ER). }
  destruct (STG (PrimFloat.div (e_A0 c) (e_gain c)) (PrimFloat.div (e_A11 c) (e_gain c)) (PrimFloat.div (e_A2 c) (e_gain c)) (e_A0 c' / e_gain c') (e_A11 c' / e_gain c') (e_A2 c' / e_gain c') xs xr X D)
    as (y1 & f1 & r1 & h1 & EF1 & ER1 & C1); try assumption; try (fold g1; fold X2; lra); try (fold g1; replace (4 * (u * g1)) with (u * (4 * g1)) by ring; assumption).
  fold g1 X2 in C1.
  apply (close_weaken _ _ (g1 * (D + 400 * k * X)) X2) in C1; [|right; unfold X2; ring|apply Rle_refl].
  destruct (STG (e_A0 c) (e_A12 c) (e_A2 c) (e_A0 c') (e_A12 c') (e_A2 c') y1 r1 X2 (g1 * (D + 400 * k * X)))
    as (y2 & f2 & r2 & h2 & EF2 & ER2 & C2); try assumption; try (fold g2; fold X3; lra); try (apply exact_coeff; fold g2; lra).
  { pose proof (DX 400 ltac:(lra)). unfold X2. split; [apply Rmult_le_pos; lra|apply Rmult_le_compat_l; lra]. }
  fold g2 X3 in C2. apply (close_weaken _ _ (g2 * g1 * (D + 800 * k * X)) X3) in C2; [|right; unfold X3, X2; ring|apply Rle_refl].
  assert (P12 : 0 < g2 * g1) by (apply Rmult_lt_0_compat; lra).
  destruct (STG (e_A0 c) (e_A13 c) (e_A2 c) (e_A0 c') (e_A13 c') (e_A2 c') y2 r2 X3 (g2 * g1 * (D + 800 * k * X)))
    as (y3 & f3 & r3 & h3 & EF3 & ER3 & C3); try assumption; try (fold g3; fold X4; lra); try (apply exact_coeff; fold g3; lra).
  { pose proof (DX 800 ltac:(lra)). unfold X3, X2. rewrite <- Rmult_assoc. split; [apply Rmult_le_pos; lra|apply Rmult_le_compat_l; lra]. }
  fold g3 X4 in C3. apply (close_weaken _ _ (g3 * (g2 * g1) * (D + 1200 * k * X)) X4) in C3; [|right; unfold X4, X3, X2; ring|apply Rle_refl].
  assert (P13 : 0 < g3 * (g2 * g1)) by (apply Rmult_lt_0_compat; lra).
  destruct (STG (e_A0 c) (e_A14 c) (e_A2 c) (e_A0 c') (e_A14 c') (e_A2 c') y3 r3 X4 (g3 * (g2 * g1) * (D + 1200 * k * X)))
    as (y4 & f4 & r4 & h4 & EF4 & ER4 & C4); try assumption; try (fold g4; fold X5; lra); try (apply exact_coeff; fold g4; lra).
  { pose proof (DX 1200 ltac:(lra)). replace X4 with (g3 * (g2 * g1) * X) by (unfold X4, X3, X2; ring). split; [apply Rmult_le_pos; lra|apply Rmult_le_compat_l; lra]. }
  fold g4 X5 in C4.
  rewrite EF1. cbn [bind]. rewrite EF2. cbn [bind]. rewrite EF3. cbn [bind]. rewrite EF4. cbn [bind].
  rewrite ER1. cbn [bind]. rewrite ER2. cbn [bind]. rewrite ER3. cbn [bind]. rewrite ER4. cbn [bind].
  eexists _, _, _, _. split; [reflexivity|]. split; [reflexivity|].
  eapply close_weaken; [exact C4|right; unfold X5, X4, X3, X2; ring|right; unfold X5, X4, X3, X2; ring].
Qed.
