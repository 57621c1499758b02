(** A second-order recursive filter in binary64 whose denominator has no zero outside the unit circle does not overflow. *)
From Coq Require Import ZArith List Bool Reals Lra Lia Floats Psatz.
From Coquelicot Require Import Complex.
From Flocq Require Import Core.Core IEEE754.BinarySingleNaN IEEE754.PrimFloat.
From Verif Require Import Base.Res Base.Num Base.NumF Base.Lists Model.SignalFilter Proofs.B64P Proofs.RoundP Proofs.BoundP.
Import ListNotations.
Open Scope R_scope.

(** the denominator z^2 + a1 z + a2 has its zeros p, q in the closed unit disk *)
Lemma roots a1 a2 : Rabs a2 <= 1 -> Rabs a1 <= 1 + a2 ->
  exists p q : C, Cplus p q = RtoC (- a1) /\ Cmult p q = RtoC a2 /\ Cmod p <= 1 /\ Cmod q <= 1.
Proof.
  intros H2 H1. apply Rabs_le_inv in H1. apply Rabs_le_inv in H2.
  destruct (Rle_dec 0 (a1 * a1 - 4 * a2)) as [D|D].
  - set (d := R_sqrt.sqrt (a1 * a1 - 4 * a2)). assert (Hd : d * d = a1 * a1 - 4 * a2) by (apply R_sqrt.sqrt_sqrt, D).
    assert (d0 : 0 <= d) by apply R_sqrt.sqrt_pos.
    assert (A1 : -2 <= a1 <= 2) by lra.
    assert (B1 : d <= 2 - a1) by (apply Rsqr_incr_0; unfold Rsqr; nra).
    assert (B2 : d <= 2 + a1) by (apply Rsqr_incr_0; unfold Rsqr; nra).
    exists (RtoC ((- a1 + d) / 2)), (RtoC ((- a1 - d) / 2)).
    split; [rewrite <- RtoC_plus; f_equal; field|]. split; [rewrite <- RtoC_mult; f_equal; replace ((- a1 + d) / 2 * ((- a1 - d) / 2)) with ((a1 * a1 - d * d) / 4) by field; rewrite Hd; field|].
    rewrite !Cmod_R. split; apply Rabs_le; lra.
  - set (d := R_sqrt.sqrt (4 * a2 - a1 * a1)). assert (Hd : d * d = 4 * a2 - a1 * a1) by (apply R_sqrt.sqrt_sqrt; lra).
    assert (M : forall e, e * e = 1 -> Cmod (- a1 / 2, e * d / 2) <= 1).
    { intros e E. unfold Cmod. cbn [fst snd]. rewrite <- R_sqrt.sqrt_1. apply R_sqrt.sqrt_le_1_alt. replace ((- a1 / 2) ^ 2 + (e * d / 2) ^ 2) with ((a1 * a1 + e * e * (d * d)) / 4) by field. rewrite E, Hd. lra. }
    exists (- a1 / 2, 1 * d / 2), (- a1 / 2, -1 * d / 2). split; [|split; [|split; apply M; ring]].
    + unfold Cplus, RtoC. cbn [fst snd]. f_equal; field.
    + unfold Cmult, RtoC. cbn [fst snd]. f_equal; [|field]. replace (- a1 / 2 * (- a1 / 2) - 1 * d / 2 * (-1 * d / 2)) with ((a1 * a1 + d * d) / 4) by field. rewrite Hd. field.
Qed.
(** one step of the recursion in exact arithmetic with a disturbance of at most G *)
Lemma state_step (p q : C) (a1 a2 s0 s1 g0 g1 W X G : R) : Cplus p q = RtoC (- a1) -> Cmult p q = RtoC a2 -> Cmod p <= 1 -> Cmod q <= 1 ->
  Cmod (p * s0 + s1)%C <= W -> Rabs s0 <= X -> Rabs g0 <= G -> Rabs g1 <= G ->
  let t0 := s1 - a1 * s0 + g0 in let t1 := - a2 * s0 + g1 in
  Cmod (p * t0 + t1)%C <= W + 2 * G /\ Rabs t0 <= W + X + G /\ Rabs t1 <= X + G.
Proof.
  intros E1 E2 Hp Hq HW HX H0 H1 t0 t1.
  assert (F1 : RtoC t0 = ((p * s0 + s1) + q * s0 + g0)%C).
  { unfold t0, Rminus. rewrite !RtoC_plus, RtoC_opp, RtoC_mult. replace (RtoC a1) with (- (p + q))%C by (rewrite E1, <- RtoC_opp; f_equal; ring). ring. }
  assert (F2 : RtoC t1 = (g1 - p * q * s0)%C).
  { unfold t1. rewrite RtoC_plus, RtoC_mult, RtoC_opp, E2. ring. }
  assert (G0 : Cmod (RtoC g0) <= G) by (rewrite Cmod_R; exact H0). assert (G1 : Cmod (RtoC g1) <= G) by (rewrite Cmod_R; exact H1).
  assert (S0 : Cmod (RtoC s0) <= X) by (rewrite Cmod_R; exact HX). pose proof (Cmod_ge_0 (RtoC s0)). pose proof (Cmod_ge_0 p). pose proof (Cmod_ge_0 q).
  pose proof (Cmod_ge_0 (RtoC g0)). pose proof (Cmod_ge_0 (p * s0 + s1)%C).
  split; [|split].
  - replace (p * t0 + t1)%C with (p * (p * s0 + s1) + (p * g0 + g1))%C by (rewrite F1, F2; ring).
    apply Rle_trans with (1 := Cmod_triangle _ _). pose proof (Cmod_triangle (p * g0)%C g1). rewrite !Cmod_mult in *. nra.
  - rewrite <- Cmod_R, F1. apply Rle_trans with (1 := Cmod_triangle _ _). pose proof (Cmod_triangle (p * s0 + s1)%C (q * s0)%C). rewrite (Cmod_mult q) in *. nra.
  - rewrite <- Cmod_R, F2. unfold Cminus. apply Rle_trans with (1 := Cmod_triangle _ _). rewrite Cmod_opp, !Cmod_mult.
    assert (Cmod p * Cmod q <= 1) by nra. assert (0 <= Cmod p * Cmod q) by nra. nra.
Qed.

(** *** binary64 *)
Lemma op_err (x : PrimFloat.float) z B : (Rabs (rnd z) < fmax -> FR x = rnd z /\ fin x) -> Rabs z <= B -> tiny <= B -> B <= big -> fin x /\ Rabs (FR x - z) <= u * B.
Proof. intros H H1 H2 H3. destruct (H (rnd_fmax z B H1 H2 H3)) as [E F]. split; [exact F|]. rewrite E. apply rnd_err; assumption. Qed.
Ltac tri := apply Rabs_le; repeat match goal with H : Rabs _ <= _ |- _ => apply Rabs_le_inv in H end; lra.

Section Step.
  Variables (b0 b1 b2 a1 a2 : PrimFloat.float) (E M : R).
  Hypotheses (Fb0 : fin b0) (Fb1 : fin b1) (Fb2 : fin b2) (Fa1 : fin a1) (Fa2 : fin a2).
  Hypotheses (H2 : Rabs (FR a2) <= 1) (H1 : Rabs (FR a1) <= 2).
  Hypotheses (E0 : tiny <= E) (EM : 32 * u * M <= E) (ME : E <= M) (MB : 16 * M <= big).
  (** what is computed for one sample: the output and the new state, up to the disturbance of the exact recursion *)
  Lemma sample_step x s0 s1 z : fin x -> fin s0 -> fin s1 -> fin z -> FR z = 0 ->
    Rabs (FR b0 * FR x) <= E -> Rabs (FR b1 * FR x) <= E -> Rabs (FR b2 * FR x) <= E -> Rabs (FR s0) <= M -> Rabs (FR s1) <= M ->
    let y := (b0 * x + s0)%float in let t0 := (b1 * x + s1 - a1 * y)%float in let t1 := (b2 * x + z - a2 * y)%float in
    fin y /\ fin t0 /\ fin t1 /\ Rabs (FR y) <= 3 * M /\
    exists g0 g1, FR t0 = FR s1 - FR a1 * FR s0 + g0 /\ FR t1 = - FR a2 * FR s0 + g1 /\ Rabs g0 <= 4 * E /\ Rabs g1 <= 4 * E.
  Proof.
    intros Fx Fs0 Fs1 Fz Hz B0 B1 B2 S0 S1 y t0 t1.
    assert (U0 := u_pos). assert (U1 := u_small). assert (T0 : 0 < tiny) by apply bpow_gt_0.
    assert (UE : 0 <= u * E) by nra. assert (UM : u * E <= u * M) by nra. assert (U2 : u * M <= M / 100) by nra. assert (U3 : u * E <= E / 100) by nra.
    destruct (op_err (b0 * x)%float (FR b0 * FR x) E (FR_mul _ _ Fb0 Fx) B0 E0 ltac:(lra)) as [Fp0 P0].
    destruct (op_err (b1 * x)%float (FR b1 * FR x) E (FR_mul _ _ Fb1 Fx) B1 E0 ltac:(lra)) as [Fp1 P1].
    destruct (op_err (b2 * x)%float (FR b2 * FR x) E (FR_mul _ _ Fb2 Fx) B2 E0 ltac:(lra)) as [Fp2 P2].
    set (p0 := (b0 * x)%float) in *. set (p1 := (b1 * x)%float) in *. set (p2 := (b2 * x)%float) in *.
    destruct (op_err y (FR p0 + FR s0) (2 * E + M) (FR_add _ _ Fp0 Fs0)) as [Fy Y]; [tri|lra|lra|].
    assert (Yb : Rabs (FR y) <= 3 * M) by tri.
    destruct (op_err (p1 + s1)%float (FR p1 + FR s1) (2 * E + M) (FR_add _ _ Fp1 Fs1)) as [Fq0 Q0]; [tri|lra|lra|].
    destruct (op_err (p2 + z)%float (FR p2 + FR z) (2 * E) (FR_add _ _ Fp2 Fz)) as [Fq1 Q1]; [rewrite Hz; tri|lra|lra|].
    assert (M0 : 0 <= M) by lra.
    assert (R1 : Rabs (FR a1 * FR y) <= 6 * M) by (rewrite Rabs_mult; pose proof (Rabs_pos (FR a1)); pose proof (Rabs_pos (FR y)); nra).
    assert (R2 : Rabs (FR a2 * FR y) <= 3 * M) by (rewrite Rabs_mult; pose proof (Rabs_pos (FR a2)); pose proof (Rabs_pos (FR y)); nra).
    destruct (op_err (a1 * y)%float (FR a1 * FR y) (6 * M) (FR_mul _ _ Fa1 Fy) R1) as [Fr0 V0]; [lra|lra|].
    destruct (op_err (a2 * y)%float (FR a2 * FR y) (3 * M) (FR_mul _ _ Fa2 Fy) R2) as [Fr1 V1]; [lra|lra|].
    set (q0 := (p1 + s1)%float) in *. set (q1 := (p2 + z)%float) in *. set (r0 := (a1 * y)%float) in *. set (r1 := (a2 * y)%float) in *.
    destruct (op_err t0 (FR q0 - FR r0) (11 * M) (FR_sub _ _ Fq0 Fr0)) as [Ft0 T0']; [tri|lra|lra|].
    destruct (op_err t1 (FR q1 - FR r1) (8 * M) (FR_sub _ _ Fq1 Fr1)) as [Ft1 T1']; [rewrite Hz in *; tri|lra|lra|].
    split; [exact Fy|]. split; [exact Ft0|]. split; [exact Ft1|]. split; [exact Yb|].
    set (e1 := FR y - (FR b0 * FR x + FR s0)). assert (Ee1 : Rabs e1 <= 4 * (u * M)) by (unfold e1; tri).
    assert (X1 : Rabs (FR a1 * e1) <= 8 * (u * M)) by (rewrite Rabs_mult; pose proof (Rabs_pos (FR a1)); pose proof (Rabs_pos e1); nra).
    assert (X2 : Rabs (FR a2 * e1) <= 4 * (u * M)) by (rewrite Rabs_mult; pose proof (Rabs_pos (FR a2)); pose proof (Rabs_pos e1); nra).
    assert (X3 : Rabs (FR a1 * (FR b0 * FR x)) <= 2 * E) by (rewrite Rabs_mult; pose proof (Rabs_pos (FR a1)); pose proof (Rabs_pos (FR b0 * FR x)); nra).
    assert (X4 : Rabs (FR a2 * (FR b0 * FR x)) <= E) by (rewrite Rabs_mult; pose proof (Rabs_pos (FR a2)); pose proof (Rabs_pos (FR b0 * FR x)); nra).
    assert (YE : FR y = FR b0 * FR x + FR s0 + e1) by (unfold e1; ring).
    exists (FR t0 - (FR s1 - FR a1 * FR s0)), (FR t1 - (- FR a2 * FR s0)). split; [ring|]. split; [ring|]. rewrite YE in V0, V1.
    split.
    - tri.
    - rewrite Hz in *. tri.
  Qed.
End Step.

Section Loop.
  Variables (a0 b0 b1 b2 a1 a2 : PrimFloat.float) (k c : Z).
  Hypotheses (Bb0 : bd c b0) (Bb1 : bd c b1) (Bb2 : bd c b2) (Fa1 : fin a1) (Fa2 : fin a2).
  Hypotheses (H2 : Rabs (FR a2) <= 1) (H1 : Rabs (FR a1) <= 1 + FR a2).
  Hypotheses (Hk : (-1000 <= k + c <= 950)%Z).
  Let E := bpow radix2 (k + c).
  Let M := bpow radix2 (k + c + 42).
  Lemma M_E : M = IZR (2 ^ 42) * E.
  Proof. unfold M, E. rewrite (bpow_plus radix2 (k + c) 42). rewrite Rmult_comm. reflexivity. Qed.
  Lemma loop_bd (p q : C) : Cplus p q = RtoC (- FR a1) -> Cmult p q = RtoC (FR a2) -> Cmod p <= 1 -> Cmod q <= 1 ->
    forall sig s0 s1 z (i : R), 0 <= i -> i + INR (length sig) <= IZR (2 ^ 20) -> Forall (bd k) sig -> fin s0 -> fin s1 -> fin z -> FR z = 0 ->
    Cmod (p * FR s0 + FR s1)%C <= 2 * i * (4 * E) -> Rabs (FR s0) <= i * i * (4 * E) -> Rabs (FR s1) <= i * i * (4 * E) ->
    Forall (bd (k + c + 44)) (fst (filter_loop [b0; b1; b2] [a0; a1; a2] sig [s0; s1; z])).
  Proof.
    intros EP EQ Hp Hq. assert (E0 : 0 < E) by apply bpow_gt_0. assert (ME := M_E).
    induction sig as [|x sig IH]; intros s0 s1 z i Hi HL HF Fs0 Fs1 Fz Hz W S0 S1; [constructor|].
    inversion HF as [|? ? [Fx Hx] HF']; subst. cbn [length] in HL. rewrite S_INR in HL. pose proof (pos_INR (length sig)).
    assert (i <= IZR (2 ^ 20)) by lra. assert (I2 : i * i * (4 * E) <= M).
    { rewrite ME. assert (i * i <= IZR (2 ^ 20) * IZR (2 ^ 20)) by nra. rewrite <- mult_IZR in *. change (2 ^ 42)%Z with (2 ^ 20 * 2 ^ 20 * 4)%Z. rewrite (mult_IZR _ 4). nra. }
    assert (PB : forall b, bd c b -> Rabs (FR b * FR x) <= E).
    { intros b [_ Hb]. rewrite Rabs_mult. unfold E. rewrite bpow_plus, Rmult_comm. apply Rmult_le_compat; try apply Rabs_pos; assumption. }
    destruct (sample_step b0 b1 b2 a1 a2 E M (bd_fin _ _ Bb0) (bd_fin _ _ Bb1) (bd_fin _ _ Bb2) Fa1 Fa2 H2) with (x := x) (s0 := s0) (s1 := s1) (z := z)
      as (Fy & Ft0 & Ft1 & Yb & g0 & g1 & G0 & G1 & D0 & D1); try assumption; try (apply PB; assumption); try lra.
    - apply Rabs_le_inv in H2. lra.
    - unfold E, tiny. apply bpow_le. lia.
    - rewrite ME. unfold u. apply Rmult_le_reg_l with (IZR (2 ^ 53)); [apply IZR_lt; reflexivity|].
      replace (IZR (2 ^ 53) * (32 * / IZR (2 ^ 53) * (IZR (2 ^ 42) * E))) with (IZR (32 * 2 ^ 42) * E) by (rewrite mult_IZR; field; apply Rgt_not_eq, IZR_lt; reflexivity).
      apply Rmult_le_compat_r; [lra|]. apply IZR_le. lia.
    - unfold M, big. change 16 with (bpow radix2 4). rewrite <- bpow_plus. apply bpow_le. lia.
    - destruct (state_step p q (FR a1) (FR a2) (FR s0) (FR s1) g0 g1 (2 * i * (4 * E)) (i * i * (4 * E)) (4 * E) EP EQ Hp Hq W S0 D0 D1) as (W' & S0' & S1').
      rewrite <- G0 in W', S0'. rewrite <- G1 in W', S1'.
      cbn [filter_loop nth]. unfold filter_cond. cbn [length seq map Nat.ltb Nat.leb nth nadd nmul nsub NumF].
      match goal with |- context [filter_loop _ _ sig [?t0; ?t1; z]] => specialize (IH t0 t1 z (i + 1)) end.
      match goal with |- context [filter_loop ?b ?a sig ?f] => destruct (filter_loop b a sig f) as [ys f'] eqn:EL end.
      cbn [fst] in IH |- *. constructor.
      + split; [exact Fy|]. apply Rle_trans with (1 := Yb). replace (k + c + 44)%Z with (k + c + 42 + 2)%Z by lia. rewrite bpow_plus. fold M. change (bpow radix2 2) with 4. assert (0 <= M) by apply bpow_ge_0. lra.
      + apply IH; try assumption; [lra|lra|apply Rle_trans with (1 := W')|apply Rle_trans with (1 := S0')|apply Rle_trans with (1 := S1')]; nra.
  Qed.
  Lemma filter_bd sig y f ic : (Z.of_nat (length sig) <= 2 ^ 20)%Z -> Forall (bd k) sig -> Forall (fun s => s = F_ofZ 0) ic -> (length ic <= 3)%nat ->
    signal_filter [b0; b1; b2] [a0; a1; a2] sig ic = Ret (y, f) -> Forall (bd (k + c + 44)) y.
  Proof.
    intros HL HF HI LI. destruct (roots (FR a1) (FR a2) H2 H1) as (p & q & EP & EQ & Hp & Hq).
    unfold signal_filter. cbn [length]. destruct (Nat.ltb_spec 3 (length ic)); [lia|]. cbn [Nat.eqb Nat.ltb Nat.leb orb].
    assert (EI : ic ++ repeat n0 (3 - length ic) = [F_ofZ 0; F_ofZ 0; F_ofZ 0]).
    { destruct ic as [|s0 [|s1 [|s2 [|? ?]]]]; try (cbn [length] in LI; lia); repeat match goal with H : Forall _ (_ :: _) |- _ => inversion H; subst; clear H end; reflexivity. }
    rewrite EI. pose proof (loop_bd p q EP EQ Hp Hq sig (F_ofZ 0) (F_ofZ 0) (F_ofZ 0) 0) as X. destruct (filter_loop _ _ sig _) as [ys f'] eqn:EL. cbn [fst] in X.
    intros EE. injection EE as <- <-. destruct (FR_ofZ 0 ltac:(lia)) as [Z0 F0].
    apply X; try assumption; rewrite ?Z0, ?Rabs_R0; try lra.
    - rewrite Rplus_0_l, INR_IZR_INZ. apply IZR_le. exact HL.
    - rewrite Cmult_0_r, Cplus_0_r, Cmod_0. lra.
  Qed.
End Loop.
