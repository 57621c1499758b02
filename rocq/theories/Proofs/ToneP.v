(** Filter sections on infinite signals: stability and response to a tone (C88). *)
From Coq Require Import ZArith List Bool Lia Arith Reals Lra.
From Verif Require Import Base.Res Base.Num Base.NumR Base.Lists Base.Cplx Model.SignalFilter Model.Erb Model.FilterBank
  Spec.ToneSpec Proofs.RealP Proofs.FilterP.
Import ListNotations.
Open Scope R_scope.

(** *** first order *)
Lemma first_bounded r U (s t : nat -> R) : 0 <= r < 1 -> 0 <= U -> (forall n, t n <= U) -> s 0%nat <= t 0%nat -> (forall n, s (S n) <= t (S n) + r * s n) ->
  forall n, s n <= U / (1 - r).
Proof.
  intros Hr HU Ht H0 HS. assert (P : 0 < 1 - r) by lra.
  assert (E : U / (1 - r) = U + r * (U / (1 - r))) by (field; lra).
  assert (G : U <= U / (1 - r)) by (apply Rmult_le_reg_r with (1 - r); [exact P|]; unfold Rdiv; rewrite Rmult_assoc, Rinv_l by lra; nra).
  induction n as [|n IH]; [specialize (Ht 0%nat); lra|]. specialize (HS n). specialize (Ht (S n)). rewrite E.
  assert (r * s n <= r * (U / (1 - r))) by (apply Rmult_le_compat_l; lra). lra.
Qed.
Definition vanishes (u : nat -> R) : Prop := forall eps, 0 < eps -> exists m, forall k, (m <= k)%nat -> Rabs (u k) < eps.
Lemma power_small r : 0 <= r < 1 -> vanishes (fun n => r ^ n).
Proof.
  intros Hr eps He. destruct (pow_lt_1_zero r ltac:(rewrite Rabs_right; lra) eps He) as (m & Hm). exists m. intros k Hk. apply Hm. lia.
Qed.
Lemma first_vanishes r (s t : nat -> R) : 0 <= r < 1 -> (forall n, 0 <= s n) -> (forall n, 0 <= t n) -> (forall n, s (S n) <= t (S n) + r * s n) ->
  vanishes t -> vanishes s.
Proof.
  intros Hr Hs Ht HS HV eps He. assert (P : 0 < 1 - r) by lra.
  destruct (HV (eps / 2 * (1 - r)) ltac:(apply Rmult_lt_0_compat; lra)) as (m1 & H1).
  assert (A : forall k, s (m1 + k)%nat <= r ^ k * s m1 + eps / 2).
  { induction k as [|k IH]; [rewrite Nat.add_0_r; cbn; lra|]. rewrite Nat.add_succ_r. specialize (HS (m1 + k)%nat).
    specialize (H1 (S (m1 + k)) ltac:(lia)). rewrite Rabs_right in H1 by (apply Rle_ge, Ht). cbn [pow].
    assert (r * s (m1 + k)%nat <= r * (r ^ k * s m1 + eps / 2)) by (apply Rmult_le_compat_l; lra). lra. }
  destruct (power_small r Hr (eps / (2 * (s m1 + 1)))) as (m2 & H2).
  { apply Rdiv_lt_0_compat; [exact He|]. specialize (Hs m1). lra. }
  exists (m1 + m2)%nat. intros k Hk. specialize (H2 (k - m1)%nat ltac:(lia)). specialize (A (k - m1)%nat). replace (m1 + (k - m1))%nat with k in A by lia.
  rewrite Rabs_right by (apply Rle_ge, Hs). rewrite Rabs_right in H2 by (apply Rle_ge, pow_le; lra).
  pose proof (Hs m1) as S1. assert (Q : 0 < s m1 + 1) by lra.
  assert (r ^ (k - m1) * s m1 <= eps / (2 * (s m1 + 1)) * (s m1)) by (apply Rmult_le_compat_r; lra).
  assert (eps / (2 * (s m1 + 1)) * s m1 < eps / 2); [|lra].
  apply Rmult_lt_reg_r with (2 * (s m1 + 1)); [lra|]. replace (eps / (2 * (s m1 + 1)) * s m1 * (2 * (s m1 + 1))) with (eps * s m1) by (field; lra).
  replace (eps / 2 * (2 * (s m1 + 1))) with (eps * (s m1 + 1)) by field. nra.
Qed.

(** *** second order with poles r (c +- i s) *)
Definition modulus (a b : R) : R := sqrt (a * a + b * b).
Lemma modulus_pos a b : 0 <= modulus a b.
Proof. apply sqrt_pos. Qed.
Lemma modulus_sq a b : modulus a b * modulus a b = a * a + b * b.
Proof. apply sqrt_sqrt. nra. Qed.
Lemma modulus_tri a b c d : modulus (a + c) (b + d) <= modulus a b + modulus c d.
Proof.
  assert (H : 0 <= modulus a b + modulus c d) by (pose proof (modulus_pos a b); pose proof (modulus_pos c d); lra).
  apply Rsqr_incr_0_var; [|exact H]. unfold Rsqr. rewrite modulus_sq.
  pose proof (modulus_sq a b) as E1. pose proof (modulus_sq c d) as E2. pose proof (modulus_pos a b) as P1. pose proof (modulus_pos c d) as P2.
  set (m := modulus a b) in *. set (n := modulus c d) in *.
  assert (CS : a * c + b * d <= m * n).
  { apply Rsqr_incr_0_var; [|nra]. unfold Rsqr. replace (m * n * (m * n)) with ((m * m) * (n * n)) by ring. rewrite E1, E2. pose proof (Rle_0_sqr (a * d - b * c)) as Q. unfold Rsqr in Q. nra. }
  nra.
Qed.
Lemma modulus_scale r c s a b : 0 <= r -> c * c + s * s = 1 -> modulus (r * (c * a - s * b)) (r * (s * a + c * b)) = r * modulus a b.
Proof.
  intros Hr E. unfold modulus. replace (r * (c * a - s * b) * (r * (c * a - s * b)) + r * (s * a + c * b) * (r * (s * a + c * b))) with ((r * r) * (a * a + b * b)).
  - rewrite sqrt_mult by nra. rewrite sqrt_square by exact Hr. reflexivity.
  - replace (a * a + b * b) with ((c * c + s * s) * (a * a + b * b)) by (rewrite E; ring). ring.
Qed.
Lemma modulus_real a : modulus a 0 = Rabs a.
Proof. unfold modulus. replace (a * a + 0 * 0) with (Rsqr a) by (unfold Rsqr; ring). apply sqrt_Rsqr_abs. Qed.

Section Second.
  Variables (r c s : R) (u y : nat -> R).
  Hypotheses (Hr : 0 <= r < 1) (E : c * c + s * s = 1).
  Hypotheses (Y0 : y 0%nat = u 0%nat) (Y1 : y 1%nat = u 1%nat + 2 * r * c * y 0%nat)
             (Y2 : forall n, y (S (S n)) = u (S (S n)) + 2 * r * c * y (S n) - r * r * y n).
  Definition before (n : nat) : R := match n with O => 0 | S k => y k end.
  Definition vv (n : nat) : R := modulus (y n - r * c * before n) (r * s * before n).
  Lemma vv_step n : vv (S n) <= Rabs (u (S n)) + r * vv n.
  Proof.
    unfold vv. rewrite <- (modulus_scale r c s) by (lra || exact E). rewrite <- modulus_real.
    eapply Rle_trans; [|apply modulus_tri]. apply Req_le. f_equal.
    - destruct n as [|n]; cbn [before].
      + rewrite Y1. ring.
      + rewrite Y2. replace (r * r * y n) with (r * r * y n * (c * c + s * s)) by (rewrite E; ring). ring.
    - destruct n as [|n]; cbn [before]; ring.
  Qed.
  Lemma vv_0 : vv 0 = Rabs (u 0%nat).
  Proof. unfold vv. cbn [before]. rewrite Y0, !Rmult_0_r, Rminus_0_r. apply modulus_real. Qed.
  Lemma y_step n : Rabs (y (S n)) <= vv (S n) + r * Rabs (y n).
  Proof.
    unfold vv. cbn [before]. rewrite <- (modulus_real (y n)). rewrite <- (modulus_scale r c (- s) (y n) 0) by (lra || (rewrite <- E; ring)). rewrite <- modulus_real.
    eapply Rle_trans; [|apply modulus_tri]. apply Req_le. f_equal; ring.
  Qed.
  Lemma y_0 : Rabs (y 0%nat) <= vv 0.
  Proof. rewrite vv_0, Y0. lra. Qed.
  Lemma second_bounded U : (forall n, Rabs (u n) <= U) -> forall n, Rabs (y n) <= U / (1 - r) / (1 - r).
  Proof.
    intros HU. assert (U0 : 0 <= U) by (pose proof (HU 0%nat); pose proof (Rabs_pos (u 0%nat)); lra).
    apply (first_bounded r (U / (1 - r)) (fun n => Rabs (y n)) vv Hr).
    - unfold Rdiv. apply Rmult_le_pos; [exact U0|]. left. apply Rinv_0_lt_compat. lra.
    - apply (first_bounded r U vv (fun n => Rabs (u n)) Hr U0 HU); [rewrite vv_0; lra|exact vv_step].
    - exact y_0.
    - exact y_step.
  Qed.
  Lemma second_vanishes : vanishes u -> vanishes y.
  Proof.
    intros HV. assert (V1 : vanishes vv).
    { apply (first_vanishes r vv (fun n => Rabs (u n)) Hr); [intros; apply modulus_pos|intros; apply Rabs_pos|exact vv_step|].
      intros eps He. destruct (HV eps He) as (m & Hm). exists m. intros k Hk. rewrite Rabs_Rabsolu. exact (Hm k Hk). }
    assert (V2 : vanishes (fun n => Rabs (y n))).
    { apply (first_vanishes r (fun n => Rabs (y n)) vv Hr); [intros; apply Rabs_pos|intros; apply modulus_pos|exact y_step|exact V1]. }
    intros eps He. destruct (V2 eps He) as (m & Hm). exists m. intros k Hk. specialize (Hm k Hk). now rewrite Rabs_Rabsolu in Hm.
  Qed.
End Second.

(** *** one section *)
Section One.
  Variables (b0 b1 b2 a1 a2 : R).
  Fixpoint st (x : nat -> R) (n : nat) : R * R :=
    match n with
    | O => (0, 0)
    | S k => let '(f0, f1) := st x k in let y := b0 * x k + f0 in (b1 * x k + f1 - a1 * y, b2 * x k - a2 * y)
    end.
  Definition out (x : nat -> R) (n : nat) : R := b0 * x n + fst (st x n).
  Lemma loop_out x n : forall s, filter_loop [b0; b1; b2] [1; a1; a2] (map x (seq s n)) [fst (st x s); snd (st x s); 0] =
    (map (out x) (seq s n), [fst (st x (s + n)); snd (st x (s + n)); 0]).
  Proof.
    induction n as [|n IH]; intros s; [cbn [seq map filter_loop]; now rewrite Nat.add_0_r|].
    cbn [seq map filter_loop]. unfold filter_cond. cbn [length seq map Nat.ltb Nat.leb nth].
    change (@nmul R NumR) with Rmult. change (@nadd R NumR) with Rplus. change (@nsub R NumR) with Rminus.
    replace [b1 * x s + snd (st x s) - a1 * (b0 * x s + fst (st x s)); b2 * x s + 0 - a2 * (b0 * x s + fst (st x s)); 0]
      with [fst (st x (S s)); snd (st x (S s)); 0].
    - rewrite IH. cbn [map seq]. rewrite Nat.add_succ_r. reflexivity.
    - cbn [st]. destruct (st x s) as [f0 f1]. cbn [fst snd]. f_equal. f_equal. ring.
  Qed.
  Lemma filter_out x n : exists f, signal_filter [b0; b1; b2] [1; a1; a2] (map x (seq 0 n)) [0; 0] = Ret (map (out x) (seq 0 n), f).
  Proof.
    unfold signal_filter. cbn [length Nat.ltb Nat.leb Nat.eqb orb Nat.sub repeat List.app]. change (@n0 R NumR) with 0.
    pose proof (loop_out x n 0) as H. cbn [st fst snd] in H. rewrite H. eexists. reflexivity.
  Qed.
  (** the recursion *)
  Definition drive (x : nat -> R) (n : nat) : R :=
    match n with
    | O => b0 * x 0%nat
    | 1%nat => b0 * x 1%nat + b1 * x 0%nat
    | S (S k as j) => b0 * x (S j) + b1 * x j + b2 * x k
    end.
  Lemma out_0 x : out x 0 = drive x 0.
  Proof. unfold out. cbn. ring. Qed.
  Lemma out_1 x : out x 1 = drive x 1 - a1 * out x 0.
  Proof. unfold out. cbn. ring. Qed.
  Lemma out_2 x n : out x (S (S n)) = drive x (S (S n)) - a1 * out x (S n) - a2 * out x n.
  Proof. unfold out. cbn [st drive]. destruct (st x n) as [f0 f1]. cbn [fst snd]. ring. Qed.
End One.

(** *** a section with poles r (c +- i s): stability and steady state *)
Section Pole.
  Variables (b0 b1 r c s : R).
  Hypotheses (Hr : 0 <= r < 1) (E : c * c + s * s = 1).
  Local Notation o := (out b0 b1 0 (- (2 * r * c)) (r * r)).
  Local Notation d := (drive b0 b1 0).
  Lemma pole_bounded x X : (forall n, Rabs (x n) <= X) -> forall n, Rabs (o x n) <= (Rabs b0 + Rabs b1) / (1 - r) / (1 - r) * X.
  Proof.
    intros HX n. assert (X0 : 0 <= X) by (pose proof (HX 0%nat); pose proof (Rabs_pos (x 0%nat)); lra).
    replace ((Rabs b0 + Rabs b1) / (1 - r) / (1 - r) * X) with ((Rabs b0 + Rabs b1) * X / (1 - r) / (1 - r)) by (field; lra).
    apply (second_bounded r c s (d x) (o x) Hr E).
    - apply out_0.
    - rewrite out_1. ring.
    - intros k. rewrite out_2. ring.
    - intros k. assert (P : forall b i, Rabs (b * x i) <= Rabs b * X) by (intros b i; rewrite Rabs_mult; apply Rmult_le_compat_l; [apply Rabs_pos|apply HX]).
      pose proof (Rabs_pos b0) as Q0. pose proof (Rabs_pos b1) as Q1.
      destruct k as [|[|k]]; cbn [drive].
      + specialize (P b0 0%nat). nra.
      + pose proof (P b0 1%nat). pose proof (P b1 0%nat). eapply Rle_trans; [apply Rabs_triang|]. lra.
      + pose proof (P b0 (S (S k))). pose proof (P b1 (S k)). rewrite Rmult_0_l, Rplus_0_r. eapply Rle_trans; [apply Rabs_triang|]. lra.
  Qed.
  (** input close to a tone, steady state [G] with G * D = C * num *)
  Lemma pole_tone w x p q P Q :
    let e1 := cos w in let e2 := - sin w in
    let D1 := 1 - 2 * r * c * e1 + r * r * (e1 * e1 - e2 * e2) in
    let D2 := - (2 * r * c * e2) + r * r * (2 * e1 * e2) in
    let N1 := b0 + b1 * e1 in let N2 := b1 * e2 in
    P * D1 - Q * D2 = p * N1 - q * N2 -> P * D2 + Q * D1 = p * N2 + q * N1 ->
    vanishes (fun n => x n - tone w p q n) -> vanishes (fun n => o x n - tone w P Q n).
  Proof.
    intros e1 e2 D1 D2 N1 N2 EQ1 EQ2 HV.
    set (z := fun n => o x n - tone w P Q n).
    set (u := fun n => match n with O => z 0%nat | 1%nat => z 1%nat - 2 * r * c * z 0%nat | S (S k) => z (S (S k)) - 2 * r * c * z (S k) + r * r * z k end).
    apply (second_vanishes r c s u z Hr E); [unfold u; cbv beta iota; ring|intros n; unfold u; cbv beta iota; ring|].
    set (v := fun n => x n - tone w p q n) in *.
    assert (Hu : forall k, u (S (S k)) = b0 * v (S (S k)) + b1 * v (S k)).
    { intros k. unfold u, z. rewrite out_2. cbn [drive]. unfold v, tone.
      assert (C1 : cos (w * INR (S k)) = cos (w * INR (S (S k))) * e1 - sin (w * INR (S (S k))) * e2).
      { replace (w * INR (S k)) with (w * INR (S (S k)) - w) by (rewrite (S_INR (S k)); ring). rewrite cos_minus. unfold e1, e2. ring. }
      assert (S1 : sin (w * INR (S k)) = sin (w * INR (S (S k))) * e1 + cos (w * INR (S (S k))) * e2).
      { replace (w * INR (S k)) with (w * INR (S (S k)) - w) by (rewrite (S_INR (S k)); ring). rewrite sin_minus. unfold e1, e2. ring. }
      assert (C2 : cos (w * INR k) = cos (w * INR (S k)) * e1 - sin (w * INR (S k)) * e2).
      { replace (w * INR k) with (w * INR (S k) - w) by (rewrite (S_INR k); ring). rewrite cos_minus. unfold e1, e2. ring. }
      assert (S2 : sin (w * INR k) = sin (w * INR (S k)) * e1 + cos (w * INR (S k)) * e2).
      { replace (w * INR k) with (w * INR (S k) - w) by (rewrite (S_INR k); ring). rewrite sin_minus. unfold e1, e2. ring. }
      rewrite C2, S2, C1, S1. clear C1 S1 C2 S2.
      set (CC := cos (w * INR (S (S k)))). set (SS := sin (w * INR (S (S k)))).
      transitivity (b0 * x (S (S k)) + b1 * x (S k) - (CC * (P * D1 - Q * D2) - SS * (P * D2 + Q * D1))).
      - unfold D1, D2. ring.
      - rewrite EQ1, EQ2. unfold N1, N2. ring. }
    intros eps He. assert (A0 : 0 < Rabs b0 + Rabs b1 + 1) by (pose proof (Rabs_pos b0); pose proof (Rabs_pos b1); lra).
    destruct (HV (eps / (Rabs b0 + Rabs b1 + 1)) ltac:(apply Rdiv_lt_0_compat; assumption)) as (m & Hm).
    exists (S (S m)). intros k Hk. destruct k as [|[|k]]; [lia|lia|]. rewrite Hu.
    pose proof (Hm (S (S k)) ltac:(lia)) as M1. pose proof (Hm (S k) ltac:(lia)) as M2. fold v in M1, M2.
    change (Rabs (v (S (S k))) < eps / (Rabs b0 + Rabs b1 + 1)) in M1. change (Rabs (v (S k)) < eps / (Rabs b0 + Rabs b1 + 1)) in M2.
    set (h := eps / (Rabs b0 + Rabs b1 + 1)) in *.
    assert (EH : eps = h * (Rabs b0 + Rabs b1 + 1)) by (unfold h; field; lra).
    assert (H0 : 0 < h) by (unfold h; apply Rdiv_lt_0_compat; assumption).
    eapply Rle_lt_trans; [apply Rabs_triang|]. rewrite !Rabs_mult.
    assert (Rabs b0 * Rabs (v (S (S k))) <= Rabs b0 * h) by (apply Rmult_le_compat_l; [apply Rabs_pos|lra]).
    assert (Rabs b1 * Rabs (v (S k)) <= Rabs b1 * h) by (apply Rmult_le_compat_l; [apply Rabs_pos|lra]).
    rewrite EH. lra.
  Qed.
End Pole.

(** *** the four sections of one band *)
Definition cascade (g t k1 k2 k3 k4 r c : R) (x : nat -> R) : nat -> R :=
  let o b0 b1 := out b0 b1 0 (- (2 * r * c)) (r * r) in
  o t (- (t * r * k4)) (o t (- (t * r * k3)) (o t (- (t * r * k2)) (o (t / g) (- (t * r * k1) / g) x))).
Lemma cascade_stable g t k1 k2 k3 k4 r c s : 0 <= r < 1 -> c * c + s * s = 1 ->
  exists K, forall x X, (forall n, Rabs (x n) <= X) -> forall n, Rabs (cascade g t k1 k2 k3 k4 r c x n) <= K * X.
Proof.
  intros Hr E. eexists. intros x X HX. unfold cascade.
  intros n. eapply Rle_trans; [apply (pole_bounded _ _ r c s Hr E); apply (pole_bounded _ _ r c s Hr E); apply (pole_bounded _ _ r c s Hr E); apply (pole_bounded _ _ r c s Hr E); exact HX|].
  apply Req_le. rewrite <- !Rmult_assoc. reflexivity.
Qed.

(** complex arithmetic over R *)
Lemma norm_mul (a b : R * R) : cnorm2 (cmul a b) = cnorm2 a * cnorm2 b.
Proof. destruct a, b. unfold cnorm2, cmul, cre, cim. cbn. ring. Qed.
Lemma norm_div (a b : R * R) : cnorm2 b <> 0 -> cnorm2 (cdiv a b) = cnorm2 a / cnorm2 b.
Proof. destruct a as [a1 a2], b as [b1 b2]. unfold cnorm2, cdiv, cre, cim. cbn. intros H. field. exact H. Qed.
Lemma div_mul (a b : R * R) : cnorm2 b <> 0 -> cmul (cdiv a b) b = a.
Proof. destruct a as [a1 a2], b as [b1 b2]. unfold cnorm2, cdiv, cmul, cre, cim. cbn. intros H. f_equal; field; exact H. Qed.

(** numerator and denominator of a section on the unit circle *)
Definition num_at (t r k w : R) : R * R := (t - t * r * k * cos w, t * r * k * sin w).
Definition den_at (r w : R) : R * R :=
  (1 - 2 * r * cos w * cos w + r * r * (cos w * cos w - sin w * sin w), 2 * r * cos w * sin w - r * r * (2 * cos w * sin w)).
Lemma cs1 w : cos w * cos w + sin w * sin w = 1.
Proof. pose proof (sin2_cos2 w) as H. unfold Rsqr in H. lra. Qed.
Lemma den_nonzero r w : 0 <= r < 1 -> 0 < cnorm2 (den_at r w).
Proof.
  intros Hr. pose proof (cs1 w) as E.
  assert (X : cnorm2 (den_at r w) = (1 - r) * (1 - r) * ((1 - r * (cos w * cos w - sin w * sin w)) * (1 - r * (cos w * cos w - sin w * sin w)) + 2 * r * cos w * sin w * (2 * r * cos w * sin w))).
  { unfold cnorm2, den_at, cre, cim. cbn. set (C := cos w) in *. set (Q := sin w) in *.
    assert (F : Q * Q = 1 - C * C) by lra.
    replace (1 - 2 * r * C * C + r * r * (C * C - Q * Q)) with ((1 - r) * (1 - r * (C * C - Q * Q))) by (rewrite F; ring).
    ring. }
  rewrite X. apply Rmult_lt_0_compat; [nra|].
  assert (B : cos w * cos w - sin w * sin w <= 1) by (pose proof (Rle_0_sqr (sin w)) as Q; unfold Rsqr in Q; lra).
  assert (0 < 1 - r * (cos w * cos w - sin w * sin w)) by nra.
  pose proof (Rle_0_sqr (2 * r * cos w * sin w)) as Q. unfold Rsqr in Q. nra.
Qed.
Lemma num_nonzero t r a w : 0 < t -> 0 < r < 1 -> 0 < cnorm2 (num_at t r (cos w + a * sin w) w).
Proof.
  intros Ht Hr. pose proof (cs1 w) as E. unfold cnorm2, num_at, cre, cim. cbn. set (C := cos w) in *. set (Q := sin w) in *. set (k := C + a * Q).
  replace ((t - t * r * k * C) * (t - t * r * k * C) + t * r * k * Q * (t * r * k * Q)) with (t * t * ((1 - r * k * C) * (1 - r * k * C) + r * k * Q * (r * k * Q))) by ring.
  apply Rmult_lt_0_compat; [nra|].
  pose proof (Rle_0_sqr (1 - r * k * C)) as P1. pose proof (Rle_0_sqr (r * k * Q)) as P2. unfold Rsqr in *.
  destruct (Rlt_le_dec 0 ((1 - r * k * C) * (1 - r * k * C) + r * k * Q * (r * k * Q))) as [H|H]; [exact H|exfalso].
  assert (Z1 : r * k * Q = 0) by (apply Rsqr_0_uniq; unfold Rsqr; lra).
  assert (Z2 : 1 - r * k * C = 0) by (apply Rsqr_0_uniq; unfold Rsqr; lra).
  assert (k <> 0) by (intros ->; lra).
  assert (ZQ : Q = 0) by (apply Rmult_eq_reg_l with (r * k); [lra|]; apply Rmult_integral_contrapositive; lra).
  assert (Zk : k = C) by (unfold k; rewrite ZQ; ring). rewrite Zk in Z2. rewrite ZQ in E. assert (CC1 : C * C = 1) by lra.
  replace (r * C * C) with (r * (C * C)) in Z2 by ring. rewrite CC1 in Z2. lra.
Qed.

Lemma section_tone t r k g w x p q : 0 < r < 1 -> g <> 0 ->
  vanishes (fun n => x n - tone w p q n) ->
  let G := cdiv (cmul (p, q) (cscale (num_at t r k w) (/ g))) (den_at r w) in
  vanishes (fun n => out (t / g) (- (t * r * k) / g) 0 (- (2 * r * cos w)) (r * r) x n - tone w (cre G) (cim G) n).
Proof.
  intros Hr Hg HV G. pose proof (den_nonzero r w ltac:(lra)) as HD.
  pose proof (div_mul (cmul (p, q) (cscale (num_at t r k w) (/ g))) (den_at r w) ltac:(lra)) as EQ. fold G in EQ.
  apply (pole_tone (t / g) (- (t * r * k) / g) r (cos w) (sin w) ltac:(lra) (cs1 w) w x p q (cre G) (cim G)); [| |exact HV].
  - apply (f_equal fst) in EQ. unfold cmul, cscale, num_at, den_at, cre, cim in EQ. cbn [fst snd] in EQ.
    change (@nmul R NumR) with Rmult in EQ. change (@nadd R NumR) with Rplus in EQ. change (@nsub R NumR) with Rminus in EQ. unfold cre, cim.
    transitivity (fst G * (1 - 2 * r * cos w * cos w + r * r * (cos w * cos w - sin w * sin w)) - snd G * (2 * r * cos w * sin w - r * r * (2 * cos w * sin w))); [ring|].
    rewrite EQ. field. exact Hg.
  - apply (f_equal snd) in EQ. unfold cmul, cscale, num_at, den_at, cre, cim in EQ. cbn [fst snd] in EQ.
    change (@nmul R NumR) with Rmult in EQ. change (@nadd R NumR) with Rplus in EQ. change (@nsub R NumR) with Rminus in EQ. unfold cre, cim.
    transitivity (fst G * (2 * r * cos w * sin w - r * r * (2 * cos w * sin w)) + snd G * (1 - 2 * r * cos w * cos w + r * r * (cos w * cos w - sin w * sin w))); [ring|].
    rewrite EQ. field. exact Hg.
Qed.

Lemma norm_scale (a : R * R) x : cnorm2 (cscale a x) = x * x * cnorm2 a.
Proof. destruct a. unfold cnorm2, cscale, cre, cim. cbn. ring. Qed.

Lemma cascade_tone g t k1 k2 k3 k4 r w p q : 0 < r < 1 -> g <> 0 ->
  g * g = cnorm2 (num_at t r k1 w) * cnorm2 (num_at t r k2 w) * cnorm2 (num_at t r k3 w) * cnorm2 (num_at t r k4 w) /
          (cnorm2 (den_at r w) * cnorm2 (den_at r w) * cnorm2 (den_at r w) * cnorm2 (den_at r w)) ->
  exists P Q, P * P + Q * Q = p * p + q * q /\
    vanishes (fun n => cascade g t k1 k2 k3 k4 r (cos w) (tone w p q) n - tone w P Q n).
Proof.
  intros Hr Hg GG. pose proof (den_nonzero r w ltac:(lra)) as HD.
  assert (V0 : vanishes (fun n => tone w p q n - tone w p q n)).
  { intros eps He. exists 0%nat. intros k _. rewrite Rminus_diag_eq by reflexivity. rewrite Rabs_R0. exact He. }
  pose proof (section_tone t r k1 g w _ p q Hr Hg V0) as V1. cbv zeta in V1.
  set (G1 := cdiv (cmul (p, q) (cscale (num_at t r k1 w) (/ g))) (den_at r w)) in *.
  assert (U : forall k, t / 1 = t /\ - (t * r * k) / 1 = - (t * r * k)) by (intros k; split; field).
  pose proof (section_tone t r k2 1 w _ _ _ Hr R1_neq_R0 V1) as V2. cbv zeta in V2. rewrite (proj1 (U k2)), (proj2 (U k2)) in V2.
  set (G2 := cdiv (cmul (cre G1, cim G1) (cscale (num_at t r k2 w) (/ 1))) (den_at r w)) in *.
  pose proof (section_tone t r k3 1 w _ _ _ Hr R1_neq_R0 V2) as V3. cbv zeta in V3. rewrite (proj1 (U k3)), (proj2 (U k3)) in V3.
  set (G3 := cdiv (cmul (cre G2, cim G2) (cscale (num_at t r k3 w) (/ 1))) (den_at r w)) in *.
  pose proof (section_tone t r k4 1 w _ _ _ Hr R1_neq_R0 V3) as V4. cbv zeta in V4. rewrite (proj1 (U k4)), (proj2 (U k4)) in V4.
  set (G4 := cdiv (cmul (cre G3, cim G3) (cscale (num_at t r k4 w) (/ 1))) (den_at r w)) in *.
  exists (cre G4), (cim G4). split; [|exact V4].
  assert (SP : forall z : R * R, (cre z, cim z) = z) by (intros [? ?]; reflexivity).
  change (cre G4 * cre G4 + cim G4 * cim G4) with (cnorm2 (T := R) G4).
  unfold G4. rewrite SP, norm_div, norm_mul, norm_scale by lra. unfold G3. rewrite SP, norm_div, norm_mul, norm_scale by lra.
  unfold G2. rewrite SP, norm_div, norm_mul, norm_scale by lra. unfold G1. rewrite norm_div, norm_mul, norm_scale by lra.
  change (cnorm2 (T := R) (p, q)) with (p * p + q * q).
  set (n1 := cnorm2 (num_at t r k1 w)) in *. set (n2 := cnorm2 (num_at t r k2 w)) in *. set (n3 := cnorm2 (num_at t r k3 w)) in *. set (n4 := cnorm2 (num_at t r k4 w)) in *.
  set (dd := cnorm2 (den_at r w)) in *.
  transitivity ((p * p + q * q) * (n1 * n2 * n3 * n4 / (dd * dd * dd * dd)) / (g * g)); [field; split; lra|].
  rewrite <- GG. field. exact Hg.
Qed.
