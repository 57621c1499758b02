(** Absolute errors in units of 2^-40 of a scale, and moduli of complex numbers in binary64. *)
From Coq Require Import ZArith List Bool Reals Lra Lia Floats Psatz.
From Flocq Require Import Core.Core IEEE754.BinarySingleNaN IEEE754.PrimFloat.
From Verif Require Import Base.Num Base.NumF Base.Cplx Spec.LibmSpec Proofs.B64P Proofs.RoundP Proofs.StableP Proofs.RelP.
Open Scope R_scope.

(** [x] is within [d] units of [r], everything measured in the scale [g] *)
Definition nr (g : R) (x : PrimFloat.float) (r d : R) : Prop := fin x /\ Rabs (FR x - g * r) <= d * dl * g.
Definition scale (g : R) : Prop := 1 / 1000000000000 <= g <= 1.
Lemma scale_1 : scale 1. Proof. unfold scale. lra. Qed.
Lemma nr_weaken g x r d d' : nr g x r d -> d <= d' -> scale g -> nr g x r d'.
Proof. intros [F H] L [G1 G2]. split; [exact F|]. pose proof dl_pos. apply Rle_trans with (1 := H). apply Rmult_le_compat_r; [lra|]. apply Rmult_le_compat_r; lra. Qed.
Lemma nr_exact x : fin x -> nr 1 x (FR x) 0.
Proof. intros F. split; [exact F|]. replace (FR x - 1 * FR x) with 0 by ring. rewrite Rabs_R0. lra. Qed.
Lemma nr_rel k x r M : rel k x r -> 0 <= r <= M -> 0 <= k -> nr 1 x r (k * M).
Proof. intros [F H] HM Hk. split; [exact F|]. rewrite Rmult_1_l, Rmult_1_r. apply Rle_trans with (1 := H). pose proof dl_pos. replace (k * dl * r) with (k * r * dl) by ring. apply Rmult_le_compat_r; [lra|]. apply Rmult_le_compat_l; lra. Qed.
Lemma nr_near x r d : fin x -> Rabs (FR x - r) <= d * dl -> nr 1 x r d.
Proof. intros F H. split; [exact F|]. rewrite Rmult_1_l, Rmult_1_r. exact H. Qed.
Lemma nr_op (x : PrimFloat.float) z g r e M : (Rabs (rnd z) < fmax -> FR x = rnd z /\ fin x) -> scale g -> 0 <= e <= 1000000 -> 1 / 1000 <= M <= 100 -> Rabs r <= M ->
  Rabs (z - g * r) <= (e + 1 / 2) * dl * g -> nr g x r (e + 1).
Proof.
  intros HX [G1 G2] He HM Hr Hz. pose proof dl_pos as D. pose proof u_dl as U.
  assert (K : 0 <= (e + 1 / 2) * dl <= 1 / 10000). { split; [apply Rmult_le_pos; lra|]. apply Rle_trans with (2000000 * (1 / 1000000000000)); [apply Rmult_le_compat; lra|lra]. }
  assert (Kg : 0 <= (e + 1 / 2) * dl * g <= 1 / 10000 * g) by nra.
  assert (GR : Rabs (g * r) <= g * M) by (rewrite Rabs_mult, (Rabs_pos_eq g) by lra; apply Rmult_le_compat_l; lra).
  assert (GM : 1 / 1000000000000000 <= g * M <= 100) by nra.
  assert (GM' : g * (1 / 1000) <= g * M) by (apply Rmult_le_compat_l; lra).
  assert (ZB : Rabs z <= 2 * (g * M)) by (apply Rabs_le; abs_all; lra).
  destruct (op_err x z (2 * (g * M)) HX ZB) as [F E]; [pose proof tiny_small; lra|pose proof big_large; lra|].
  split; [exact F|]. apply Rabs_le. abs_all. assert (u * (2 * (g * M)) <= 1 / 2 * dl * g).
  { replace (u * (2 * (g * M))) with (g * (u * (2 * M))) by ring. replace (1 / 2 * dl * g) with (g * (1 / 2 * dl)) by ring. apply Rmult_le_compat_l; [lra|]. nra. }
  replace ((e + 1) * dl * g) with ((e + 1 / 2) * dl * g + 1 / 2 * dl * g) by field. lra.
Qed.
Lemma nr_add g x r d y s e M N l : nr g x r d -> nr g y s e -> scale g -> Rabs r <= M -> Rabs s <= N -> 0 <= d -> 0 <= e -> d + e <= 100000 -> 1 / 1000 <= M + N <= 100 -> d + e + 1 <= l ->
  nr g (PrimFloat.add x y) (r + s) l.
Proof.
  intros [Fx X] [Fy Y] SG HM HN Hd He HL HMN Hl. apply (nr_weaken _ _ _ (d + e + 1)); [|exact Hl|exact SG].
  apply (nr_op _ (FR x + FR y) g _ _ (M + N)); [apply FR_add; assumption|exact SG|lra|lra|apply Rle_trans with (1 := Rabs_triang _ _); lra|].
  replace (FR x + FR y - g * (r + s)) with ((FR x - g * r) + (FR y - g * s)) by ring. apply Rle_trans with (1 := Rabs_triang _ _).
  destruct SG. pose proof dl_pos. assert (0 <= dl * g) by nra. nra.
Qed.
Lemma nr_sub g x r d y s e M N l : nr g x r d -> nr g y s e -> scale g -> Rabs r <= M -> Rabs s <= N -> 0 <= d -> 0 <= e -> d + e <= 100000 -> 1 / 1000 <= M + N <= 100 -> d + e + 1 <= l ->
  nr g (PrimFloat.sub x y) (r - s) l.
Proof.
  intros [Fx X] [Fy Y] SG HM HN Hd He HL HMN Hl. apply (nr_weaken _ _ _ (d + e + 1)); [|exact Hl|exact SG].
  apply (nr_op _ (FR x - FR y) g _ _ (M + N)); [apply FR_sub; assumption|exact SG|lra|lra|apply Rabs_le; abs_all; lra|].
  replace (FR x - FR y - g * (r - s)) with ((FR x - g * r) + - (FR y - g * s)) by ring. apply Rle_trans with (1 := Rabs_triang _ _). rewrite Rabs_Ropp.
  destruct SG. pose proof dl_pos. assert (0 <= dl * g) by nra. nra.
Qed.
Lemma nr_mul2 g h x r d y s e M N l : nr g x r d -> nr h y s e -> scale g -> scale h -> scale (g * h) -> Rabs r <= M -> Rabs s <= N -> 0 <= d <= 1000 -> 0 <= e <= 1000 -> 0 <= M -> 0 <= N -> 1 / 1000 <= M * N <= 100 ->
  d * N + M * e + 1 <= l -> d * N + M * e <= 100000 -> nr (g * h) (PrimFloat.mul x y) (r * s) l.
Proof.
  intros [Fx X] [Fy Y] SG SH SGH HM HN Hd He M0 N0 HMN Hl HL. apply (nr_weaken _ _ _ (d * N + M * e + 1)); [|exact Hl|exact SGH].
  assert (0 <= d * N) by nra. assert (0 <= M * e) by nra.
  apply (nr_op _ (FR x * FR y) (g * h) _ _ (M * N)); [apply FR_mul; assumption|exact SGH|lra|lra|rewrite Rabs_mult; apply Rmult_le_compat; (apply Rabs_pos || assumption)|].
  destruct SG as [G1 G2]. destruct SH as [H1 H2]. pose proof dl_pos as D.
  replace (FR x * FR y - g * h * (r * s)) with ((FR x - g * r) * (h * s) + g * r * (FR y - h * s) + (FR x - g * r) * (FR y - h * s)) by ring.
  apply Rle_trans with (1 := Rabs_triang _ _). apply Rle_trans with ((d * N + M * e) * dl * (g * h) + 1 / 2 * dl * (g * h)); [|right; field].
  assert (DG : 0 <= d * dl * g) by (apply Rmult_le_pos; [apply Rmult_le_pos; lra|lra]). assert (ED : 0 <= e * dl * h) by (apply Rmult_le_pos; [apply Rmult_le_pos; lra|lra]).
  apply Rplus_le_compat.
  - apply Rle_trans with (1 := Rabs_triang _ _). rewrite !Rabs_mult, (Rabs_pos_eq g), (Rabs_pos_eq h) by lra. replace ((d * N + M * e) * dl * (g * h)) with (d * dl * g * (h * N) + g * M * (e * dl * h)) by ring.
    apply Rplus_le_compat; apply Rmult_le_compat; try apply Rabs_pos; try exact X; try exact Y; try (apply Rmult_le_compat_l; lra); apply Rmult_le_pos; try apply Rabs_pos; lra.
  - rewrite Rabs_mult. apply Rle_trans with ((d * dl * g) * (e * dl * h)); [apply Rmult_le_compat; (apply Rabs_pos || assumption)|].
    replace (d * dl * g * (e * dl * h)) with ((d * e * dl) * (dl * (g * h))) by ring. replace (1 / 2 * dl * (g * h)) with (1 / 2 * (dl * (g * h))) by ring. apply Rmult_le_compat_r; [apply Rmult_le_pos; [lra|nra]|]. assert (0 <= d * e <= 1000000) by nra. nra.
Qed.
Lemma nr_mul g x r d y s e M N l : nr g x r d -> nr 1 y s e -> scale g -> Rabs r <= M -> Rabs s <= N -> 0 <= d <= 1000 -> 0 <= e <= 1000 -> 0 <= M -> 0 <= N -> 1 / 1000 <= M * N <= 100 ->
  d * N + M * e + 1 <= l -> d * N + M * e <= 100000 -> nr g (PrimFloat.mul x y) (r * s) l.
Proof. intros. rewrite <- (Rmult_1_r g). apply (nr_mul2 _ _ _ _ d _ _ e M N); try assumption; [exact scale_1|rewrite Rmult_1_r; assumption]. Qed.
Lemma nr_mulr g x r d y s e M N l : nr 1 x r d -> nr g y s e -> scale g -> Rabs r <= M -> Rabs s <= N -> 0 <= d <= 1000 -> 0 <= e <= 1000 -> 0 <= M -> 0 <= N -> 1 / 1000 <= M * N <= 100 ->
  d * N + M * e + 1 <= l -> d * N + M * e <= 100000 -> nr g (PrimFloat.mul x y) (r * s) l.
Proof. intros. rewrite <- (Rmult_1_l g). apply (nr_mul2 _ _ _ _ d _ _ e M N); try assumption; [exact scale_1|rewrite Rmult_1_l; assumption]. Qed.
(** division by something that is at least 1 *)
Lemma nr_div g x p d y s k M l : nr g x p d -> rel k y s -> scale g -> Rabs p <= M -> 1 <= s -> 0 <= d <= 1000 -> 0 <= k <= 1000 -> 1 / 1000 <= M <= 10 -> 2 * (d + k * M) + 1 <= l -> nr g (PrimFloat.div x y) (p / s) l.
Proof.
  intros [Fx X] [Fy Y] SG HM Hs Hd Hk M0 Hl. pose proof dl_pos as D. destruct SG as [G1 G2].
  assert (KD : 0 <= k * dl <= 1 / 100000000) by nra. assert (Y0 : 99 / 100 * s <= FR y) by (abs_all; nra). assert (Y1 : 0 < FR y) by lra.
  assert (0 <= k * M) by nra.
  apply (nr_weaken _ _ _ (2 * (d + k * M) + 1)); [|exact Hl|split; assumption].
  apply (nr_op _ (FR x / FR y) g _ _ M); [apply FR_div; [assumption|lra]|split; assumption|nra|lra| |].
  - unfold Rdiv. rewrite Rabs_mult, (Rabs_pos_eq (/ s)) by (left; apply Rinv_0_lt_compat; lra). apply Rle_trans with (Rabs p * 1); [apply Rmult_le_compat_l; [apply Rabs_pos|]|lra]. rewrite <- Rinv_1. apply Rinv_le_contravar; lra.
  - replace (FR x / FR y - g * (p / s)) with (((FR x - g * p) * s + - (g * p * (FR y - s))) / (FR y * s)) by (field; lra).
    assert (P : 0 < FR y * s) by nra. unfold Rdiv at 1. rewrite Rabs_mult, (Rabs_pos_eq (/ _)) by (left; apply Rinv_0_lt_compat, P).
    apply Rmult_le_reg_r with (FR y * s); [exact P|]. rewrite Rmult_assoc, Rinv_l, Rmult_1_r by lra.
    apply Rle_trans with (1 := Rabs_triang _ _). rewrite Rabs_Ropp, !Rabs_mult, (Rabs_pos_eq s), (Rabs_pos_eq g) by lra.
    apply Rle_trans with (d * dl * g * s + g * M * (k * dl * s)).
    { apply Rplus_le_compat; [apply Rmult_le_compat_r; lra|]. apply Rmult_le_compat; [apply Rmult_le_pos; [lra|apply Rabs_pos]|apply Rabs_pos|apply Rmult_le_compat_l; lra|exact Y]. }
    replace (d * dl * g * s + g * M * (k * dl * s)) with ((d + k * M) * dl * g * s) by ring.
    apply Rle_trans with (2 * (d + k * M) * dl * g * (FR y * s)); [|apply Rmult_le_compat_r; [lra|]; apply Rmult_le_compat_r; [lra|]; apply Rmult_le_compat_r; lra].
    replace (2 * (d + k * M) * dl * g * (FR y * s)) with ((d + k * M) * dl * g * s * (2 * FR y)) by ring. rewrite <- (Rmult_1_r ((d + k * M) * dl * g * s)) at 1. apply Rmult_le_compat_l; [|lra].
    apply Rmult_le_pos; [apply Rmult_le_pos; [apply Rmult_le_pos; lra|lra]|lra].
Qed.
Lemma FR_opp x : FR (PrimFloat.opp x) = - FR x.
Proof. unfold FR. rewrite opp_equiv, B2R_Bopp. reflexivity. Qed.
Lemma fin_opp x : fin x -> fin (PrimFloat.opp x).
Proof. unfold fin. rewrite opp_equiv, is_finite_Bopp. auto. Qed.
Lemma nr_opp g x r d : nr g x r d -> nr g (PrimFloat.opp x) (- r) d.
Proof. intros [F H]. split; [apply fin_opp, F|]. rewrite FR_opp. replace (- FR x - g * - r) with (- (FR x - g * r)) by ring. rewrite Rabs_Ropp. exact H. Qed.
Lemma nr_ofZ z : (Z.abs z < 2 ^ 53)%Z -> nr 1 (F_ofZ z) (IZR z) 0.
Proof. intros H. destruct (FR_ofZ z H) as [E F]. rewrite <- E. apply nr_exact, F. Qed.
(** a bound on the number itself *)
Lemma nr_bound g x r d M : nr g x r d -> scale g -> Rabs r <= M -> 0 <= d <= 100000 -> Rabs (FR x) <= (M + 1 / 100) * g.
Proof.
  intros [_ H] [G1 G2] HM Hd. pose proof dl_pos. replace (FR x) with ((FR x - g * r) + g * r) by ring. apply Rle_trans with (1 := Rabs_triang _ _). rewrite (Rabs_mult g), (Rabs_pos_eq g) by lra.
  assert (d * dl <= 1 / 100) by nra. assert (d * dl * g <= 1 / 100 * g) by (apply Rmult_le_compat_r; lra). assert (g * Rabs r <= g * M) by (apply Rmult_le_compat_l; lra). lra.
Qed.

(** *** moduli *)
Definition cfin (x : cplx PrimFloat.float) : Prop := fin (fst x) /\ fin (snd x).
Definition nn (x : cplx PrimFloat.float) : R := FR (fst x) * FR (fst x) + FR (snd x) * FR (snd x).
Lemma nn_pos x : 0 <= nn x. Proof. unfold nn. nra. Qed.
(** a disturbed vector *)
Lemma norm_pert p q P Q M eps : p * p + q * q = M * M -> 2 * eps <= M -> 0 <= eps -> Rabs (P - p) <= eps -> Rabs (Q - q) <= eps ->
  M * M - 4 * M * eps <= P * P + Q * Q <= M * M + 4 * M * eps + 2 * eps * eps.
Proof.
  intros E HM He HP HQ. abs_all. set (a := P - p) in *. set (b := Q - q) in *. replace P with (p + a) by (unfold a; ring). replace Q with (q + b) by (unfold b; ring).
  assert (PM : Rabs p <= M) by (apply Rsqr_le_abs_0_alt || (rewrite <- (Rabs_pos_eq M) by lra; apply Rsqr_le_abs_0; unfold Rsqr; nra)).
  assert (QM : Rabs q <= M) by (apply Rsqr_le_abs_0_alt || (rewrite <- (Rabs_pos_eq M) by lra; apply Rsqr_le_abs_0; unfold Rsqr; nra)).
  assert (PA : Rabs (p * a) <= M * eps) by (rewrite Rabs_mult; apply Rmult_le_compat; try apply Rabs_pos; [exact PM|apply Rabs_le; lra]).
  assert (QB : Rabs (q * b) <= M * eps) by (rewrite Rabs_mult; apply Rmult_le_compat; try apply Rabs_pos; [exact QM|apply Rabs_le; lra]).
  assert (a * a <= eps * eps) by nra. assert (b * b <= eps * eps) by nra. apply Rabs_le_inv in PA, QB. replace ((p + a) * (p + a) + (q + b) * (q + b)) with (M * M + 2 * (p * a) + 2 * (q * b) + a * a + b * b) by (rewrite <- E; ring).
  assert (0 <= a * a) by nra. assert (0 <= b * b) by nra. split; lra.
Qed.
Definition lowc : R := 1 / 1000000000000000000000000000000000000000000000000000000000000000000000000000000000000000000000000.
Lemma lowc_tiny : tiny <= lowc.
Proof. unfold tiny, lowc. apply Rle_trans with (bpow radix2 (-400)); [apply bpow_le; lia|]. cbn -[Rdiv]. lra. Qed.
Definition highc : R := 10000000000000000000000000000000000000000.
Lemma highc_big : 1000 * highc <= big.
Proof. unfold big, highc. apply Rle_trans with (bpow radix2 200); [cbn; lra|apply bpow_le; lia]. Qed.
(** sums and differences of two products, as they occur in complex multiplication and division *)
Lemma two_products (a b c d : PrimFloat.float) G : fin a -> fin b -> fin c -> fin d -> Rabs (FR a * FR b) <= G -> Rabs (FR c * FR d) <= G -> lowc <= G <= highc ->
  (fin (a * b + c * d)%float /\ Rabs (FR (a * b + c * d)%float - (FR a * FR b + FR c * FR d)) <= 1 / 10000 * G) /\
  (fin (a * b - c * d)%float /\ Rabs (FR (a * b - c * d)%float - (FR a * FR b - FR c * FR d)) <= 1 / 10000 * G).
Proof.
  intros Fa Fb Fc Fd H1 H2 [G1 G2]. pose proof u_pos as U0. pose proof u_small as U1. pose proof lowc_tiny as LT. pose proof highc_big as BL. assert (0 < G) by (unfold lowc in G1; lra).
  assert (UG : 0 <= u * G <= 1 / 1000000 * G) by nra.
  destruct (op_err (a * b)%float (FR a * FR b) G (FR_mul _ _ Fa Fb) H1) as [F1 E1]; [lra|lra|].
  destruct (op_err (c * d)%float (FR c * FR d) G (FR_mul _ _ Fc Fd) H2) as [F2 E2]; [lra|lra|].
  destruct (op_err (a * b + c * d)%float (FR (a * b)%float + FR (c * d)%float) (3 * G) (FR_add _ _ F1 F2)) as [F3 E3]; [tri|lra|lra|].
  destruct (op_err (a * b - c * d)%float (FR (a * b)%float - FR (c * d)%float) (3 * G) (FR_sub _ _ F1 F2)) as [F4 E4]; [tri|lra|lra|].
  split; (split; [assumption|tri]).
Qed.
Lemma sq_le a b : 0 <= b -> a * a <= b * b -> Rabs a <= b.
Proof. intros Hb H. rewrite <- (Rabs_pos_eq b Hb). apply Rsqr_le_abs_0. unfold Rsqr. exact H. Qed.
Lemma comps x y G : 0 <= G -> nn x * nn y = G * G -> Rabs (FR (fst x) * FR (fst y)) <= G /\ Rabs (FR (snd x) * FR (snd y)) <= G /\ Rabs (FR (fst x) * FR (snd y)) <= G /\ Rabs (FR (snd x) * FR (fst y)) <= G.
Proof.
  unfold nn. intros HG E. repeat split; apply sq_le; try exact HG; rewrite <- E; set (a := FR (fst x)); set (b := FR (snd x)); set (c := FR (fst y)); set (d := FR (snd y));
  assert (0 <= a * a) by nra; assert (0 <= b * b) by nra; assert (0 <= c * c) by nra; assert (0 <= d * d) by nra; nra.
Qed.
Lemma sqrt_prod v : 0 <= v -> exists G, 0 <= G /\ v = G * G.
Proof. intros H. exists (R_sqrt.sqrt v). split; [apply R_sqrt.sqrt_pos|]. rewrite R_sqrt.sqrt_sqrt by exact H. reflexivity. Qed.
Lemma from_sq v G l h : v = G * G -> 0 <= G -> 0 <= l -> 0 <= h -> l * l <= v <= h * h -> l <= G <= h.
Proof. intros E HG Hl Hh [H1 H2]. split; apply Rsqr_incr_0; unfold Rsqr; lra. Qed.
Lemma cmul_norm x y : cfin x -> cfin y -> lowc * lowc <= nn x * nn y <= highc * highc -> cfin (cmul x y) /\ 99 / 100 * (nn x * nn y) <= nn (cmul x y) <= 101 / 100 * (nn x * nn y).
Proof.
  intros [X1 X2] [Y1 Y2] R. destruct (sqrt_prod (nn x * nn y)) as (G & HG & EG); [pose proof (nn_pos x); pose proof (nn_pos y); nra|].
  assert (GB : lowc <= G <= highc) by (apply (from_sq _ _ _ _ EG HG); [unfold lowc; lra|unfold highc; lra|exact R]).
  destruct (comps x y G HG EG) as (C1 & C2 & C3 & C4).
  destruct (two_products (fst x) (fst y) (snd x) (snd y) G X1 Y1 X2 Y2 C1 C2 GB) as [_ [F1 E1]].
  destruct (two_products (fst x) (snd y) (snd x) (fst y) G X1 Y2 X2 Y1 C3 C4 GB) as [[F2 E2] _].
  split; [split; assumption|]. rewrite EG. assert (G0 : 0 < G) by (unfold lowc in GB; lra).
  assert (N : (FR (fst x) * FR (fst y) - FR (snd x) * FR (snd y)) * (FR (fst x) * FR (fst y) - FR (snd x) * FR (snd y)) + (FR (fst x) * FR (snd y) + FR (snd x) * FR (fst y)) * (FR (fst x) * FR (snd y) + FR (snd x) * FR (fst y)) = G * G) by (rewrite <- EG; unfold nn; ring).
  pose proof (norm_pert _ _ _ _ G (1 / 10000 * G) N ltac:(lra) ltac:(lra) E1 E2) as X. unfold nn. unfold cmul, cre, cim. cbn [fst snd nadd nmul nsub NumF]. nra.
Qed.
Lemma cnorm2_norm x : cfin x -> lowc <= nn x <= highc -> fin (cnorm2 x) /\ 99 / 100 * nn x <= FR (cnorm2 x) <= 101 / 100 * nn x.
Proof.
  intros [X1 X2] R. assert (A1 : Rabs (FR (fst x) * FR (fst x)) <= nn x) by (rewrite Rabs_pos_eq; unfold nn; nra). assert (A2 : Rabs (FR (snd x) * FR (snd x)) <= nn x) by (rewrite Rabs_pos_eq; unfold nn; nra).
  destruct (two_products (fst x) (fst x) (snd x) (snd x) (nn x) X1 X1 X2 X2 A1 A2 R) as [[F1 E1] _]. split; [exact F1|].
  unfold cnorm2, cre, cim. cbn [nadd nmul NumF]. fold (nn x) in E1. abs_all. assert (0 < nn x) by (unfold lowc in R; lra). lra.
Qed.
Lemma cdiv_norm x y : cfin x -> cfin y -> lowc * lowc <= nn x * nn y <= highc * highc -> lowc <= nn y <= highc -> lowc * lowc <= nn x / nn y <= highc * highc ->
  cfin (cdiv x y) /\ 9 / 10 * (nn x / nn y) <= nn (cdiv x y) <= 11 / 10 * (nn x / nn y).
Proof.
  intros [X1 X2] [Y1 Y2] R RY RQ. destruct (sqrt_prod (nn x * nn y)) as (G & HG & EG); [pose proof (nn_pos x); pose proof (nn_pos y); nra|].
  assert (GB : lowc <= G <= highc) by (apply (from_sq _ _ _ _ EG HG); [unfold lowc; lra|unfold highc; lra|exact R]).
  destruct (comps x y G HG EG) as (C1 & C2 & C3 & C4).
  destruct (two_products (fst x) (fst y) (snd x) (snd y) G X1 Y1 X2 Y2 C1 C2 GB) as [[F1 E1] _].
  destruct (two_products (snd x) (fst y) (fst x) (snd y) G X2 Y1 X1 Y2 C4 C3 GB) as [_ [F2 E2]].
  destruct (cnorm2_norm y (conj Y1 Y2) RY) as [Fn En]. assert (Y0 : 0 < nn y) by (unfold lowc in RY; lra). assert (G0 : 0 < G) by (unfold lowc in GB; lra).
  set (n := cnorm2 y) in *. assert (N0 : 0 < FR n) by lra.
  set (H := G / nn y). assert (H0 : 0 < H) by (unfold H; apply Rdiv_lt_0_compat; lra).
  assert (EH : nn x / nn y = H * H). { unfold H. replace (G / nn y * (G / nn y)) with (G * G / (nn y * nn y)) by (field; lra). rewrite <- EG. field. lra. }
  assert (HB : lowc <= H <= highc) by (apply (from_sq _ _ _ _ EH); [lra|unfold lowc; lra|unfold highc; lra|exact RQ]).
  set (p := FR (fst x) * FR (fst y) + FR (snd x) * FR (snd y)) in *. set (q := FR (snd x) * FR (fst y) - FR (fst x) * FR (snd y)) in *.
  assert (NP : p * p + q * q = G * G) by (rewrite <- EG; unfold nn, p, q; ring).
  assert (PB : Rabs p <= G) by (apply sq_le; nra). assert (QB : Rabs q <= G) by (apply sq_le; nra).
  assert (DIV : forall (z : PrimFloat.float) v, fin z -> Rabs (FR z - v) <= 1 / 10000 * G -> Rabs v <= G -> fin (z / n)%float /\ Rabs (FR (z / n)%float - v / nn y) <= 12 / 1000 * H).
  { intros z v Fz Ez Ev. pose proof u_pos as U0. pose proof u_small as U1. pose proof lowc_tiny as LT. pose proof highc_big as BL.
    assert (ZG : Rabs (FR z) <= 10001 / 10000 * G) by tri.
    assert (D1 : Rabs (FR z / FR n - v / nn y) <= 115 / 10000 * H).
    { replace (FR z / FR n - v / nn y) with (((FR z - v) * nn y + v * (nn y - FR n)) / (FR n * nn y)) by (field; lra). assert (P : 0 < FR n * nn y) by nra.
      unfold Rdiv at 1. rewrite Rabs_mult, (Rabs_pos_eq (/ _)) by (left; apply Rinv_0_lt_compat, P). apply Rmult_le_reg_r with (FR n * nn y); [exact P|]. rewrite Rmult_assoc, Rinv_l, Rmult_1_r by lra.
      replace (115 / 10000 * H * (FR n * nn y)) with (115 / 10000 * G * FR n) by (unfold H; field; lra).
      apply Rle_trans with (1 := Rabs_triang _ _). rewrite !Rabs_mult, (Rabs_pos_eq (nn y)) by lra. assert (W : Rabs (nn y - FR n) <= 1 / 100 * nn y) by (apply Rabs_le; lra).
      apply Rle_trans with (1 / 10000 * G * nn y + G * (1 / 100 * nn y)); [apply Rplus_le_compat; [apply Rmult_le_compat_r; lra|apply Rmult_le_compat; (apply Rabs_pos || assumption)]|]. nra. }
    assert (VB : Rabs (v / nn y) <= H) by (unfold H, Rdiv; rewrite Rabs_mult, (Rabs_pos_eq (/ nn y)) by (left; apply Rinv_0_lt_compat; lra); apply Rmult_le_compat_r; [left; apply Rinv_0_lt_compat; lra|exact Ev]).
    destruct (op_err (z / n)%float (FR z / FR n) (2 * H)) as [Fq Eq]; [apply FR_div; [exact Fz|lra]|tri|lra|lra|]. split; [exact Fq|]. assert (u * (2 * H) <= 1 / 10000 * H) by nra. tri. }
  destruct (DIV _ p F1 E1 PB) as [Q1 D1]. destruct (DIV _ q F2 E2 QB) as [Q2 D2].
  split; [split; assumption|]. rewrite EH.
  assert (NQ : p / nn y * (p / nn y) + q / nn y * (q / nn y) = H * H) by (unfold H; replace (p / nn y * (p / nn y) + q / nn y * (q / nn y)) with ((p * p + q * q) / (nn y * nn y)) by (field; lra); rewrite NP; field; lra).
  pose proof (norm_pert _ _ _ _ H (12 / 1000 * H) NQ ltac:(lra) ltac:(lra) D1 D2) as X. unfold nn at 1 2. unfold cdiv, cre, cim. cbn [fst snd nadd nmul nsub ndiv NumF]. fold n. nra.
Qed.
Lemma cabs_norm x l : cfin x -> lowc <= nn x <= highc -> 0 <= l <= highc -> lowc <= l -> l * l <= 9 / 10 * nn x -> fin (cabs x) /\ 9 / 10 * l <= FR (cabs x).
Proof.
  intros Cx R [Hl Hh] Hl2 HL. destruct (cnorm2_norm x Cx R) as [F E]. assert (0 < nn x) by (unfold lowc in R; lra). unfold cabs. cbn [nsqrt NumF].
  split; [apply fin_sqrt; [exact F|lra]|]. rewrite FR_sqrt.
  assert (SL : l <= R_sqrt.sqrt (FR (cnorm2 x))) by (rewrite <- (R_sqrt.sqrt_square l) by exact Hl; apply R_sqrt.sqrt_le_1_alt; lra).
  apply (@Generic_fmt.round_le radix2 (fexp prec emax) (fexp_correct prec emax Hprec64) ZnearestE _) in SL. fold (rnd l) in SL. fold (rnd (R_sqrt.sqrt (FR (cnorm2 x)))) in SL.
  assert (EL : Rabs (rnd l - l) <= u * l) by (apply rnd_err; [rewrite Rabs_pos_eq by lra; lra|pose proof lowc_tiny; lra]).
  apply Rle_trans with (2 := SL). pose proof u_small. pose proof u_pos. abs_all. nra.
Qed.
