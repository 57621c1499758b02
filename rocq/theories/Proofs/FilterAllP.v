(** Every filter made with accurate elementary functions is of moderate size (C115). *)
From Coq Require Import ZArith List Bool Reals Lra Lia Floats Psatz.
From Flocq Require Import Core.Core IEEE754.BinarySingleNaN IEEE754.PrimFloat.
From Interval Require Import Tactic.
From Verif Require Import Base.Res Base.Num Base.NumF Base.NumR Base.Cplx Model.Erb Spec.LibmSpec Spec.FilterAccSpec Proofs.B64P Proofs.RoundP Proofs.BoundP Proofs.StableP Proofs.RelP
  Spec.StableSpec Proofs.StableBankP Proofs.ErbNormP Proofs.ErbFloatP.
Import ListNotations.
Open Scope R_scope.

Lemma sq_le_sqrt a b : 0 <= a -> a * a <= b -> a <= R_sqrt.sqrt b.
Proof. intros H1 H2. rewrite <- (R_sqrt.sqrt_square a H1). apply R_sqrt.sqrt_le_1_alt, H2. Qed.
Lemma sqrt_le_sq a b : 0 <= b -> a <= b * b -> R_sqrt.sqrt a <= b.
Proof. intros H1 H2. rewrite <- (R_sqrt.sqrt_square b H1). apply R_sqrt.sqrt_le_1_alt, H2. Qed.

Ltac ab_ := try apply Rabs_le; abs_all; lra.

(** *** the poles *)
Section Poles.
  Variables r c s b1 b2 : R.
  Hypotheses (Hr : 6 / 10 <= r <= 1 - 69 / 100000) (CS : c * c + s * s = 1) (Hs : 116 / 100000 <= s) (H2 : Rabs (b2 - r * r) <= 2 / 100000000000) (H1 : Rabs (b1 + 2 * (r * c)) <= 2 / 10000000000).
  Lemma s1_le : s <= 1 /\ Rabs c <= 1.
  Proof. split; [nra|apply Rabs_le; nra]. Qed.
  Lemma height_sq : 998001 / 1000000 * (r * s * (r * s)) <= b2 - b1 * b1 / 4 /\ 48 / 100000000 <= r * s * (r * s).
  Proof.
    destruct s1_le as [S1 C1]. assert (RS : 69 / 100000 <= r * s) by (apply Rle_trans with (6 / 10 * (116 / 100000)); [lra|apply Rmult_le_compat; lra]).
    assert (Q : 48 / 100000000 <= r * s * (r * s)).
    { apply Rle_trans with (6 / 10 * (116 / 100000) * (6 / 10 * (116 / 100000))); [lra|]. assert (6 / 10 * (116 / 100000) <= r * s) by (apply Rmult_le_compat; lra). apply Rmult_le_compat; lra. }
    split; [|exact Q]. set (h := b1 + 2 * (r * c)) in *. set (e := b2 - r * r) in *.
    assert (E : b2 - b1 * b1 / 4 = r * s * (r * s) + (e + r * c * h - h * h / 4)).
    { unfold e, h. replace (r * s * (r * s)) with (r * r * (s * s)) by ring. replace (s * s) with (1 - c * c) by lra. field. }
    rewrite E. assert (RC : Rabs (r * c) <= 1) by (pose proof (abs_mul_le 1 1 r c ltac:(rewrite Rabs_pos_eq; lra) C1); lra).
    pose proof (abs_mul_le _ _ _ _ RC H1) as M1. pose proof (abs_mul_le _ _ _ _ H1 H1) as M2. clearbody h e. ab_.
  Qed.
  Lemma poles_damped : b1 * b1 < 4 * b2 /\ b2 < 1.
  Proof. destruct height_sq as [P Q]. split; [lra|]. assert (r * r <= (1 - 69 / 100000) * (1 - 69 / 100000)) by (apply Rmult_le_compat; lra). ab_. Qed.
  Lemma radius_near : 999999 / 1000000 * (1 - r) <= 1 - R_sqrt.sqrt b2.
  Proof.
    assert (R_sqrt.sqrt b2 <= r + 4 / 100000000000); [|lra]. apply sqrt_le_sq; [lra|]. abs_all. nra.
  Qed.
  Lemma height_near : 999 / 1000 * (r * s) <= R_sqrt.sqrt (b2 - b1 * b1 / 4).
  Proof. destruct height_sq as [P Q]. apply sq_le_sqrt; [apply Rmult_le_pos; [lra|apply Rmult_le_pos; lra]|]. lra. Qed.
  Lemma resonance_le (k : erb_coeffs R) : e_B1 k = b1 -> e_B2 k = b2 -> 0 < (1 - radius k) * height k /\ 998 / 1000 * ((1 - r) * (r * s)) <= (1 - radius k) * height k.
  Proof.
    intros K1 K2. unfold radius, height. rewrite K1, K2. pose proof radius_near as X. pose proof height_near as Y. assert (0 < (1 - r) * (r * s)) by (repeat apply Rmult_lt_0_compat; lra).
    assert (999999 / 1000000 * (1 - r) * (999 / 1000 * (r * s)) <= (1 - R_sqrt.sqrt b2) * R_sqrt.sqrt (b2 - b1 * b1 / 4)) by (apply Rmult_le_compat; try lra; repeat apply Rmult_le_pos; lra).
    split; lra.
  Qed.

  (** *** one stage with the numerator 1, -r(c + k s), 0 *)
  Variables k K b0 a1 : R.
  Hypotheses (HK : 1 <= K) (EK : K * K = 1 + k * k) (Hk : Rabs k <= 27 / 10) (H0 : Rabs (b0 - 1) <= 2 / 1000000000000) (HA : Rabs (a1 + r * (c + k * s)) <= 2 / 1000000000).
  Lemma residue_le : let A := a1 - b1 * b0 in let B := 0 - b2 * b0 in b2 * (A * A) - b1 * (A * B) + B * B <= 116 / 100 * (r * r * s * K * (r * r * s * K)).
  Proof.
    intros A B. destruct s1_le as [S1 C1]. set (a := r * (c - k * s)). set (b := - (r * r)).
    assert (RR : 36 / 100 <= r * r <= 1) by (split; [apply Rle_trans with (6 / 10 * (6 / 10)); [lra|apply Rmult_le_compat; lra]|nra]).
    assert (RC : Rabs (r * c) <= 1) by (pose proof (abs_mul_le 1 1 r c ltac:(rewrite Rabs_pos_eq; lra) C1); lra).
    assert (B1 : Rabs b1 <= 21 / 10) by ab_.
    assert (B0 : Rabs b0 <= 11 / 10) by ab_.
    assert (B2 : Rabs b2 <= 11 / 10) by ab_.
    assert (KS : Rabs (k * s) <= 27 / 10) by (pose proof (abs_mul_le _ 1 _ s Hk ltac:(rewrite Rabs_pos_eq; lra)); lra).
    assert (Ba : Rabs a <= 37 / 10) by (unfold a; pose proof (abs_mul_le 1 (37 / 10) r (c - k * s) ltac:(rewrite Rabs_pos_eq; lra) ltac:(ab_)); lra).
    assert (DA : Rabs (A - a) <= 25 / 10000000000).
    { replace (A - a) with (a1 + r * (c + k * s) - (b1 + 2 * (r * c)) * b0 + 2 * (r * c) * (b0 - 1)) by (unfold A, a; ring).
      pose proof (abs_mul_le _ _ _ _ H1 B0) as M1. pose proof (abs_mul_le _ _ _ _ RC H0) as M2. ab_. }
    assert (DB : Rabs (B - b) <= 3 / 100000000000).
    { replace (B - b) with (- ((b2 - r * r) * b0) - r * r * (b0 - 1)) by (unfold B, b; ring).
      pose proof (abs_mul_le _ _ _ _ H2 B0) as M1. pose proof (abs_mul_le 1 _ (r * r) _ ltac:(rewrite Rabs_pos_eq; lra) H0) as M2. ab_. }
    assert (BA : Rabs A <= 38 / 10) by ab_. assert (Bb : Rabs b <= 1) by (unfold b; rewrite Rabs_Ropp, Rabs_pos_eq; lra). assert (BB : Rabs B <= 11 / 10) by ab_.
    assert (V0 : r * r * (a * a) + 2 * (r * c) * (a * b) + b * b = r * r * s * K * (r * r * s * K)).
    { replace (r * r * s * K * (r * r * s * K)) with (r * r * (r * r) * (s * s) * (K * K)) by ring. rewrite EK. unfold a, b.
      transitivity (r * r * (r * r) * (k * k * (s * s) - c * c + 1)); [ring|]. replace (c * c) with (1 - s * s) by lra. ring. }
    assert (D : Rabs (b2 * (A * A) - b1 * (A * B) + B * B - (r * r * (a * a) + 2 * (r * c) * (a * b) + b * b)) <= 27 / 1000000000).
    { replace (b2 * (A * A) - b1 * (A * B) + B * B - (r * r * (a * a) + 2 * (r * c) * (a * b) + b * b))
        with ((b2 - r * r) * (A * A) + r * r * ((A - a) * (A + a)) - (b1 + 2 * (r * c)) * (A * B) + 2 * (r * c) * ((A - a) * B + a * (B - b)) + (B - b) * (B + b)) by ring.
      pose proof (abs_mul_le _ _ _ _ H2 (abs_mul_le _ _ _ _ BA BA)) as M1.
      pose proof (abs_mul_le 1 _ (r * r) _ ltac:(rewrite Rabs_pos_eq; lra) (abs_mul_le _ (75 / 10) _ (A + a) DA ltac:(ab_))) as M2.
      pose proof (abs_mul_le _ _ _ _ H1 (abs_mul_le _ _ _ _ BA BB)) as M3.
      pose proof (abs_mul_le _ _ _ _ DA BB) as M4'. pose proof (abs_mul_le _ _ _ _ Ba DB) as M4''.
      pose proof (abs_mul_le _ (29 / 10000000000) (r * c) ((A - a) * B + a * (B - b)) RC ltac:(clear - M4' M4''; ab_)) as M4.
      pose proof (abs_mul_le _ (21 / 10) _ (B + b) DB ltac:(ab_)) as M5.
      clear - M1 M2 M3 M4 M5.
      revert M1 M2 M3 M4 M5. generalize ((b2 - r * r) * (A * A)) (r * r * ((A - a) * (A + a))) ((b1 + 2 * (r * c)) * (A * B)) ((B - b) * (B + b)). intros x1 x2 x3 x5. replace (2 * (r * c) * ((A - a) * B + a * (B - b))) with (2 * (r * c * ((A - a) * B + a * (B - b)))) by ring.
      generalize (r * c * ((A - a) * B + a * (B - b))). intros x4. intros. ab_. }
    rewrite V0 in D. assert (P : 17 / 100000000 <= r * r * s * K * (r * r * s * K)).
    { assert (4176 / 10000000 <= r * r * s * K). { apply Rle_trans with (36 / 100 * (116 / 100000) * 1); [lra|]. apply Rmult_le_compat; try lra. apply Rmult_le_compat; lra. }
      apply Rle_trans with (4176 / 10000000 * (4176 / 10000000)); [lra|apply Rmult_le_compat; lra]. }
    clearbody A B a b. abs_all. lra.
  Qed.
  Lemma stage_le (q : erb_coeffs R) : e_B1 q = b1 -> e_B2 q = b2 -> 1 - 2 / 1000000000000 <= stage_gain q b0 a1 0 <= 109 / 100 * (K / (1 - r)).
  Proof.
    intros Q1 Q2. destruct (resonance_le q Q1 Q2) as [P0 P]. unfold stage_gain. rewrite Q1, Q2. pose proof residue_le as V. cbn zeta in V.
    set (v := b2 * ((a1 - b1 * b0) * (a1 - b1 * b0)) - b1 * ((a1 - b1 * b0) * (0 - b2 * b0)) + (0 - b2 * b0) * (0 - b2 * b0)) in *. set (den := (1 - radius q) * height q) in *.
    assert (G : 0 <= r * r * s * K) by (repeat apply Rmult_le_pos; lra).
    assert (GG : 0 <= r * r * s * K * (r * r * s * K)) by (apply Rmult_le_pos; exact G). assert (SV : R_sqrt.sqrt v <= 1078 / 1000 * (r * r * s * K)) by (apply sqrt_le_sq; lra).
    assert (N : 0 <= R_sqrt.sqrt v / den) by (apply Rmult_le_pos; [apply R_sqrt.sqrt_pos|left; apply Rinv_0_lt_compat, P0]).
    assert (B0 : 1 - 2 / 1000000000000 <= Rabs b0 <= 1001 / 1000) by (clear - H0; abs_all; rewrite Rabs_pos_eq; lra). split; [lra|].
    assert (W : 0 < (1 - r) * (r * s)) by (repeat apply Rmult_lt_0_compat; lra).
    assert (U : R_sqrt.sqrt v / den <= 1081 / 1000 * (r * K / (1 - r))).
    { apply Rmult_le_reg_r with den; [exact P0|]. unfold Rdiv at 1. rewrite Rmult_assoc, Rinv_l, Rmult_1_r by lra. apply Rle_trans with (1 := SV).
      apply Rle_trans with (1081 / 1000 * (r * K / (1 - r)) * (998 / 1000 * ((1 - r) * (r * s)))).
      - replace (1081 / 1000 * (r * K / (1 - r)) * (998 / 1000 * ((1 - r) * (r * s)))) with (1081 / 1000 * (998 / 1000) * (r * r * s * K)) by (field; lra). apply Rmult_le_compat_r; lra.
      - apply Rmult_le_compat_l; [|exact P]. apply Rmult_le_pos; [lra|]. apply Rmult_le_pos; [apply Rmult_le_pos; lra|left; apply Rinv_0_lt_compat; lra]. }
    assert (E : 1001 / 1000 + 1081 / 1000 * (r * K / (1 - r)) <= 109 / 100 * (K / (1 - r))); [|lra].
    replace (109 / 100 * (K / (1 - r))) with (109 / 100 * (K / (1 - r) - r * K / (1 - r)) + 109 / 100 * (r * K / (1 - r))) by ring.
    replace (K / (1 - r) - r * K / (1 - r)) with K by (field; lra).
    assert (0 <= r * K / (1 - r)) by (apply Rmult_le_pos; [apply Rmult_le_pos; lra|left; apply Rinv_0_lt_compat; lra]). lra.
  Qed.
End Poles.

Lemma stage_scale (c : erb_coeffs R) b0 b1 b2 m : 0 <= m -> stage_gain c (m * b0) (m * b1) (m * b2) = m * stage_gain c b0 b1 b2.
Proof.
  intros Hm. unfold stage_gain. rewrite Rabs_mult, (Rabs_pos_eq m Hm).
  replace (e_B2 c * ((m * b1 - e_B1 c * (m * b0)) * (m * b1 - e_B1 c * (m * b0))) - e_B1 c * ((m * b1 - e_B1 c * (m * b0)) * (m * b2 - e_B2 c * (m * b0))) + (m * b2 - e_B2 c * (m * b0)) * (m * b2 - e_B2 c * (m * b0)))
    with (m * m * (e_B2 c * ((b1 - e_B1 c * b0) * (b1 - e_B1 c * b0)) - e_B1 c * ((b1 - e_B1 c * b0) * (b2 - e_B2 c * b0)) + (b2 - e_B2 c * b0) * (b2 - e_B2 c * b0))) by ring.
  rewrite R_sqrt.sqrt_mult_alt by (apply Rmult_le_pos; assumption). rewrite R_sqrt.sqrt_square by assumption. unfold Rdiv. ring.
Qed.

(** *** the gain from the norms of its factors *)
Lemma gain_range y1 y2 y3 y4 y5 p d : (cfin y1 /\ 7 / 100000000000000000 <= nn y1 <= 8 / 1000000) -> (cfin y2 /\ 7 / 100000000000000000 <= nn y2 <= 8 / 1000000) ->
  (cfin y3 /\ 7 / 100000000000000000 <= nn y3 <= 8 / 1000000) -> (cfin y4 /\ 7 / 100000000000000000 <= nn y4 <= 8 / 1000000) -> (cfin y5 /\ 9 / 10000000000000 <= nn y5 <= 17) ->
  0 < p -> p <= nn y1 -> p <= nn y2 -> p <= nn y3 -> p <= nn y4 -> nn y5 <= d ->
  let g := cabs (cdiv (cmul (cmul (cmul y1 y2) y3) y4) (cmul (cmul y5 y5) (cmul y5 y5))) in fin g /\ 78 / 100 * (p / d * (p / d)) <= FR g <= 1000000000000000.
Proof.
  intros X1 X2 X3 X4 X5 P0 P1 P2 P3 P4 D5 g.
  assert (X12 : cfin (cmul y1 y2) /\ (48 / 10000000000000000000000000000000000) <= nn (cmul y1 y2) <= (65 / 1000000000000)) by (apply (cmul_b _ _ _ _ _ _ _ _ X1 X2); unfold lowc, highc; lra).
  assert (X123 : cfin (cmul (cmul y1 y2) y3) /\ (33 / 100000000000000000000000000000000000000000000000000) <= nn (cmul (cmul y1 y2) y3) <= (53 / 100000000000000000)) by (apply (cmul_b _ _ _ _ _ _ _ _ X12 X3); unfold lowc, highc; lra).
  assert (X1234 : cfin (cmul (cmul (cmul y1 y2) y3) y4) /\ (22 / 1000000000000000000000000000000000000000000000000000000000000000000) <= nn (cmul (cmul (cmul y1 y2) y3) y4) <= (43 / 10000000000000000000000)) by (apply (cmul_b _ _ _ _ _ _ _ _ X123 X4); unfold lowc, highc; lra).
  assert (Y2 : cfin (cmul y5 y5) /\ (80 / 100000000000000000000000000) <= nn (cmul y5 y5) <= 300) by (apply (cmul_b _ _ _ _ _ _ _ _ X5 X5); unfold lowc, highc; lra).
  assert (Y4 : cfin (cmul (cmul y5 y5) (cmul y5 y5)) /\ (63 / 100000000000000000000000000000000000000000000000000) <= nn (cmul (cmul y5 y5) (cmul y5 y5)) <= 100000) by (apply (cmul_b _ _ _ _ _ _ _ _ Y2 Y2); unfold lowc, highc; lra).
  (* the product of the numerators *)
  assert (N12 : 99 / 100 * (p * p) <= nn (cmul y1 y2)).
  { destruct X1 as [F1 B1], X2 as [F2 B2]. destruct (cmul_norm y1 y2 F1 F2) as [_ [N _]]; [pose proof (prod_b _ _ _ _ _ _ B1 B2 ltac:(lra) ltac:(lra)); unfold lowc, highc; lra|].
    apply Rle_trans with (2 := N). apply Rmult_le_compat_l; [lra|]. apply Rmult_le_compat; lra. }
  assert (PP : 0 < p * p) by (apply Rmult_lt_0_compat; assumption).
  assert (N123 : 98 / 100 * (p * p * p) <= nn (cmul (cmul y1 y2) y3)).
  { destruct X12 as [F1 B1], X3 as [F2 B2]. destruct (cmul_norm _ y3 F1 F2) as [_ [N _]]; [pose proof (prod_b _ _ _ _ _ _ B1 B2 ltac:(lra) ltac:(lra)); unfold lowc, highc; lra|].
    apply Rle_trans with (2 := N). assert (99 / 100 * (p * p) * p <= nn (cmul y1 y2) * nn y3) by (apply Rmult_le_compat; lra). assert (0 < p * p * p) by (apply Rmult_lt_0_compat; assumption). lra. }
  assert (P4' : 0 < p * p * (p * p)) by (apply Rmult_lt_0_compat; assumption).
  assert (N : 97 / 100 * (p * p * (p * p)) <= nn (cmul (cmul (cmul y1 y2) y3) y4)).
  { destruct X123 as [F1 B1], X4 as [F2 B2]. destruct (cmul_norm _ y4 F1 F2) as [_ [N _]]; [pose proof (prod_b _ _ _ _ _ _ B1 B2 ltac:(lra) ltac:(lra)); unfold lowc, highc; lra|].
    apply Rle_trans with (2 := N). assert (0 < p * p * p) by (apply Rmult_lt_0_compat; assumption).
    assert (98 / 100 * (p * p * p) * p <= nn (cmul (cmul y1 y2) y3) * nn y4) by (apply Rmult_le_compat; lra). replace (p * p * (p * p)) with (p * p * p * p) in * by ring. lra. }
  (* the power of the denominator *)
  assert (D0 : 0 < d) by lra. assert (DD : 0 < d * d) by (apply Rmult_lt_0_compat; assumption). assert (D4 : 0 < d * d * (d * d)) by (apply Rmult_lt_0_compat; assumption).
  assert (M2 : nn (cmul y5 y5) <= 101 / 100 * (d * d)).
  { destruct X5 as [F1 B1]. destruct (cmul_norm y5 y5 F1 F1) as [_ [_ M]]; [pose proof (prod_b _ _ _ _ _ _ B1 B1 ltac:(lra) ltac:(lra)); unfold lowc, highc; lra|].
    apply Rle_trans with (1 := M). apply Rmult_le_compat_l; [lra|]. apply Rmult_le_compat; lra. }
  assert (M4 : nn (cmul (cmul y5 y5) (cmul y5 y5)) <= 1031 / 1000 * (d * d * (d * d))).
  { destruct Y2 as [F1 B1]. destruct (cmul_norm _ _ F1 F1) as [_ [_ M]]; [pose proof (prod_b _ _ _ _ _ _ B1 B1 ltac:(lra) ltac:(lra)); unfold lowc, highc; lra|].
    apply Rle_trans with (1 := M). assert (nn (cmul y5 y5) * nn (cmul y5 y5) <= 101 / 100 * (d * d) * (101 / 100 * (d * d))) by (apply Rmult_le_compat; lra). lra. }
  subst g. clear X1 X2 X3 X4 X5 X12 X123 Y2 N12 N123 M2 P1 P2 P3 P4 D5.
  revert X1234 Y4 N M4. generalize (cmul (cmul (cmul y1 y2) y3) y4), (cmul (cmul y5 y5) (cmul y5 y5)). clear y1 y2 y3 y4 y5. intros a b [Fa [A1 A2]] [Fb [B1 B2]] N M4.
  assert (P : (22 / 1000000000000000000000000000000000000000000000000000000000000000000) * (63 / 100000000000000000000000000000000000000000000000000) <= nn a * nn b <= (43 / 10000000000000000000000) * 100000) by (apply prod_b; lra).
  assert (IB : / 100000 <= / nn b <= / (63 / 100000000000000000000000000000000000000000000000000)) by (split; apply Rinv_le_contravar; lra).
  assert (Q : (22 / 1000000000000000000000000000000000000000000000000000000000000000000) * / 100000 <= nn a / nn b <= (43 / 10000000000000000000000) * / (63 / 100000000000000000000000000000000000000000000000000)) by (apply prod_b; lra).
  assert (Q' : (22 / 100000000000000000000000000000000000000000000000000000000000000000000000) <= nn a / nn b <= 100000000000000000000000000000) by lra.
  destruct (cdiv_norm a b Fa Fb) as [Fd Nd]; [unfold lowc, highc; lra|unfold lowc, highc; lra|unfold lowc, highc; lra|].
  set (v := p / d * (p / d)). assert (V0 : 0 < v) by (unfold v; apply Rmult_lt_0_compat; apply Rdiv_lt_0_compat; assumption).
  assert (VV : v * v = p * p * (p * p) / (d * d * (d * d))) by (unfold v; field; lra).
  assert (AB : 94 / 100 * (v * v) <= nn a / nn b).
  { rewrite VV. apply Rle_trans with (97 / 100 * (p * p * (p * p)) * / (1031 / 1000 * (d * d * (d * d)))).
    - replace (97 / 100 * (p * p * (p * p)) * / (1031 / 1000 * (d * d * (d * d)))) with (97 / 100 / (1031 / 1000) * (p * p * (p * p) / (d * d * (d * d)))) by (field; lra).
      apply Rmult_le_compat_r; [left; apply Rdiv_lt_0_compat; assumption|lra].
    - apply Rmult_le_compat; [lra|left; apply Rinv_0_lt_compat; lra|exact N|]. apply Rinv_le_contravar; lra. }
  destruct (cnorm2_norm (cdiv a b) Fd) as [Fn En]; [unfold lowc, highc; lra|].
  assert (UP : FR (cabs (cdiv a b)) <= 1000000000000000 /\ fin (cabs (cdiv a b))).
  { unfold cabs. cbn [nsqrt NumF]. split; [|apply fin_sqrt; [exact Fn|lra]]. rewrite FR_sqrt.
    assert (SL : R_sqrt.sqrt (FR (cnorm2 (cdiv a b))) <= 400000000000000) by (apply sqrt_le_sq; lra). pose proof (R_sqrt.sqrt_pos (FR (cnorm2 (cdiv a b)))) as SP.
    pose proof (rnd_err (R_sqrt.sqrt (FR (cnorm2 (cdiv a b)))) 400000000000000 ltac:(rewrite Rabs_pos_eq; lra) ltac:(pose proof tiny_small; lra)) as E. pose proof u_small. pose proof u_pos. ab_. }
  split; [apply UP|]. split; [|apply UP].
  assert (L : 87 / 100 * v * (87 / 100 * v) <= 9 / 10 * nn (cdiv a b)) by nra.
  destruct (Rle_dec lowc (87 / 100 * v)) as [C|C].
  - destruct (cabs_norm (cdiv a b) (87 / 100 * v) Fd) as [_ Ng]; [unfold lowc, highc; lra| |exact C|exact L|lra].
    split; [lra|]. assert (87 / 100 * v <= R_sqrt.sqrt (9 / 10 * nn (cdiv a b))) by (apply sq_le_sqrt; [lra|exact L]).
    assert (R_sqrt.sqrt (9 / 10 * nn (cdiv a b)) <= highc); [|lra]. apply sqrt_le_sq; unfold highc; lra.
  - destruct (cabs_norm (cdiv a b) lowc Fd) as [_ Ng]; [unfold lowc, highc; lra|unfold lowc, highc; lra|lra|unfold lowc; lra|lra].
Qed.
