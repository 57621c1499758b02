(** Relative errors of binary64 expressions with positive values, counted in units of 2^-40. *)
From Coq Require Import ZArith List Bool Reals Lra Lia Floats Psatz.
From Flocq Require Import Core.Core IEEE754.BinarySingleNaN IEEE754.PrimFloat.
From Verif Require Import Base.Num Base.NumF Spec.LibmSpec Proofs.B64P Proofs.RoundP Proofs.StableP.
Open Scope R_scope.

Definition lo30 : R := 1 / 1000000000000000000000000000000.
Definition hi30 : R := 100000000000000000000.
Definition mid (r : R) : Prop := lo30 <= r <= hi30.
Definition rel (k : R) (x : PrimFloat.float) (r : R) : Prop := fin x /\ Rabs (FR x - r) <= k * dl * r.
Lemma lo30_tiny : tiny <= lo30.
Proof. unfold tiny, lo30. apply Rle_trans with (bpow radix2 (-120)); [apply bpow_le; lia|]. cbn -[Rdiv]. lra. Qed.
Lemma dl_pos : 0 < dl <= 1 / 1000000000000. Proof. unfold dl. lra. Qed.
Lemma u_dl : 0 < u <= dl / 8000. Proof. split; [apply u_pos|]. unfold u, dl. cbn [Z.pow Z.pow_pos Pos.iter Z.mul Pos.mul]. lra. Qed.
Ltac abs_all := repeat match goal with H : Rabs _ <= _ |- _ => apply Rabs_le_inv in H end.

Lemma rel_weaken j k x r : rel j x r -> j <= k -> 0 <= r -> rel k x r.
Proof. intros [F H] L P. split; [exact F|]. pose proof dl_pos. apply Rle_trans with (1 := H). apply Rmult_le_compat_r; [exact P|]. apply Rmult_le_compat_r; lra. Qed.
Lemma rel_exact x : fin x -> rel 0 x (FR x).
Proof. intros F. split; [exact F|]. rewrite Rminus_diag_eq, Rabs_R0 by reflexivity. lra. Qed.
Lemma rel_ofZ z : (Z.abs z < 2 ^ 53)%Z -> rel 0 (F_ofZ z) (IZR z).
Proof. intros H. destruct (FR_ofZ z H) as [E F]. rewrite <- E. apply rel_exact, F. Qed.
(** one operation: the exact result on the computed operands, then rounding *)
Lemma rel_op (x : PrimFloat.float) z r e : (Rabs (rnd z) < fmax -> FR x = rnd z /\ fin x) -> mid r -> 0 <= e <= 3000 -> Rabs (z - r) <= (e + 1 / 2) * dl * r -> rel (e + 1) x r.
Proof.
  intros HX [M1 M2] He Hz. pose proof dl_pos as D. pose proof u_dl as U. assert (P : 0 < r) by (unfold lo30 in M1; lra).
  assert (K1 : (e + 1 / 2) * dl <= 1 / 100) by nra. assert (K2 : 0 <= (e + 1 / 2) * dl) by nra.
  assert (Hb : (e + 1 / 2) * dl * r <= 1 / 100 * r) by nra.
  assert (ZB : Rabs z <= 2 * r) by (apply Rabs_le; abs_all; lra).
  destruct (op_err x z (2 * r) HX ZB) as [F E]; [pose proof lo30_tiny; unfold lo30 in *; lra|unfold hi30 in M2; pose proof big_large; lra|].
  split; [exact F|]. apply Rabs_le. abs_all. assert (u * (2 * r) <= 1 / 2 * dl * r) by nra. nra.
Qed.
Lemma rel_mul j k x r y s : rel j x r -> rel k y s -> 0 <= j <= 1000 -> 0 <= k <= 1000 -> 0 < r -> 0 < s -> mid (r * s) -> rel (j + k + 1) (PrimFloat.mul x y) (r * s).
Proof.
  intros [Fx X] [Fy Y] Hj Hk Pr Ps M. apply (rel_op _ (FR x * FR y)); [apply FR_mul; assumption|exact M|lra|]. pose proof dl_pos as D.
  replace (FR x * FR y - r * s) with ((FR x - r) * s + r * (FR y - s) + (FR x - r) * (FR y - s)) by ring.
  assert (A1 : Rabs ((FR x - r) * s) <= j * dl * (r * s)) by (rewrite Rabs_mult, (Rabs_pos_eq s) by lra; replace (j * dl * (r * s)) with (j * dl * r * s) by ring; apply Rmult_le_compat_r; [lra|exact X]).
  assert (A2 : Rabs (r * (FR y - s)) <= k * dl * (r * s)) by (rewrite Rabs_mult, (Rabs_pos_eq r) by lra; replace (k * dl * (r * s)) with (r * (k * dl * s)) by ring; apply Rmult_le_compat_l; [lra|exact Y]).
  assert (A3 : Rabs ((FR x - r) * (FR y - s)) <= 1 / 2 * dl * (r * s)).
  { rewrite Rabs_mult. apply Rle_trans with ((j * dl * r) * (k * dl * s)); [apply Rmult_le_compat; (apply Rabs_pos || assumption)|].
    replace (j * dl * r * (k * dl * s)) with ((j * k * dl) * dl * (r * s)) by ring. apply Rmult_le_compat_r; [nra|]. apply Rmult_le_compat_r; [lra|]. assert (j * k <= 1000000) by nra. assert (0 <= j * k) by nra. nra. }
  apply Rabs_le. abs_all. replace ((j + k + 1 / 2) * dl * (r * s)) with (j * dl * (r * s) + k * dl * (r * s) + 1 / 2 * dl * (r * s)) by ring. lra.
Qed.
Lemma rel_div j k x r y s : rel j x r -> rel k y s -> 0 <= j <= 1000 -> 0 <= k <= 1000 -> 0 < r -> 0 < s -> mid (r / s) -> rel (j + k + 1) (PrimFloat.div x y) (r / s).
Proof.
  intros [Fx X] [Fy Y] Hj Hk Pr Ps M. pose proof dl_pos as D.
  assert (KD : 0 <= k * dl <= 1 / 100000000) by nra. assert (JD : 0 <= j * dl <= 1 / 100000000) by nra.
  assert (Y0 : (1 - k * dl) * s <= FR y) by (abs_all; lra). assert (Y1 : 0 < FR y) by nra.
  apply (rel_op _ (FR x / FR y)); [apply FR_div; [assumption|lra]|exact M|lra|].
  replace (FR x / FR y - r / s) with (((FR x - r) * s - r * (FR y - s)) / (FR y * s)) by (field; lra).
  assert (P : 0 < FR y * s) by nra. unfold Rdiv at 1. rewrite Rabs_mult, (Rabs_pos_eq (/ _)) by (left; apply Rinv_0_lt_compat, P).
  apply Rmult_le_reg_r with (FR y * s); [exact P|]. rewrite Rmult_assoc, Rinv_l, Rmult_1_r by lra.
  assert (A1 : Rabs ((FR x - r) * s) <= j * dl * (r * s)) by (rewrite Rabs_mult, (Rabs_pos_eq s) by lra; replace (j * dl * (r * s)) with (j * dl * r * s) by ring; apply Rmult_le_compat_r; [lra|exact X]).
  assert (A2 : Rabs (r * (FR y - s)) <= k * dl * (r * s)) by (rewrite Rabs_mult, (Rabs_pos_eq r) by lra; replace (k * dl * (r * s)) with (r * (k * dl * s)) by ring; apply Rmult_le_compat_l; [lra|exact Y]).
  apply Rle_trans with ((j + k) * dl * (r * s)); [apply Rabs_le; abs_all; replace ((j + k) * dl * (r * s)) with (j * dl * (r * s) + k * dl * (r * s)) by ring; lra|].
  replace ((j + k + 1 / 2) * dl * (r / s) * (FR y * s)) with ((j + k + 1 / 2) * dl * (r * FR y)) by (field; lra).
  apply Rle_trans with ((j + k + 1 / 2) * dl * (r * ((1 - k * dl) * s))); [|apply Rmult_le_compat_l; [nra|apply Rmult_le_compat_l; lra]].
  replace ((j + k) * dl * (r * s)) with (dl * (r * s) * (j + k)) by ring. replace ((j + k + 1 / 2) * dl * (r * ((1 - k * dl) * s))) with (dl * (r * s) * ((j + k + 1 / 2) * (1 - k * dl))) by ring.
  assert (0 < r * s) by nra. apply Rmult_le_compat_l; [nra|]. assert ((j + k + 1 / 2) * (k * dl) <= 1 / 2); [|lra].
  apply Rle_trans with (2001 * (1 / 100000000)); [apply Rmult_le_compat; lra|lra].
Qed.
Lemma rel_add k x r y s : rel k x r -> rel k y s -> 0 <= k <= 1000 -> 0 <= r -> 0 <= s -> mid (r + s) -> rel (k + 1) (PrimFloat.add x y) (r + s).
Proof.
  intros [Fx X] [Fy Y] Hk Pr Ps M. apply (rel_op _ (FR x + FR y)); [apply FR_add; assumption|exact M|lra|]. pose proof dl_pos as D.
  replace (FR x + FR y - (r + s)) with ((FR x - r) + (FR y - s)) by ring. apply Rle_trans with (1 := Rabs_triang _ _).
  apply Rle_trans with (k * dl * r + k * dl * s); [lra|]. replace ((k + 1 / 2) * dl * (r + s)) with (k * dl * r + k * dl * s + 1 / 2 * dl * (r + s)) by ring. nra.
Qed.
Lemma mid_pos r : mid r -> 0 < r. Proof. unfold mid, lo30. lra. Qed.
Lemma mulw j k l x r y s : rel j x r -> rel k y s -> j + k + 1 <= l -> 0 <= j <= 1000 -> 0 <= k <= 1000 -> 0 < r -> 0 < s -> mid (r * s) -> rel l (PrimFloat.mul x y) (r * s).
Proof. intros. apply (rel_weaken (j + k + 1)); [apply rel_mul; assumption|assumption|apply Rlt_le, mid_pos; assumption]. Qed.
Lemma divw j k l x r y s : rel j x r -> rel k y s -> j + k + 1 <= l -> 0 <= j <= 1000 -> 0 <= k <= 1000 -> 0 < r -> 0 < s -> mid (r / s) -> rel l (PrimFloat.div x y) (r / s).
Proof. intros. apply (rel_weaken (j + k + 1)); [apply rel_div; assumption|assumption|apply Rlt_le, mid_pos; assumption]. Qed.
Lemma addw k l x r y s : rel k x r -> rel k y s -> k + 1 <= l -> 0 <= k <= 1000 -> 0 <= r -> 0 <= s -> mid (r + s) -> rel l (PrimFloat.add x y) (r + s).
Proof. intros. apply (rel_weaken (k + 1)); [apply rel_add; assumption|assumption|apply Rlt_le, mid_pos; assumption]. Qed.
Lemma rel_abs k x r : rel k x r -> 0 <= k -> 0 <= r -> Rabs (FR x - r) <= k * r * dl.
Proof. intros [_ H] _ _. lra. Qed.
Lemma rel_range k x r : rel k x r -> 0 <= k <= 1000 -> 0 <= r -> 99 / 100 * r <= FR x <= 101 / 100 * r.
Proof. intros [_ H] Hk P. pose proof dl_pos. assert (0 <= k * dl <= 1 / 100) by nra. abs_all. nra. Qed.

(** *** elementary functions *)
Lemma exp_near_1 h : Rabs h <= 1 / 2 -> Rabs (exp h - 1) <= Rabs h + 2 * Rabs h * Rabs h.
Proof.
  intros H. pose proof (exp_ineq1_le h). pose proof (exp_ineq1_le (- h)) as L. rewrite exp_Ropp in L. assert (E := exp_pos h).
  assert (U : exp h * (1 - h) <= 1). { apply Rmult_le_reg_l with (/ exp h); [apply Rinv_0_lt_compat, E|]. rewrite <- Rmult_assoc, Rinv_l by lra. lra. }
  assert (A : h <= Rabs h) by apply Rle_abs. assert (A' : - h <= Rabs h) by (rewrite <- Rabs_Ropp; apply Rle_abs).
  apply Rabs_le. split; [pose proof (Rabs_pos h); nra|]. destruct (Rle_dec 0 h) as [P|P].
  - rewrite (Rabs_pos_eq h P) in *. nra.
  - assert (h < 0) by lra. rewrite (Rabs_left h) in * by lra. assert (exp h <= 1) by (rewrite <- exp_0; left; apply exp_increasing; lra). nra.
Qed.
Lemma sin_abs_le h : Rabs (sin h) <= Rabs h.
Proof.
  destruct (Rtotal_order h 0) as [N|[ -> |P]].
  - pose proof (sin_lt_x (- h) ltac:(lra)) as X. rewrite sin_neg in X. rewrite (Rabs_left h) by lra. apply Rabs_le. split; [|].
    + destruct (Rle_dec (- h) PI) as [C|C]; [|pose proof (SIN_bound h); pose proof PI_RGT_0; pose proof PI2_3_2; unfold PI2 in *; lra].
      lra.
    + destruct (Rle_dec (- h) PI) as [C|C]; [|pose proof (SIN_bound h); pose proof PI2_3_2; unfold PI2 in *; lra].
      pose proof (sin_ge_0 (- h) ltac:(lra) C) as S0. rewrite sin_neg in S0. lra.
  - rewrite sin_0, Rabs_R0. lra.
  - pose proof (sin_lt_x h P) as X. rewrite (Rabs_pos_eq h) by lra. apply Rabs_le. split; [|lra].
    destruct (Rle_dec h PI) as [C|C]; [pose proof (sin_ge_0 h ltac:(lra) C); lra|pose proof (SIN_bound h); pose proof PI2_3_2; unfold PI2 in *; lra].
Qed.
Lemma cos_lip a b : Rabs (cos a - cos b) <= Rabs (a - b).
Proof.
  rewrite form2, !Rabs_mult. pose proof (sin_abs_le ((a - b) / 2)) as S. pose proof (SIN_bound ((a + b) / 2)) as B.
  assert (Rabs (sin ((a + b) / 2)) <= 1) by (apply Rabs_le; lra). replace (a - b) with (2 * ((a - b) / 2)) by field. rewrite (Rabs_mult 2). rewrite (Rabs_pos_eq 2) by lra.
  replace (2 * ((a - b) / 2) / 2) with ((a - b) / 2) by field. rewrite (Rabs_left (-2)) by lra. pose proof (Rabs_pos (sin ((a - b) / 2))). pose proof (Rabs_pos (sin ((a + b) / 2))). nra.
Qed.
Lemma sin_lip a b : Rabs (sin a - sin b) <= Rabs (a - b).
Proof. rewrite <- !cos_shift. replace (a - b) with (- ((PI / 2 - a) - (PI / 2 - b))) by ring. rewrite Rabs_Ropp. apply cos_lip. Qed.

Section Accurate.
  Context {L : Libm PrimFloat.float} (A : accurate L).
  Lemma exp_rel k x r : fin x -> Rabs (FR x - r) <= k * dl -> 0 <= k <= 10000 -> Rabs r <= 40 -> rel (k + 2) (mexp x) (exp r).
  Proof.
    intros F H Hk Hr. pose proof dl_pos as D. assert (K : 0 <= k * dl <= 1 / 100000000) by nra.
    destruct (acc_exp L A x F) as [Fe E]; [abs_all; apply Rabs_le; lra|]. split; [exact Fe|].
    assert (EE : exp (FR x) = exp r * exp (FR x - r)) by (rewrite <- exp_plus; f_equal; ring).
    pose proof (exp_near_1 (FR x - r) ltac:(lra)) as N. assert (P := exp_pos r). set (h := FR x - r) in *.
    assert (N' : Rabs (exp h - 1) <= (k + 1 / 2) * dl).
    { apply Rle_trans with (1 := N). pose proof (Rabs_pos h). assert (2 * Rabs h * Rabs h <= 1 / 2 * dl); [|lra].
      apply Rle_trans with (2 * (k * dl) * (k * dl)); [apply Rmult_le_compat; lra|]. replace (2 * (k * dl) * (k * dl)) with (2 * k * k * dl * dl) by ring. apply Rmult_le_compat_r; [lra|]. nra. }
    rewrite EE in E. replace (FR (mexp x) - exp r) with ((FR (mexp x) - exp r * exp h) + exp r * (exp h - 1)) by ring.
    assert (X1 : exp h <= 3 / 2) by (abs_all; nra). assert (X2 : 0 < exp h) by apply exp_pos.
    apply Rle_trans with (1 := Rabs_triang _ _). rewrite (Rabs_mult (exp r)), (Rabs_pos_eq (exp r)) by lra.
    apply Rle_trans with (dl * (exp r * (3 / 2)) + exp r * ((k + 1 / 2) * dl)); [|right; field].
    apply Rplus_le_compat; [apply Rle_trans with (1 := E); apply Rmult_le_compat_l; [lra|]; apply Rmult_le_compat_l; lra|apply Rmult_le_compat_l; [lra|exact N']].
  Qed.
  Lemma cos_near k x r : fin x -> Rabs (FR x - r) <= k * dl -> 0 <= k <= 1000 -> Rabs r <= 40 -> fin (mcos x) /\ Rabs (FR (mcos x) - cos r) <= (k + 1) * dl.
  Proof.
    intros F H Hk Hr. pose proof dl_pos as D. assert (K : 0 <= k * dl <= 1 / 100000000) by nra.
    destruct (acc_cos L A x F) as [Fe E]; [abs_all; apply Rabs_le; lra|]. split; [exact Fe|]. pose proof (cos_lip (FR x) r) as C.
    replace (FR (mcos x) - cos r) with ((FR (mcos x) - cos (FR x)) + (cos (FR x) - cos r)) by ring. apply Rle_trans with (1 := Rabs_triang _ _). lra.
  Qed.
  Lemma sin_near k x r : fin x -> Rabs (FR x - r) <= k * dl -> 0 <= k <= 1000 -> Rabs r <= 40 -> fin (msin x) /\ Rabs (FR (msin x) - sin r) <= (k + 1) * dl.
  Proof.
    intros F H Hk Hr. pose proof dl_pos as D. assert (K : 0 <= k * dl <= 1 / 100000000) by nra.
    destruct (acc_sin L A x F) as [Fe E]; [abs_all; apply Rabs_le; lra|]. split; [exact Fe|]. pose proof (sin_lip (FR x) r) as C.
    replace (FR (msin x) - sin r) with ((FR (msin x) - sin (FR x)) + (sin (FR x) - sin r)) by ring. apply Rle_trans with (1 := Rabs_triang _ _). lra.
  Qed.
  Lemma pi_rel : rel 1 mpi PI.
  Proof. destruct (acc_pi L A) as [F H]. split; [exact F|]. pose proof dl_pos. pose proof PI2_3_2. unfold PI2 in *. nra. Qed.
End Accurate.
