(** The centre frequencies in binary64, and the stability of every filter of the bank (C101). *)
From Coq Require Import ZArith List Bool Reals Lra Lia Floats Psatz.
From Flocq Require Import Core.Core IEEE754.BinarySingleNaN IEEE754.PrimFloat.
From Interval Require Import Tactic.
From Verif Require Import Base.Res Base.Num Base.NumF Base.Cplx Model.Erb Model.FilterBank Model.Manager Spec.LibmSpec Spec.StableSpec Proofs.B64P Proofs.RoundP Proofs.BoundP Proofs.StableP Proofs.RelP
  Proofs.StableBankP Proofs.ErbNormP Proofs.ErbFloatP.
Import ListNotations.
Open Scope R_scope.

Lemma ln_le_sub y : 0 < y -> ln y <= y - 1.
Proof. intros H. rewrite <- (ln_exp (y - 1)). destruct (Req_dec y 1) as [->|N]; [right; f_equal; rewrite Rminus_diag_eq, exp_0; reflexivity|]. left. apply ln_increasing; [exact H|]. pose proof (exp_ineq1 (y - 1) ltac:(lra)). lra. Qed.
Lemma ln_near x r e : 0 < r -> 0 <= e <= 1 / 2 -> Rabs (x - r) <= e * r -> Rabs (ln x - ln r) <= 2 * e.
Proof.
  intros R0 He H. apply Rabs_le_inv in H. assert (X0 : 0 < x) by nra. assert (E : ln x - ln r = ln (x / r)) by (unfold Rdiv; rewrite ln_mult, ln_Rinv; [ring|lra|lra|apply Rinv_0_lt_compat; lra]).
  assert (Q : 1 - e <= x / r <= 1 + e).
  { split; [apply Rmult_le_reg_r with r|apply Rmult_le_reg_r with r]; try lra; unfold Rdiv; rewrite Rmult_assoc, Rinv_l; lra. }
  rewrite E. apply Rabs_le. split; [|apply Rle_trans with (x / r - 1); [apply ln_le_sub; lra|lra]].
  assert (N : ln (/ (x / r)) = - ln (x / r)) by (apply ln_Rinv; lra). pose proof (ln_le_sub (/ (x / r)) ltac:(apply Rinv_0_lt_compat; lra)) as U. rewrite N in U.
  assert (I : / (x / r) <= 1 + 2 * e). { apply Rmult_le_reg_l with (x / r); [lra|]. rewrite Rinv_r by lra. nra. }
  lra.
Qed.
Section Center.
  Context {L : Libm PrimFloat.float} (A : accurate L).
  Lemma log_near k x r : rel k x r -> 10 <= r <= 1000000 -> 0 <= k <= 100 -> nr 1 (mlog x) (ln r) (2 * k + 20).
  Proof.
    intros R Hr Hk. pose proof (rel_range _ _ _ R ltac:(lra) ltac:(lra)) as RR. destruct R as [F H]. pose proof dl_pos as D.
    destruct (acc_log L A x F) as [Fl El]; [lra|]. assert (KD : 0 <= k * dl <= 1 / 2) by (split; [apply Rmult_le_pos; lra|apply Rle_trans with (100 * dl); [apply Rmult_le_compat_r; lra|lra]]). pose proof (ln_near (FR x) r (k * dl) ltac:(lra) KD H) as N.
    assert (LB : 0 <= ln (FR x) <= 15) by (split; [rewrite <- ln_1; apply Rcomplements.ln_le; lra|apply Rle_trans with (ln 1010000); [apply Rcomplements.ln_le; lra|interval]]).
    apply nr_near; [exact Fl|]. assert (dl * ln (FR x) <= dl * 15) by (apply Rmult_le_compat_l; lra). tri.
  Qed.
  Variables (h : PrimFloat.float) (n i : nat).
  Hypotheses (Fh : fin h) (Hh : 1999 <= FR h <= 131073) (Hn : (1 <= n <= 32)%nat) (Hi : (i < n)%nat).
  Let q := 926449 / 100000 * (247 / 10).
  Let D := FR h + q.
  Let Lo := 50 + q.
  Let lam := ln D - ln Lo.
  Let m := INR n.
  Let qf : PrimFloat.float := nmul earQ minBW.
  Lemma q_b : 22883 / 100 <= q <= 22884 / 100. Proof. unfold q. lra. Qed.
  Lemma q_rel : rel 3 qf q. Proof. apply (mulw 1 1); try lra; [exact earQ_rel|exact minBW_rel|fold q; pose proof q_b; solve_mid]. Qed.
  Lemma d_rel : rel 4 (nadd h qf) D.
  Proof. pose proof q_b. apply (addw 3); try lra; [apply (rel_weaken 0); [apply rel_exact, Fh|lra|lra]|exact q_rel|fold D; unfold D; solve_mid]. Qed.
  Lemma lo_rel : rel 4 (nadd (nofZ 50) qf) Lo.
  Proof. pose proof q_b. apply (addw 3); try lra; [apply (rel_weaken 0); [apply (rel_ofZ 50); lia|lra|lra]|exact q_rel|fold Lo; unfold Lo; solve_mid]. Qed.
  Lemma lam_b : 207 / 100 <= lam <= 62 / 10.
  Proof.
    pose proof q_b. unfold lam. assert (DB : 22278 / 10 <= D <= 131302) by (unfold D; lra). assert (LB : 2788 / 10 <= Lo <= 2789 / 10) by (unfold Lo; lra). clear - DB LB. generalize dependent D. generalize dependent Lo. intros a Ha b Hb.
    assert (ln (22278 / 10) <= ln b <= ln 131302) by (split; apply Rcomplements.ln_le; lra). assert (ln (2788 / 10) <= ln a <= ln (2789 / 10)) by (split; apply Rcomplements.ln_le; lra).
    assert (7708 / 1000 <= ln (22278 / 10)) by interval. assert (ln 131302 <= 1179 / 100) by interval. assert (563 / 100 <= ln (2788 / 10)) by interval. assert (ln (2789 / 10) <= 5631 / 1000) by interval. lra.
  Qed.
  Let ef : PrimFloat.float := ndiv (nadd (nopp (mlog (nadd h qf))) (mlog (nadd (nofZ 50) qf))) (nofnat n).
  Lemma n_b : 1 <= m <= 32. Proof. unfold m. split; [apply (le_INR 1); lia|]. change 32 with (IZR (Z.of_nat 32)). rewrite <- INR_IZR_INZ. apply le_INR. lia. Qed.
  Lemma ef_nr : nr 1 ef (- lam / m) 120.
  Proof.
    pose proof q_b. pose proof lam_b as LB. pose proof n_b.
    assert (X1 : nr 1 (nopp (mlog (nadd h qf))) (- ln D) 28) by (apply nr_opp, (nr_weaken _ _ _ (2 * 4 + 20)); [apply log_near; [exact d_rel|unfold D; lra|lra]|lra|exact scale_1]).
    assert (X2 : nr 1 (mlog (nadd (nofZ 50) qf)) (ln Lo) 28) by (apply (nr_weaken _ _ _ (2 * 4 + 20)); [apply log_near; [exact lo_rel|unfold Lo; lra|lra]|lra|exact scale_1]).
    assert (L1 : 0 <= ln D <= 15). { assert (DB : 22278 / 10 <= D <= 131302) by (unfold D; lra). clear - DB. generalize dependent D. intros x Hx. split; [rewrite <- ln_1; apply Rcomplements.ln_le; lra|apply Rle_trans with (ln 131302); [apply Rcomplements.ln_le; lra|interval]]. }
    assert (L2 : 0 <= ln Lo <= 15). { assert (DB : 2788 / 10 <= Lo <= 2789 / 10) by (unfold Lo; lra). clear - DB. generalize dependent Lo. intros x Hx. split; [rewrite <- ln_1; apply Rcomplements.ln_le; lra|apply Rle_trans with (ln (2789 / 10)); [apply Rcomplements.ln_le; lra|interval]]. }
    apply (nr_div 1 _ _ 57 _ _ 0 7); try lra; [|unfold m; rewrite INR_IZR_INZ; apply rel_ofZ; lia|exact scale_1|apply Rabs_le; lra].
    unfold lam. replace (- (ln D - ln Lo)) with (- ln D + ln Lo) by ring. apply (nr_add 1 _ _ 28 _ _ 28 15 15); try lra; try assumption; [exact scale_1|rewrite Rabs_Ropp, Rabs_pos_eq; lra|rewrite Rabs_pos_eq; lra].
  Qed.
  Let v := INR (S i) * (- lam / m).
  Lemma v_b : - lam <= v <= - (6 / 100).
  Proof.
    pose proof n_b as NB. pose proof lam_b as LB. unfold v. assert (I : 1 <= INR (S i) <= m) by (split; [apply (le_INR 1); lia|unfold m; apply le_INR; lia]).
    revert I. generalize (INR (S i)). intros y Hy. replace (y * (- lam / m)) with (- (y * lam / m)) by (field; lra).
    assert (y * lam / m <= lam). { apply Rmult_le_reg_r with m; [lra|]. unfold Rdiv. rewrite Rmult_assoc, Rinv_l by lra. nra. }
    assert (6 / 100 <= y * lam / m). { apply Rmult_le_reg_r with m; [lra|]. unfold Rdiv. rewrite (Rmult_assoc (y * lam)), Rinv_l by lra. nra. }
    lra.
  Qed.
  Lemma exp_v : fin (mexp (nmul (nofnat (S i)) ef)) /\ Rabs (FR (mexp (nmul (nofnat (S i)) ef)) - exp v) <= 1 / 100000000 * exp v.
  Proof.
    pose proof n_b as NB. pose proof lam_b as LB. pose proof v_b as VB. assert (I : 1 <= INR (S i) <= m) by (split; [apply (le_INR 1); lia|unfold m; apply le_INR; lia]).
    assert (X : nr 1 (nmul (nofnat (S i)) ef) v 4000).
    { assert (O : nr 1 (nofnat (S i)) (INR (S i)) 0) by (rewrite INR_IZR_INZ; apply nr_ofZ; lia).
      assert (IM : m * / m = 1) by (apply Rinv_r; lra). assert (IP : 0 < / m) by (apply Rinv_0_lt_compat; lra).
      assert (AB : Rabs (- lam / m) <= 62 / 10 * / m) by (unfold Rdiv; rewrite Rabs_mult, Rabs_Ropp, (Rabs_pos_eq lam), (Rabs_pos_eq (/ m)) by lra; apply Rmult_le_compat_r; lra).
      apply (nr_mul 1 _ _ 0 _ _ 120 m (62 / 10 * / m)); try lra; try exact O; try exact ef_nr; try exact scale_1; try exact AB; try (rewrite Rabs_pos_eq; lra).
      all: replace (m * (62 / 10 * / m)) with (62 / 10 * (m * / m)) by ring; rewrite IM; lra. }
    destruct X as [F H]. rewrite Rmult_1_l, Rmult_1_r in H. destruct (exp_rel A 4000 _ _ F H ltac:(lra) ltac:(apply Rabs_le; lra)) as [Fe He]. split; [exact Fe|].
    apply Rle_trans with (1 := He). apply Rmult_le_compat_r; [left; apply exp_pos|]. pose proof dl_pos. lra.
  Qed.
  Lemma center_b : fin (nadd (nopp qf) (nmul (mexp (nmul (nofnat (S i)) ef)) (nadd h qf))) /\ 49 <= FR (nadd (nopp qf) (nmul (mexp (nmul (nofnat (S i)) ef)) (nadd h qf))) <= 95 / 100 * FR h.
  Proof.
    pose proof q_b as QB. pose proof v_b as VB. pose proof lam_b as LB. destruct exp_v as [Fe He]. destruct d_rel as [Fd Hd]. destruct q_rel as [Fq Hq]. pose proof dl_pos as DL.
    set (E := mexp (nmul (nofnat (S i)) ef)) in *. set (df := nadd h qf) in *. assert (DB : 22278 / 10 <= D <= 131302) by (unfold D; lra).
    assert (LoD : exp (- lam) * D = Lo). { unfold lam. replace (- (ln D - ln Lo)) with (ln Lo + - ln D) by ring. rewrite exp_plus, exp_Ropp, !exp_ln by (unfold Lo; lra). field. lra. }
    assert (EV : exp (- lam) <= exp v <= 942 / 1000).
    { split; [destruct (proj1 VB) as [X|X]; [left; apply exp_increasing, X|rewrite X; lra]|]. apply Rle_trans with (exp (- (6 / 100))); [|interval]. destruct (proj2 VB) as [X|X]; [left; apply exp_increasing, X|rewrite X; lra]. }
    assert (VD : Lo <= exp v * D <= 942 / 1000 * D) by (split; [rewrite <- LoD|]; apply Rmult_le_compat_r; lra).
    assert (V0 : 0 < exp v) by apply exp_pos.
    assert (P1 : 99999999 / 100000000 * exp v <= FR E <= 100000001 / 100000000 * exp v) by (abs_all; lra).
    assert (KD : 4 * dl * D <= 1 / 100000000 * D) by (apply Rmult_le_compat_r; lra). assert (P2 : 99999999 / 100000000 * D <= FR df <= 100000001 / 100000000 * D) by (abs_all; lra).
    assert (P3 : 99999999 / 100000000 * exp v * (99999999 / 100000000 * D) <= FR E * FR df <= 100000001 / 100000000 * exp v * (100000001 / 100000000 * D)) by (split; apply Rmult_le_compat; lra).
    assert (P4 : 9999999 / 10000000 * Lo <= FR E * FR df <= 9421 / 10000 * D) by lra. unfold Lo in P4.
    assert (B1 : Rabs (FR E * FR df) <= 131072) by (rewrite Rabs_pos_eq; lra).
    destruct (op_err (PrimFloat.mul E df) (FR E * FR df) 131072 (FR_mul _ _ Fe Fd) B1) as [Fm Em]; [pose proof tiny_small; lra|pose proof big_large; lra|].
    assert (Q1 : Rabs (FR qf - q) <= 1 / 1000) by (apply Rle_trans with (1 := Hq); apply Rle_trans with (3 * dl * 230); [apply Rmult_le_compat_l; lra|lra]).
    pose proof u_pos. pose proof u_small.
    assert (B2 : Rabs (FR (PrimFloat.opp qf) + FR (PrimFloat.mul E df)) <= 200000) by (rewrite FR_opp; tri).
    destruct (op_err (PrimFloat.add (PrimFloat.opp qf) (PrimFloat.mul E df)) _ 200000 (FR_add _ _ (fin_opp _ Fq) Fm) B2) as [Fs Es]; [pose proof tiny_small; lra|pose proof big_large; lra|].
    split; [exact Fs|]. change (nadd (nopp qf) (nmul E df)) with (PrimFloat.add (PrimFloat.opp qf) (PrimFloat.mul E df)). rewrite FR_opp in Es. unfold D in P4. abs_all. lra.
  Qed.
End Center.

Lemma half_rate sr : (4000 <= sr <= 262144)%Z -> fin (ndiv (nofZ sr) (nofZ 2) : PrimFloat.float) /\ FR (ndiv (nofZ sr) (nofZ 2)) = IZR sr / 2.
Proof.
  intros H. destruct (FR_ofZ sr ltac:(lia)) as [E F]. destruct (FR_ofZ 2 ltac:(lia)) as [E2 F2]. assert (B : 4000 <= IZR sr <= 262144) by (split; apply IZR_le; lia).
  assert (X : rnd (FR (F_ofZ sr) / FR (F_ofZ 2)) = IZR sr / 2). { rewrite E, E2. apply (rnd_exact sr (-1)); [cbn; lra|lia|lia]. }
  destruct (FR_div (F_ofZ sr) (F_ofZ 2) F) as [Ed Fd]; [rewrite E2; lra|apply (rnd_fmax _ 131072); [rewrite E, E2, Rabs_pos_eq; lra|pose proof tiny_small; lra|pose proof big_large; lra]|].
  split; [exact Fd|]. cbn [ndiv nofZ NumF]. rewrite Ed, X. reflexivity.
Qed.
Lemma high_b speech sr : (4000 <= sr <= 262144)%Z -> let h := capped_high sr (builder_max_freq speech sr) in fin (h : PrimFloat.float) /\ 1999 <= FR h <= 131073 /\ FR h <= IZR sr / 2.
Proof.
  intros H. destruct (half_rate sr H) as [Fh Eh]. assert (B : 4000 <= IZR sr <= 262144) by (split; apply IZR_le; lia). cbn zeta. unfold capped_high.
  destruct (nltb (ndiv (nofZ sr) (nofZ 2)) (builder_max_freq speech sr)) eqn:C; [rewrite Eh; split; [exact Fh|lra]|].
  unfold builder_max_freq in *. destruct speech; [|rewrite Eh; split; [exact Fh|lra]].
  destruct (FR_ofZ 8000 ltac:(lia)) as [E8 F8]. cbn [nltb NumF] in C. change (nofZ 8000) with (F_ofZ 8000) in *. rewrite FR_ltb in C by assumption. rewrite Eh, E8 in C. rewrite E8. split; [exact F8|].
  revert C. case Raux.Rlt_bool_spec; [discriminate|]. intros; lra.
Qed.
Lemma bank_stable {L : Libm PrimFloat.float} (A : accurate L) speech sr n : (4000 <= sr <= 262144)%Z -> (1 <= n <= 32)%nat ->
  Forall stable (fst (make_filters sr n kMinimumFreq (builder_max_freq speech sr))).
Proof.
  intros H Hn. destruct (high_b speech sr H) as (Fh & Hh & Hs). cbn zeta in *. unfold make_filters. cbn [fst]. set (h := capped_high sr (builder_max_freq speech sr)) in *.
  apply Forall_map, Forall_forall. intros cf Hcf. unfold center_freqs in Hcf. apply in_map_iff in Hcf. destruct Hcf as (i & <- & Hi). apply in_seq in Hi.
  destruct (center_b A h n i Fh Hh Hn ltac:(lia)) as [Fc Hc]. apply (channel_stable A); [exact H|exact Fc|]. split; [apply Hc|]. apply Rle_trans with (1 := proj2 Hc). lra.
Qed.
