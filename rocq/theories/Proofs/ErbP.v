(** Proofs about centre frequencies (C40). *)
From Coq Require Import ZArith List Bool Reals Lra Lia Arith Sorted.
From Verif Require Import Base.Res Base.Num Base.NumR Base.Cplx Base.Lists Base.Mat Model.Amatrix
  Model.Erb Proofs.RealP.
Import ListNotations.
Open Scope R_scope.

Definition erb_c : R := earQ * minBW.
Lemma erb_c_pos : 0 < erb_c.
Proof. unfold erb_c, earQ, minBW, ndec. cbn [ndiv nofZ NumR]. change (10 ^ 5)%Z with 100000%Z.
  change (10 ^ 1)%Z with 10%Z. lra. Qed.

Lemma center_freqs_R (low high : R) (n : nat) :
  center_freqs low high n =
  map (fun i => - erb_c + exp (INR (S i) * ((ln (low + erb_c) - ln (high + erb_c)) / INR n)) * (high + erb_c))
      (seq 0 n).
Proof.
  unfold center_freqs. apply map_ext. intros i. rewrite !nofnat_INR.
  unfold erb_c. cbn [nadd nmul nopp ndiv NumR mexp mlog LibmR].
  do 3 f_equal. f_equal. f_equal. lra.
Qed.

Lemma center_freqs_length (low high : R) n : length (center_freqs low high n) = n.
Proof. rewrite center_freqs_R, map_length, seq_length. reflexivity. Qed.

Lemma nth_center_freqs (low high : R) n i : (i < n)%nat ->
  nth i (center_freqs low high n) 0 =
  - erb_c + exp (INR (S i) * ((ln (low + erb_c) - ln (high + erb_c)) / INR n)) * (high + erb_c).
Proof. intros H. rewrite center_freqs_R, nth_map_seq by assumption. reflexivity. Qed.

Section Order.
  Variables (low high : R) (n : nat).
  Hypothesis (Hl : 0 <= low) (Hh : low < high) (Hn : (1 <= n)%nat).

  Let D := high + erb_c.
  Let e := (ln (low + erb_c) - ln D) / INR n.

  Lemma e_neg : e < 0.
  Proof.
    pose proof erb_c_pos. unfold e, D.
    assert (ln (low + erb_c) < ln (high + erb_c)) by (apply ln_increasing; lra).
    assert (0 < INR n) by (apply lt_0_INR; lia).
    unfold Rdiv. apply Ropp_lt_cancel. rewrite Ropp_0, Ropp_mult_distr_l.
    apply Rmult_lt_0_compat; [lra|apply Rinv_0_lt_compat; assumption].
  Qed.

  Lemma center_freqs_decr i j : (i < j)%nat -> (j < n)%nat ->
    nth j (center_freqs low high n) 0 < nth i (center_freqs low high n) 0.
  Proof.
    intros Hij Hj. rewrite !nth_center_freqs by lia. fold D. fold e.
    pose proof erb_c_pos. assert (0 < D) by (unfold D; lra).
    apply Rplus_lt_compat_l, Rmult_lt_compat_r; [assumption|].
    apply exp_increasing. pose proof e_neg.
    assert (INR (S i) < INR (S j)) by (apply lt_INR; lia). nra.
  Qed.

  Lemma center_freqs_lowest : nth (n - 1) (center_freqs low high n) 0 = low.
  Proof.
    rewrite nth_center_freqs by lia. fold D. fold e. replace (S (n - 1)) with n by lia.
    assert (0 < INR n) by (apply lt_0_INR; lia).
    replace (INR n * e) with (ln (low + erb_c) - ln D) by (unfold e; field; lra).
    pose proof erb_c_pos. assert (0 < D) by (unfold D; lra).
    unfold Rminus. rewrite exp_plus, exp_Ropp, !exp_ln by lra. field. lra.
  Qed.

  Lemma center_freqs_below i : (i < n)%nat -> nth i (center_freqs low high n) 0 < high.
  Proof.
    intros Hi. rewrite nth_center_freqs by assumption. fold D. fold e.
    pose proof erb_c_pos. assert (0 < D) by (unfold D; lra). pose proof e_neg.
    assert (exp (INR (S i) * e) < 1).
    { rewrite <- exp_0. apply exp_increasing. assert (0 < INR (S i)) by (apply lt_0_INR; lia). nra. }
    unfold D in *. nra.
  Qed.

  (** as reported (ascending) *)
  Lemma reported_center_freqs :
    let l := rev (center_freqs low high n) in
    length l = n /\ nth 0 l 0 = low /\
    (forall i j, (i < j < n)%nat -> nth i l 0 < nth j l 0) /\
    (forall i, (i < n)%nat -> low <= nth i l 0 < high).
  Proof.
    intros l. pose proof (center_freqs_length low high n) as EL.
    assert (Hl0 : nth 0 l 0 = low).
    { unfold l. rewrite rev_nth by lia. rewrite EL. replace (n - 1)%nat with (n - 1)%nat by lia.
      apply center_freqs_lowest. }
    assert (Hmono : forall i j, (i < j < n)%nat -> nth i l 0 < nth j l 0).
    { intros i j H. unfold l. rewrite !rev_nth by lia. rewrite EL. apply center_freqs_decr; lia. }
    split; [unfold l; rewrite rev_length; exact EL|]. split; [exact Hl0|]. split; [exact Hmono|].
    intros i Hi. split.
    - destruct i as [|i]; [lra|]. rewrite <- Hl0. left. apply Hmono; lia.
    - unfold l. rewrite rev_nth by lia. apply center_freqs_below. lia.
  Qed.
End Order.
