(** Proofs about the analysis window and the hop (C36, C39). *)
From Coq Require Import ZArith List Bool Reals Lra Lia Arith.
From Verif Require Import Base.Res Base.Num Base.NumR Base.Lists Model.Window Proofs.RealP.
Import ListNotations.
Open Scope R_scope.

(** textbook Hann weight *)
Lemma hann_R (n i : nat) : hann n i = (1 - cos (2 * PI * INR i / (INR n - 1))) / 2.
Proof.
  unfold hann, ndec. rewrite nofnat_INR. cbn [nsub nmul ndiv nofZ NumR mcos mpi LibmR].
  rewrite minus_IZR, <- INR_IZR_INZ. change (10 ^ 1)%Z with 10%Z. lra.
Qed.

Lemma hann_range (n i : nat) : 0 <= hann n i <= 1.
Proof. rewrite hann_R. pose proof (COS_bound (2 * PI * INR i / (INR n - 1))). lra. Qed.

Lemma hann_first (n : nat) : hann n 0 = 0.
Proof. rewrite hann_R. cbn [INR]. replace (2 * PI * 0 / (INR n - 1)) with 0 by (unfold Rdiv; ring). rewrite cos_0. lra. Qed.

Lemma hann_sym (n i : nat) : (2 <= n)%nat -> (i < n)%nat -> hann n (n - 1 - i) = hann n i.
Proof.
  intros Hn Hi. rewrite !hann_R. f_equal. f_equal.
  rewrite !minus_INR by lia. cbn [INR].
  assert (2 <= INR n) by (apply (le_INR 2); assumption).
  replace (2 * PI * (INR n - 1 - INR i) / (INR n - 1))
    with (- (2 * PI * INR i / (INR n - 1)) + 2 * INR 1 * PI) by (cbn [INR]; field; lra).
  rewrite cos_period, cos_neg. reflexivity.
Qed.

Lemma hann_last (n : nat) : (2 <= n)%nat -> hann n (n - 1) = 0.
Proof.
  intros H. replace (n - 1)%nat with (n - 1 - 0)%nat by lia.
  rewrite hann_sym by lia. apply hann_first.
Qed.

Lemma hann_mid (n i : nat) : (2 <= n)%nat -> (2 * i + 1 = n)%nat -> hann n i = 1.
Proof.
  intros Hn Hi. rewrite hann_R.
  replace (INR n - 1) with (2 * INR i).
  - destruct i as [|i]; [lia|].
    assert (0 < INR (S i)) by (apply lt_0_INR; lia).
    replace (2 * PI * INR (S i) / (2 * INR (S i))) with PI by (field; lra). rewrite cos_PI. lra.
  - rewrite <- Hi, plus_INR, mult_INR. cbn [INR]. lra.
Qed.

Lemma apply_hann_spec (w : window R) (sig : list R) :
  length sig = w_size w ->
  exists out, apply_hann w sig = Ret out /\ length out = length sig /\
    forall i, (i < length sig)%nat ->
      nth i out 0 = hann (w_size w) i * nth i sig 0 /\ Rabs (nth i out 0) <= Rabs (nth i sig 0).
Proof.
  intros H. unfold apply_hann.
  replace (Nat.ltb (length sig) (w_size w)) with false by (symmetry; apply Nat.ltb_ge; lia).
  eexists. split; [reflexivity|]. split; [rewrite map_length, seq_length; reflexivity|].
  intros i Hi. rewrite nth_map_seq by assumption.
  replace (Nat.ltb i (w_size w)) with true by (symmetry; apply Nat.ltb_lt; lia).
  change (@n0 R NumR) with 0. cbn [nmul NumR]. split; [reflexivity|].
  rewrite Rabs_mult. pose proof (hann_range (w_size w) i) as [A B].
  rewrite (Rabs_pos_eq (hann (w_size w) i)) by assumption.
  pose proof (Rabs_pos (nth i sig 0)). nra.
Qed.

(** window size and hop over exact reals *)
Lemma Rround_div a b : (0 <= a)%Z -> (0 < b)%Z -> Rround (IZR a / IZR b) = ((2 * a + b) / (2 * b))%Z.
Proof.
  intros Ha Hb. unfold Rround.
  assert (0 < IZR b) by (apply IZR_lt; assumption).
  assert (0 <= IZR a) by (apply IZR_le; assumption).
  assert (0 <= IZR a / IZR b) by (apply Rmult_le_pos; [assumption|left; apply Rinv_0_lt_compat; assumption]).
  destruct (Rle_dec 0 (IZR a / IZR b)) as [_|n]; [|contradiction].
  replace (IZR a / IZR b + / 2) with (IZR (2 * a + b) / IZR (2 * b)).
  - apply Rfloor_div; lia.
  - rewrite plus_IZR, !mult_IZR. field. lra.
Qed.

Lemma window_size_R sr : (0 <= sr)%Z -> window_size (T:=R) sr = Some ((4 * sr + 25) / 50)%Z.
Proof.
  intros H. unfold window_size, ndec. cbn [nround nmul ndiv nofZ NumR].
  replace (IZR sr * (8 / IZR (10 ^ 2))) with (IZR (2 * sr) / IZR 25)
    by (rewrite mult_IZR; change (10 ^ 2)%Z with 100%Z; lra).
  rewrite Rround_div by lia. f_equal. f_equal; lia.
Qed.

Lemma make_window_R sr : (0 <= sr)%Z ->
  make_window (T:=R) sr = Ret (MkWin (Z.to_nat ((4 * sr + 25) / 50)) kOverlap).
Proof.
  intros H. unfold make_window. rewrite window_size_R by assumption.
  replace (0 <=? (4 * sr + 25) / 50)%Z with true; [reflexivity|].
  symmetry. apply Z.leb_le. apply Z.div_pos; lia.
Qed.

Lemma hop_size_R (n : nat) : hop_size (MkWin n (kOverlap : R)) = Some (Z.of_nat n / 4)%Z.
Proof.
  unfold hop_size, kOverlap. cbn [w_size w_overlap]. unfold nofnat.
  apply ntrunc_quarter. lia.
Qed.

Lemma hop_positive sr w : (44 <= sr)%Z -> make_window (T:=R) sr = Ret w ->
  exists h, hop_size w = Some h /\ (1 <= h)%Z.
Proof.
  intros H E. rewrite make_window_R in E by lia. apply (f_equal (fun r => match r with Ret x => x | _ => w end)) in E. cbv beta iota in E. subst w.
  eexists. split; [apply hop_size_R|].
  rewrite Z2Nat.id by (apply Z.div_pos; lia).
  apply Z.div_le_lower_bound; [lia|]. apply Z.div_le_lower_bound; lia.
Qed.
Lemma hop_zero sr w : (0 <= sr < 44)%Z -> make_window (T:=R) sr = Ret w -> hop_size w = Some 0%Z.
Proof.
  intros H E. rewrite make_window_R in E by lia. apply (f_equal (fun r => match r with Ret x => x | _ => w end)) in E. cbv beta iota in E. subst w.
  rewrite hop_size_R. rewrite Z2Nat.id by (apply Z.div_pos; lia). f_equal.
  apply Z.div_small. split; [apply Z.div_pos; lia|]. apply Z.div_lt_upper_bound; lia.
Qed.
