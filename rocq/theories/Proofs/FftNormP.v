(** Norms of sequences, and what the ideal FFT does to them (C108). *)
From Coq Require Import ZArith List Bool Lia Arith Reals Lra Psatz.
From Coq Require Import ZifyBool ZifyNat.
From Verif Require Import Base.Res Base.Num Base.NumR Base.Lists Base.Cplx Model.MiscMath Model.Fft
  Spec.FftSpec Proofs.RealP Proofs.FftP Proofs.DftP Proofs.XcorrP.
Import ListNotations.
Open Scope R_scope.
Ltac Zify.zify_post_hook ::= Z.div_mod_to_equations.

Lemma sum_le n f g : (forall i, (i < n)%nat -> f i <= g i) -> sum n f <= sum n g.
Proof. induction n as [|n IH]; intros H; cbn [sum]; [lra|]. specialize (IH (fun i Hi => H i ltac:(lia))). specialize (H n ltac:(lia)). lra. Qed.
Lemma sum_nonneg n f : (forall i, (i < n)%nat -> 0 <= f i) -> 0 <= sum n f.
Proof. intros H. rewrite <- (sum_zero n (fun _ => 0)) by reflexivity. apply sum_le, H. Qed.
Lemma sum_abs n f : Rabs (sum n f) <= sum n (fun i => Rabs (f i)).
Proof. induction n as [|n IH]; cbn [sum]; [rewrite Rabs_R0; lra|]. apply Rle_trans with (1 := Rabs_triang _ _). lra. Qed.
Lemma sum_const n c : sum n (fun _ => c) = INR n * c.
Proof. induction n as [|n IH]; [cbn; ring|]. cbn [sum]. rewrite IH, S_INR. ring. Qed.
Lemma sum_pairs h f : sum (2 * h) f = sum h (fun k => f (2 * k)%nat + f (2 * k + 1)%nat).
Proof.
  induction h as [|h IH]; [reflexivity|]. replace (2 * S h)%nat with (S (S (2 * h))) by lia. cbn [sum]. rewrite IH. replace (S (2 * h)) with (2 * h + 1)%nat by lia. ring.
Qed.
Lemma sum_term n f i : (forall j, (j < n)%nat -> 0 <= f j) -> (i < n)%nat -> f i <= sum n f.
Proof.
  induction n as [|n IH]; intros H Hi; [lia|]. cbn [sum]. assert (0 <= sum n f) by (apply sum_nonneg; intros; apply H; lia). pose proof (H n ltac:(lia)).
  destruct (Nat.eq_dec i n) as [->|E]; [lra|]. specialize (IH (fun j Hj => H j ltac:(lia)) ltac:(lia)). lra.
Qed.

Lemma abs_sq a : Rabs a * Rabs a = a * a. Proof. unfold Rabs. destruct (Rcase_abs a); ring. Qed.
Lemma sum_head h f : (1 <= h)%nat -> sum h f = f 0%nat + sum (h - 1) (fun i => f (S i)).
Proof. destruct h as [|h]; [lia|]. intros _. replace (S h - 1)%nat with h by lia. induction h as [|h IH]; [cbn; ring|]. change (sum (S (S h)) f) with (sum (S h) f + f (S h)). rewrite IH. cbn [sum]. ring. Qed.
(** Euclidean norm of the first n terms *)
Definition n2 (n : nat) (f : nat -> R) : R := sqrt (sum n (fun i => f i * f i)).
Lemma ss_nonneg n f : 0 <= sum n (fun i => f i * f i). Proof. apply sum_nonneg. intros. nra. Qed.
Lemma n2_pos n f : 0 <= n2 n f. Proof. apply sqrt_pos. Qed.
Lemma n2_sq n f : n2 n f * n2 n f = sum n (fun i => f i * f i). Proof. apply sqrt_sqrt, ss_nonneg. Qed.
Lemma n2_ext n f g : (forall i, (i < n)%nat -> f i = g i) -> n2 n f = n2 n g.
Proof. intros H. unfold n2. f_equal. apply sum_ext. intros i Hi. rewrite H; auto. Qed.
Lemma n2_le n f g : (forall i, (i < n)%nat -> Rabs (f i) <= g i) -> n2 n f <= n2 n g.
Proof.
  intros H. apply sqrt_le_1_alt, sum_le. intros i Hi. specialize (H i Hi). pose proof (Rabs_pos (f i)). replace (f i * f i) with (Rabs (f i) * Rabs (f i)) by (rewrite <- Rabs_mult, Rabs_pos_eq; nra). nra.
Qed.
Lemma n2_scal n c f : 0 <= c -> n2 n (fun i => c * f i) = c * n2 n f.
Proof.
  intros H. unfold n2. rewrite (sum_ext n _ (fun i => c * c * (f i * f i))) by (intros; ring). rewrite sum_scal, sqrt_mult_alt by nra. rewrite sqrt_square by exact H. reflexivity.
Qed.
Lemma n2_const n c : 0 <= c -> n2 n (fun _ => c) = sqrt (INR n) * c.
Proof. intros H. unfold n2. rewrite sum_const, sqrt_mult_alt by apply pos_INR. rewrite sqrt_square by exact H. reflexivity. Qed.
Lemma n2_bound n f B : 0 <= B -> sum n (fun i => f i * f i) <= B * B -> n2 n f <= B.
Proof. intros H1 H2. unfold n2. rewrite <- (sqrt_square B) by exact H1. apply sqrt_le_1_alt, H2. Qed.
Lemma n2_term n f i : (i < n)%nat -> Rabs (f i) <= n2 n f.
Proof.
  intros Hi. unfold n2. rewrite <- (sqrt_square (Rabs (f i))) by apply Rabs_pos. apply sqrt_le_1_alt. rewrite <- Rabs_mult, Rabs_pos_eq by nra. apply (sum_term n (fun i => f i * f i)); [intros; nra|exact Hi].
Qed.
(** Cauchy and Schwarz *)
Lemma cauchy n f g : sum n (fun i => f i * g i) <= n2 n f * n2 n g.
Proof.
  set (a := n2 n f). set (b := n2 n g). pose proof (n2_pos n f : 0 <= a) as A. pose proof (n2_pos n g : 0 <= b) as B.
  assert (K : 0 <= sum n (fun i => (b * f i - a * g i) * (b * f i - a * g i))) by (apply sum_nonneg; intros i _; apply Rle_0_sqr).
  rewrite (sum_ext n _ (fun i => b * b * (f i * f i) + (a * a * (g i * g i) + -2 * a * b * (f i * g i)))) in K by (intros; ring).
  rewrite !sum_plus, !sum_scal, <- !n2_sq in K. fold a b in K. set (s := sum n (fun i => f i * g i)) in *.
  destruct (Req_dec (a * b) 0) as [Z|Z].
  - rewrite Z. apply Rmult_integral in Z. assert (ZZ : forall h k, n2 n h = 0 -> sum n (fun i => h i * k i) <= 0).
    { intros h k E. rewrite (sum_ext n _ (fun _ => 0)); [rewrite sum_const; lra|]. intros i Hi. pose proof (n2_term n h i Hi) as T. rewrite E in T. pose proof (Rabs_pos (h i)). destruct (Req_dec (h i) 0) as [->|N]; [ring|]. pose proof (Rabs_pos_lt _ N). lra. }
    destruct Z as [Z|Z]; [apply (ZZ f g Z)|]. unfold s. rewrite (sum_ext n _ (fun i => g i * f i)) by (intros; ring). apply (ZZ g f Z).
  - assert (P : 0 < a * b) by nra. nra.
Qed.
Lemma n2_plus n f g : n2 n (fun i => f i + g i) <= n2 n f + n2 n g.
Proof.
  pose proof (n2_pos n f). pose proof (n2_pos n g). apply n2_bound; [lra|]. rewrite (sum_ext n _ (fun i => f i * f i + (g i * g i + 2 * (f i * g i)))) by (intros; ring). rewrite !sum_plus, sum_scal, <- !n2_sq. pose proof (cauchy n f g). nra.
Qed.
Lemma n2_near n f g d : n2 n (fun i => f i - g i) <= d -> n2 n f <= n2 n g + d.
Proof. intros H. rewrite (n2_ext n f (fun i => g i + (f i - g i))) by (intros; ring). apply Rle_trans with (1 := n2_plus _ _ _). lra. Qed.

(** norm of the k-th pair of a packed buffer *)
Definition pn (f : nat -> R) (k : nat) : R := sqrt (f (2 * k)%nat * f (2 * k)%nat + f (2 * k + 1)%nat * f (2 * k + 1)%nat).
Lemma pn_pos f k : 0 <= pn f k. Proof. apply sqrt_pos. Qed.
Lemma pn_sq f k : pn f k * pn f k = f (2 * k)%nat * f (2 * k)%nat + f (2 * k + 1)%nat * f (2 * k + 1)%nat. Proof. apply sqrt_sqrt. nra. Qed.
Lemma n2_pn h f : n2 h (pn f) = n2 (2 * h) f.
Proof. unfold n2. f_equal. rewrite sum_pairs. apply sum_ext. intros k _. apply pn_sq. Qed.
Lemma pn_cross f g k : (Rabs (f (2 * k)%nat) + Rabs (f (2 * k + 1)%nat)) * (Rabs (g (2 * k)%nat) + Rabs (g (2 * k + 1)%nat)) <= 2 * (pn f k * pn g k).
Proof.
  assert (K : forall a b p, 0 <= p -> p * p = a * a + b * b -> Rabs a + Rabs b <= sqrt 2 * p).
  { intros a b p Hp E. pose proof (Rabs_pos a). pose proof (Rabs_pos b). assert (A2 : Rabs a * Rabs a = a * a) by apply abs_sq. assert (B2 : Rabs b * Rabs b = b * b) by apply abs_sq.
    pose proof (sqrt_sqrt 2 ltac:(lra)) as S2. pose proof (sqrt_pos 2). assert (0 <= sqrt 2 * p) by (apply Rmult_le_pos; assumption). apply Rsqr_incr_0_var; [unfold Rsqr|assumption]. replace (sqrt 2 * p * (sqrt 2 * p)) with ((sqrt 2 * sqrt 2) * (p * p)) by ring. rewrite S2, E. pose proof (Rle_0_sqr (Rabs a - Rabs b)) as Q. unfold Rsqr in Q. rewrite <- A2, <- B2. lra. }
  pose proof (K _ _ _ (pn_pos f k) (pn_sq f k)) as F1. pose proof (K _ _ _ (pn_pos g k) (pn_sq g k)) as G1. pose proof (sqrt_sqrt 2 ltac:(lra)) as S2.
  replace (2 * (pn f k * pn g k)) with ((sqrt 2 * pn f k) * (sqrt 2 * pn g k)) by (replace (sqrt 2 * pn f k * (sqrt 2 * pn g k)) with (sqrt 2 * sqrt 2 * (pn f k * pn g k)) by ring; rewrite S2; reflexivity).
  apply Rmult_le_compat; try assumption; pose proof (Rabs_pos (f (2 * k)%nat)); pose proof (Rabs_pos (f (2 * k + 1)%nat)); pose proof (Rabs_pos (g (2 * k)%nat)); pose proof (Rabs_pos (g (2 * k + 1)%nat)); lra.
Qed.

(** the packed product of two packed spectra *)
Definition bin_product (a b : nat -> R) (j : nat) : R :=
  if Nat.ltb j 2 then a j * b j else if Nat.even j then a j * b j + a (j + 1)%nat * b (j + 1)%nat else a j * b (j - 1)%nat - a (j - 1)%nat * b j.
Lemma bin_even a b k : (1 <= k)%nat -> bin_product a b (2 * k) = a (2 * k)%nat * b (2 * k)%nat + a (2 * k + 1)%nat * b (2 * k + 1)%nat.
Proof. intros H. unfold bin_product. replace (Nat.ltb (2 * k) 2) with false by (symmetry; apply Nat.ltb_ge; lia). rewrite Nat.even_mul. reflexivity. Qed.
Lemma bin_odd a b k : (1 <= k)%nat -> bin_product a b (2 * k + 1) = a (2 * k + 1)%nat * b (2 * k)%nat - a (2 * k)%nat * b (2 * k + 1)%nat.
Proof. intros H. unfold bin_product. replace (Nat.ltb (2 * k + 1) 2) with false by (symmetry; apply Nat.ltb_ge; lia). rewrite Nat.even_add, Nat.even_mul. cbn [Nat.even orb Bool.eqb]. replace (2 * k + 1 - 1)%nat with (2 * k)%nat by lia. reflexivity. Qed.

Lemma packed_even h x k : (1 <= k < h)%nat -> smp (packed_dft (2 * h) x) (2 * k) = dft_re (2 * h) x k /\ smp (packed_dft (2 * h) x) (2 * k + 1) = dft_im (2 * h) x k.
Proof. intros H. destruct (packed_nth h x ltac:(lia)) as (_ & _ & C). apply (C k H). Qed.
Lemma ideal_product h x y : (1 <= h)%nat -> exists p, length p = (2 * h)%nat /\ (forall j, (j < 2 * h)%nat -> smp p j = bin_product (smp (packed_dft (2 * h) x)) (smp (packed_dft (2 * h) y)) j) /\
  forall j, (j < 2 * h)%nat -> nth j (inverse_packed (2 * h) (smp p)) 0 = INR (2 * h) * circular (2 * h) x y j.
Proof.
  intros Hh. set (M := (2 * h)%nat). assert (Lq : length (prod_bins (spectrum M x) (spectrum M y)) = M).
  { unfold prod_bins, spectrum. rewrite map_length, combine_length, !map_length, seq_length. lia. }
  destruct (pack_spec h (prod_bins (spectrum M x) (spectrum M y)) ltac:(unfold M in *; lia) Hh) as (q & Q & Q1 & Q2 & Q3 & Q4). exists q. split; [exact Q1|]. split.
  - change (@n0 R NumR) with 0 in *. rewrite prod_bins_nth in Q2, Q3 by (unfold M; lia). cbn [cre fst] in Q2, Q3. destruct (packed_nth h x Hh) as (X0 & X1 & _). destruct (packed_nth h y Hh) as (Y0 & Y1 & _).
    intros j Hj. destruct (Nat.lt_ge_cases j 2) as [J|J].
    + unfold bin_product. replace (Nat.ltb j 2) with true by (symmetry; apply Nat.ltb_lt; exact J). destruct j as [|[|j]]; [| |lia]; unfold smp, M in *.
      * rewrite Q2, X0, Y0, !dft_im_0. ring.
      * rewrite Q3, X1, Y1, !(dft_im_half h) by exact Hh. ring.
    + set (k := (j / 2)%nat). assert (K : (1 <= k < h)%nat) by (unfold k, M in *; lia). destruct (Q4 k K) as [E O]. rewrite prod_bins_nth in E, O by (unfold M; lia). cbn [cre cim fst snd] in E, O.
      destruct (packed_even h x k K) as [XE XO]. destruct (packed_even h y k K) as [YE YO]. fold M in XE, XO, YE, YO.
      assert (C : j = (2 * k)%nat \/ j = (2 * k + 1)%nat) by (unfold k; lia). clearbody k. destruct C as [-> | ->].
      * rewrite bin_even by lia. rewrite XE, XO, YE, YO. exact E.
      * rewrite bin_odd by lia. rewrite XE, XO, YE, YO. exact O.
  - intros j Hj. unfold M in *. rewrite (inverse_product h x y j Hh Hj q Q). rewrite mult_INR. reflexivity.
Qed.

(** Parseval, as an inequality for the packed order *)
Lemma parseval h x : (1 <= h)%nat -> n2 (2 * h) (smp (packed_dft (2 * h) x)) <= sqrt (INR (2 * h)) * n2 (2 * h) x.
Proof.
  intros Hh. destruct (ideal_product h x x Hh) as (p & Lp & Hp & Hi). specialize (Hi 0%nat ltac:(lia)). unfold inverse_packed in Hi. rewrite nth_map_seq in Hi by lia.
  set (A := smp (packed_dft (2 * h) x)) in *. replace (2 * h / 2 - 1)%nat with (h - 1)%nat in Hi by lia.
  rewrite (sum_ext (h - 1) _ (fun i => 2 * (A (2 * S i)%nat * A (2 * S i)%nat + A (2 * S i + 1)%nat * A (2 * S i + 1)%nat))) in Hi.
  2:{ intros i H. cbv zeta. unfold angle. cbn [INR]. rewrite Rmult_0_r. unfold Rdiv. rewrite Rmult_0_l, cos_0, sin_0. rewrite (Hp (2 * S i)%nat) by lia. rewrite bin_even by lia. ring. }
  rewrite (Hp 0%nat), (Hp 1%nat) in Hi by lia. cbn [INR] in Hi. rewrite Rmult_0_r, cos_0, Rmult_1_r in Hi. unfold bin_product in Hi. cbn [Nat.ltb Nat.leb] in Hi.
  assert (CC : circular (2 * h) x x 0 = sum (2 * h) (fun i => x i * x i)).
  { unfold circular. apply sum_ext. intros i Hx. rewrite Nat.add_0_r, Nat.mod_small by lia. reflexivity. }
  rewrite CC in Hi. assert (ST : sum (2 * h) (fun i => A i * A i) = A 0%nat * A 0%nat + A 1%nat * A 1%nat + sum (h - 1) (fun i => A (2 * S i)%nat * A (2 * S i)%nat + A (2 * S i + 1)%nat * A (2 * S i + 1)%nat)).
  { rewrite sum_pairs, sum_head by exact Hh. reflexivity. }
  rewrite sum_scal in Hi. assert (P : 0 <= sum (h - 1) (fun i => A (2 * S i)%nat * A (2 * S i)%nat + A (2 * S i + 1)%nat * A (2 * S i + 1)%nat)) by (apply sum_nonneg; intros; nra).
  unfold n2. rewrite <- sqrt_mult_alt by apply pos_INR. apply sqrt_le_1_alt. rewrite ST. lra.
Qed.
(** the unscaled inverse is at most twice the sum of the sizes *)
Lemma inverse_bound h p j : (1 <= h)%nat -> (j < 2 * h)%nat -> Rabs (nth j (inverse_packed (2 * h) p) 0) <= 2 * sum (2 * h) (fun i => Rabs (p i)).
Proof.
  intros Hh Hj. unfold inverse_packed. rewrite nth_map_seq by exact Hj. replace (2 * h / 2 - 1)%nat with (h - 1)%nat by lia. rewrite sum_pairs.
  assert (B : forall k n, Rabs (2 * (p (2 * k)%nat * cos (angle (2 * h) k n) - p (2 * k + 1)%nat * sin (angle (2 * h) k n))) <= 2 * (Rabs (p (2 * k)%nat) + Rabs (p (2 * k + 1)%nat))).
  { intros k n. rewrite Rabs_mult, (Rabs_pos_eq 2) by lra. apply Rmult_le_compat_l; [lra|]. unfold Rminus. apply Rle_trans with (1 := Rabs_triang _ _). rewrite Rabs_Ropp, !Rabs_mult. pose proof (COS_bound (angle (2 * h) k n)). pose proof (SIN_bound (angle (2 * h) k n)).
    assert (Rabs (cos (angle (2 * h) k n)) <= 1) by (apply Rabs_le; lra). assert (Rabs (sin (angle (2 * h) k n)) <= 1) by (apply Rabs_le; lra). pose proof (Rabs_pos (p (2 * k)%nat)). pose proof (Rabs_pos (p (2 * k + 1)%nat)). nra. }
  assert (S1 : Rabs (sum (h - 1) (fun i => let k := S i in 2 * (p (2 * k)%nat * cos (angle (2 * h) k j) - p (2 * k + 1)%nat * sin (angle (2 * h) k j)))) <= 2 * sum (h - 1) (fun i => Rabs (p (2 * S i)%nat) + Rabs (p (2 * S i + 1)%nat))).
  { apply Rle_trans with (1 := sum_abs _ _). rewrite <- sum_scal. apply sum_le. intros i Hi. apply B. }
  rewrite (sum_head h (fun k => Rabs (p (2 * k)%nat) + Rabs (p (2 * k + 1)%nat))) by exact Hh. cbn beta. change (2 * 0)%nat with 0%nat. change (0 + 1)%nat with 1%nat.
  assert (C1 : Rabs (p 1%nat * cos (PI * INR j)) <= Rabs (p 1%nat)). { rewrite Rabs_mult. pose proof (COS_bound (PI * INR j)). assert (Rabs (cos (PI * INR j)) <= 1) by (apply Rabs_le; lra). pose proof (Rabs_pos (p 1%nat)). nra. }
  apply Rle_trans with (1 := Rabs_triang _ _). pose proof (Rabs_triang (p 0%nat) (p 1%nat * cos (PI * INR j))). pose proof (Rabs_pos (p 0%nat)). pose proof (Rabs_pos (p 1%nat)). lra.
Qed.
Lemma inverse_linear h p q j : (1 <= h)%nat -> (j < 2 * h)%nat ->
  nth j (inverse_packed (2 * h) p) 0 - nth j (inverse_packed (2 * h) q) 0 = nth j (inverse_packed (2 * h) (fun i => p i - q i)) 0.
Proof.
  intros Hh Hj. unfold inverse_packed. rewrite !nth_map_seq by exact Hj. cbv zeta.
  assert (E : forall K, sum K (fun i => 2 * ((p (2 * S i)%nat - q (2 * S i)%nat) * cos (angle (2 * h) (S i) j) - (p (2 * S i + 1)%nat - q (2 * S i + 1)%nat) * sin (angle (2 * h) (S i) j))) =
    sum K (fun i => 2 * (p (2 * S i)%nat * cos (angle (2 * h) (S i) j) - p (2 * S i + 1)%nat * sin (angle (2 * h) (S i) j))) - sum K (fun i => 2 * (q (2 * S i)%nat * cos (angle (2 * h) (S i) j) - q (2 * S i + 1)%nat * sin (angle (2 * h) (S i) j)))).
  { induction K as [|K IH]; [cbn [sum]; ring|]. cbn [sum]. rewrite IH. ring. }
  rewrite E. ring.
Qed.
Lemma packed_linear h x y j : (1 <= h)%nat -> (j < 2 * h)%nat ->
  smp (packed_dft (2 * h) x) j - smp (packed_dft (2 * h) y) j = smp (packed_dft (2 * h) (fun i => x i - y i)) j.
Proof.
  intros Hh Hj. unfold smp, packed_dft. rewrite !nth_map_seq by exact Hj.
  assert (RE : forall k, dft_re (2 * h) x k - dft_re (2 * h) y k = dft_re (2 * h) (fun i => x i - y i) k).
  { intros k. unfold dft_re. generalize (2 * h)%nat at 1 3 5. induction n as [|n IH]; cbn [sum]; [ring|]. lra. }
  assert (IM : forall k, dft_im (2 * h) x k - dft_im (2 * h) y k = dft_im (2 * h) (fun i => x i - y i) k).
  { intros k. unfold dft_im. generalize (2 * h)%nat at 1 3 5. induction n as [|n IH]; cbn [sum]; [ring|]. lra. }
  destruct (Nat.eqb j 1); [apply RE|]. destruct (Nat.even j); [apply RE|apply IM].
Qed.
