(** The ideal FFT: orthogonality, the wrappers as a Fourier transform pair, correlation through the spectrum. *)
From Coq Require Import ZArith List Bool Lia Arith Reals Lra.
From Coq Require Import ZifyBool ZifyNat.
From Verif Require Import Base.Res Base.Num Base.NumR Base.Lists Base.Cplx Model.MiscMath Model.Fft
  Spec.FftSpec Proofs.RealP Proofs.FftP.
Import ListNotations.
Open Scope R_scope.
Ltac Zify.zify_post_hook ::= Z.div_mod_to_equations.

(** *** finite sums *)
Lemma sum_ext n f g : (forall i, (i < n)%nat -> f i = g i) -> sum n f = sum n g.
Proof. induction n as [|n IH]; intros H; [reflexivity|]. cbn [sum]. rewrite IH, H; [reflexivity|lia|intros; apply H; lia]. Qed.
Lemma sum_plus n f g : sum n (fun i => f i + g i) = sum n f + sum n g.
Proof. induction n as [|n IH]; cbn [sum]; [lra|]. rewrite IH. lra. Qed.
Lemma sum_scal n c f : sum n (fun i => c * f i) = c * sum n f.
Proof. induction n as [|n IH]; cbn [sum]; [lra|]. rewrite IH. lra. Qed.
Lemma sum_scal_r n c f : sum n (fun i => f i * c) = sum n f * c.
Proof. induction n as [|n IH]; cbn [sum]; [lra|]. rewrite IH. lra. Qed.
Lemma sum_zero n f : (forall i, (i < n)%nat -> f i = 0) -> sum n f = 0.
Proof. induction n as [|n IH]; intros H; [reflexivity|]. cbn [sum]. rewrite IH, H; [lra|lia|intros; apply H; lia]. Qed.
Lemma sum_exchange n m f : sum n (fun i => sum m (fun j => f i j)) = sum m (fun j => sum n (fun i => f i j)).
Proof.
  induction n as [|n IH]; cbn [sum]; [symmetry; apply sum_zero; reflexivity|].
  rewrite IH, <- sum_plus. reflexivity.
Qed.
Lemma sum_one n f k : (k < n)%nat -> (forall i, (i < n)%nat -> i <> k -> f i = 0) -> sum n f = f k.
Proof.
  induction n as [|n IH]; intros Hk H; [lia|]. cbn [sum]. destruct (Nat.eq_dec k n) as [->|E].
  - rewrite sum_zero; [lra|]. intros i Hi. apply H; lia.
  - rewrite IH, (H n); [lra|lia|congruence|lia|]. intros i Hi Ei. apply H; lia.
Qed.
Lemma sum_prod n m f g : sum n f * sum m g = sum n (fun i => sum m (fun j => f i * g j)).
Proof.
  rewrite <- sum_scal_r. apply sum_ext. intros i _. now rewrite sum_scal.
Qed.
Lemma sum_extend n m f : (n <= m)%nat -> (forall i, (n <= i < m)%nat -> f i = 0) -> sum m f = sum n f.
Proof.
  induction m as [|m IH]; intros L H; [now replace n with 0%nat by lia|].
  destruct (Nat.eq_dec n (S m)) as [->|E]; [reflexivity|].
  cbn [sum]. rewrite IH, (H m); [lra|lia|lia|]. intros i Hi. apply H. lia.
Qed.

(** *** the kernel *)
Definition kernel (h : nat) (m : Z) : R :=
  1 + cos (PI * IZR m) + sum (h - 1) (fun i => 2 * cos (PI * INR (S i) * IZR m / INR h)).

Lemma sin_int m : sin (PI * IZR m) = 0.
Proof. apply sin_eq_0_1. exists m. ring. Qed.
Lemma cos_int2 m : cos (2 * (PI * IZR m)) = 1.
Proof. rewrite cos_2a_sin, sin_int. ring. Qed.

Lemma telescoped (h : nat) (a : R) (k : nat) :
  sin (a / 2) * sum k (fun i => 2 * cos (INR (S i) * a)) = sin (INR k * a + a / 2) - sin (a / 2).
Proof.
  induction k as [|k IH]; cbn [sum].
  - cbn [INR]. rewrite Rmult_0_l, Rplus_0_l. ring.
  - rewrite Rmult_plus_distr_l, IH. rewrite S_INR.
    replace (INR k * a + a / 2) with ((INR k + 1) * a - a / 2) by lra.
    rewrite sin_minus, sin_plus. ring.
Qed.

Lemma kernel_zero h m : (1 <= h)%nat -> (m mod (2 * Z.of_nat h) <> 0)%Z -> kernel h m = 0.
Proof.
  intros Hh Hm. assert (H0 : INR h <> 0) by (apply not_0_INR; lia).
  set (a := PI * IZR m / INR h).
  assert (Ha : INR h * a = PI * IZR m) by (unfold a; field; exact H0).
  assert (N0 : sin (a / 2) <> 0).
  { intros C. apply sin_eq_0_0 in C. destruct C as [k Hk].
    assert (E : IZR m = IZR (k * (2 * Z.of_nat h))).
    { rewrite !mult_IZR, <- INR_IZR_INZ. pose proof PI_neq0.
      apply Rmult_eq_reg_l with PI; [|assumption]. rewrite <- Ha. replace a with (2 * (IZR k * PI)) by lra. ring. }
    apply eq_IZR in E. apply Hm. rewrite E. apply Z.mod_mul. lia. }
  apply Rmult_eq_reg_l with (sin (a / 2)); [|exact N0]. rewrite Rmult_0_r. unfold kernel.
  rewrite Rmult_plus_distr_l.
  rewrite (sum_ext _ _ (fun i => 2 * cos (INR (S i) * a))).
  2:{ intros i _. f_equal. f_equal. unfold a. field. exact H0. }
  rewrite (telescoped h). rewrite minus_INR by lia. change (INR 1) with 1.
  replace ((INR h - 1) * a + a / 2) with (PI * IZR m - a / 2) by lra.
  rewrite sin_minus, sin_int. ring.
Qed.
Lemma kernel_mult h q : (1 <= h)%nat -> kernel h (q * (2 * Z.of_nat h)) = 2 * INR h.
Proof.
  intros Hh. assert (H0 : INR h <> 0) by (apply not_0_INR; lia).
  unfold kernel. replace (PI * IZR (q * (2 * Z.of_nat h))) with (2 * (PI * IZR (q * Z.of_nat h))) by
    (rewrite !mult_IZR; ring).
  rewrite cos_int2. rewrite (sum_ext _ _ (fun i => 2 * 1)).
  - assert (S2 : forall n, sum n (fun _ => 2 * 1) = 2 * INR n).
    { induction n as [|n IH]; [cbn; lra|]. cbn [sum]. rewrite IH, S_INR. lra. }
    rewrite S2, minus_INR by lia. change (INR 1) with 1. lra.
  - intros i _. f_equal. rewrite <- (cos_int2 (Z.of_nat (S i) * q)). f_equal.
    rewrite !mult_IZR, <- !INR_IZR_INZ. field. exact H0.
Qed.

Lemma angle_h h k n : (1 <= h)%nat -> angle (2 * h) k n = PI * INR k * INR n / INR h.
Proof.
  intros H. unfold angle. rewrite mult_INR. change (INR 2) with 2. field. apply not_0_INR. lia.
Qed.

(** the inverse of a packed buffer that is a sum of phases *)
Lemma inverse_of_phases h (p : nat -> R) (N : nat) (w : nat -> R) (ph : nat -> Z) (j : nat) :
  (1 <= h)%nat -> (j < 2 * h)%nat ->
  p 0%nat = sum N w ->
  p 1%nat = sum N (fun n => w n * cos (PI * IZR (ph n))) ->
  (forall k, (1 <= k < h)%nat -> p (2 * k)%nat = sum N (fun n => w n * cos (PI * INR k * IZR (ph n) / INR h))) ->
  (forall k, (1 <= k < h)%nat -> p (2 * k + 1)%nat = - sum N (fun n => w n * sin (PI * INR k * IZR (ph n) / INR h))) ->
  nth j (inverse_packed (2 * h) p) 0 = sum N (fun n => w n * kernel h (Z.of_nat j - ph n)).
Proof.
  intros Hh Hj P0 P1 Pe Po. unfold inverse_packed. rewrite nth_map_seq by exact Hj.
  replace (2 * h / 2)%nat with h by lia.
  rewrite (sum_ext (h - 1) _ (fun i => sum N (fun n => w n * (2 * cos (PI * INR (S i) * IZR (Z.of_nat j - ph n) / INR h))))).
  - rewrite P0, P1. rewrite sum_exchange, <- sum_scal_r, <- sum_plus, <- sum_plus.
    apply sum_ext. intros n _. unfold kernel. rewrite sum_scal.
    replace (cos (PI * IZR (Z.of_nat j - ph n))) with (cos (PI * IZR (ph n)) * cos (PI * INR j)).
    + ring.
    + rewrite minus_IZR, <- INR_IZR_INZ. replace (PI * (INR j - IZR (ph n))) with (PI * INR j - PI * IZR (ph n)) by ring.
      rewrite cos_minus, sin_int. ring.
  - intros i Hi. cbn zeta. rewrite Pe, Po by lia. rewrite (angle_h h) by exact Hh.
    rewrite <- !sum_scal_r. replace (2 * (_ - _)) with
      (2 * sum N (fun n => w n * cos (PI * INR (S i) * IZR (ph n) / INR h)) * cos (PI * INR (S i) * INR j / INR h) +
       2 * sum N (fun n => w n * sin (PI * INR (S i) * IZR (ph n) / INR h)) * sin (PI * INR (S i) * INR j / INR h)).
    2:{ rewrite !sum_scal_r. ring. }
    rewrite <- !sum_scal, <- !sum_scal_r, <- sum_plus. apply sum_ext. intros n _.
    rewrite minus_IZR, <- INR_IZR_INZ.
    replace (PI * INR (S i) * (INR j - IZR (ph n)) / INR h)
      with (PI * INR (S i) * INR j / INR h - PI * INR (S i) * IZR (ph n) / INR h).
    + rewrite cos_minus. ring.
    + field. apply not_0_INR. lia.
Qed.

Lemma packed_nth h x : (1 <= h)%nat ->
  nth 0 (packed_dft (2 * h) x) 0 = dft_re (2 * h) x 0 /\
  nth 1 (packed_dft (2 * h) x) 0 = dft_re (2 * h) x h /\
  forall k, (1 <= k < h)%nat -> nth (2 * k) (packed_dft (2 * h) x) 0 = dft_re (2 * h) x k /\
                                nth (2 * k + 1) (packed_dft (2 * h) x) 0 = dft_im (2 * h) x k.
Proof.
  intros Hh. unfold packed_dft. split; [|split].
  - rewrite nth_map_seq by lia. reflexivity.
  - rewrite nth_map_seq by lia. cbn [Nat.eqb]. f_equal. lia.
  - intros k Hk. rewrite !nth_map_seq by lia.
    replace (Nat.eqb (2 * k) 1) with false by (symmetry; apply Nat.eqb_neq; lia).
    replace (Nat.eqb (2 * k + 1) 1) with false by (symmetry; apply Nat.eqb_neq; lia).
    rewrite Nat.even_mul. cbn [Nat.even orb]. replace (Nat.even (2 * k + 1)) with false.
    + split; f_equal; lia.
    + symmetry. rewrite Nat.even_add, Nat.even_mul. reflexivity.
Qed.

Lemma ideal_keeps_length : keeps_length ideal_fft.
Proof.
  split; intros l; cbn; [unfold packed_dft|unfold inverse_packed]; now rewrite map_length, seq_length.
Qed.

Lemma dft_im_0 M x : dft_im M x 0 = 0.
Proof.
  unfold dft_im. rewrite sum_zero; [ring|]. intros i _. unfold angle. cbn [INR].
  replace (2 * PI * 0 * INR i / INR M) with 0 by (unfold Rdiv; ring). rewrite sin_0. ring.
Qed.
Lemma dft_im_half h x : (1 <= h)%nat -> dft_im (2 * h) x h = 0.
Proof.
  intros Hh. unfold dft_im. rewrite sum_zero; [ring|]. intros i _. rewrite angle_h by exact Hh.
  replace (PI * INR h * INR i / INR h) with (PI * IZR (Z.of_nat i)).
  - rewrite sin_int. ring.
  - rewrite <- INR_IZR_INZ. field. apply not_0_INR. lia.
Qed.
Lemma angle_mirror h k n : (1 <= h)%nat -> (k <= 2 * h)%nat ->
  cos (angle (2 * h) (2 * h - k) n) = cos (angle (2 * h) k n) /\
  sin (angle (2 * h) (2 * h - k) n) = - sin (angle (2 * h) k n).
Proof.
  intros Hh Hk. rewrite !angle_h by exact Hh. rewrite minus_INR by exact Hk. rewrite mult_INR. change (INR 2) with 2.
  replace (PI * (2 * INR h - INR k) * INR n / INR h) with (2 * (PI * IZR (Z.of_nat n)) - PI * INR k * INR n / INR h).
  - rewrite cos_minus, sin_minus, cos_int2. rewrite (sin_2a (PI * IZR (Z.of_nat n))), sin_int. split; ring.
  - rewrite <- INR_IZR_INZ. field. apply not_0_INR. lia.
Qed.
Lemma dft_mirror h x k : (1 <= h)%nat -> (k <= 2 * h)%nat ->
  dft_re (2 * h) x (2 * h - k) = dft_re (2 * h) x k /\ dft_im (2 * h) x (2 * h - k) = - dft_im (2 * h) x k.
Proof.
  intros Hh Hk. unfold dft_re, dft_im. split.
  - apply sum_ext. intros n _. now rewrite (proj1 (angle_mirror h k n Hh Hk)).
  - f_equal. replace (- sum (2 * h) (fun n => x n * sin (angle (2 * h) k n)))
      with ((-1) * sum (2 * h) (fun n => x n * sin (angle (2 * h) k n))) by ring.
    rewrite <- sum_scal. apply sum_ext. intros n _. rewrite (proj2 (angle_mirror h k n Hh Hk)). ring.
Qed.

(** the whole spectrum *)
Definition spectrum (M : nat) (x : nat -> R) : list (R * R) := map (fun k => (dft_re M x k, dft_im M x k)) (seq 0 M).

Lemma unpack_packed h x : (1 <= h)%nat -> unpack_spectrum (packed_dft (2 * h) x) = Ret (spectrum (2 * h) x).
Proof.
  intros Hh.
  destruct (unpack_spec h (packed_dft (2 * h) x)) as (s & S0 & S1 & S2 & S3 & S4 & S5);
    [unfold packed_dft; now rewrite map_length, seq_length|exact Hh|].
  destruct (packed_nth h x Hh) as (A & B & C). rewrite S0. f_equal.
  apply (list_ext _ _ (0, 0)).
  - unfold spectrum. now rewrite map_length, seq_length.
  - intros k Hk. assert (S1' : @length (R * R) s = (2 * h)%nat) by exact S1. rewrite S1' in Hk. unfold spectrum. rewrite nth_map_seq by exact Hk.
    change (@n0 R NumR) with 0 in *. unfold cplx in *.
    destruct (Nat.eq_dec k 0) as [->|K0]; [rewrite S2, A, dft_im_0; reflexivity|].
    destruct (Nat.eq_dec k h) as [->|K1]; [rewrite S3, B, dft_im_half by exact Hh; reflexivity|].
    destruct (Nat.lt_ge_cases k h) as [K2|K2].
    + rewrite S4 by lia. destruct (C k ltac:(lia)) as [-> ->]. reflexivity.
    + rewrite S5 by lia. destruct (C (2 * h - k)%nat ltac:(lia)) as [-> ->].
      destruct (dft_mirror h x (2 * h - k) Hh ltac:(lia)) as [M1 M2].
      replace (2 * h - (2 * h - k))%nat with k in M1, M2 by lia. rewrite M1, M2. cbn. f_equal. ring.
Qed.

(** the inverse of the spectrum, sample j *)
Lemma inverse_packed_dft h x j : (1 <= h)%nat -> (j < 2 * h)%nat ->
  nth j (inverse_packed (2 * h) (smp (packed_dft (2 * h) x))) 0 = 2 * INR h * x j.
Proof.
  intros Hh Hj. destruct (packed_nth h x Hh) as (A & B & C).
  assert (H0 : INR h <> 0) by (apply not_0_INR; lia).
  rewrite (inverse_of_phases h _ (2 * h) x (fun n => Z.of_nat n) j Hh Hj).
  - rewrite (sum_one (2 * h) _ j Hj).
    + rewrite Z.sub_diag. pose proof (kernel_mult h 0 Hh) as K. cbn [Z.mul] in K. rewrite K. ring.
    + intros i Hi Ei. rewrite kernel_zero; [ring|exact Hh|].
      intros Z0. destruct (Z.lt_ge_cases (Z.of_nat j - Z.of_nat i) 0).
      * rewrite <- (Z.mod_add _ 1) in Z0 by lia. rewrite Z.mod_small in Z0; lia.
      * rewrite Z.mod_small in Z0; lia.
  - unfold smp. rewrite A. unfold dft_re. apply sum_ext. intros n _. unfold angle. cbn [INR].
    replace (2 * PI * 0 * INR n / INR (2 * h)) with 0 by (unfold Rdiv; ring). rewrite cos_0. ring.
  - unfold smp. rewrite B. unfold dft_re. apply sum_ext. intros n _. rewrite angle_h by exact Hh.
    rewrite <- INR_IZR_INZ. f_equal. f_equal. field. exact H0.
  - intros k Hk. unfold smp. rewrite (proj1 (C k Hk)). unfold dft_re. apply sum_ext. intros n _.
    now rewrite angle_h, <- INR_IZR_INZ by exact Hh.
  - intros k Hk. unfold smp. rewrite (proj2 (C k Hk)). unfold dft_im. f_equal. apply sum_ext. intros n _.
    now rewrite angle_h, <- INR_IZR_INZ by exact Hh.
Qed.
