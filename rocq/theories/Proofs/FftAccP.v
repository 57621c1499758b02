(** Rounding errors in the spectra and their product (C108). *)
From Coq Require Import ZArith List Bool Lia Arith Reals Lra Psatz Floats.
From Coq Require Import ZifyBool ZifyNat.
From Flocq Require Import Core.Core IEEE754.BinarySingleNaN IEEE754.PrimFloat.
From Verif Require Import Base.Res Base.Num Base.NumR Base.NumF Base.Lists Base.Cplx Model.MiscMath Model.Fft
  Spec.FftSpec Spec.FftAccSpec Proofs.RealP Proofs.FftP Proofs.DftP Proofs.XcorrP Proofs.B64P Proofs.RoundP Proofs.FftNormP.
Import ListNotations.
Open Scope R_scope.
Ltac Zify.zify_post_hook ::= Z.div_mod_to_equations.
Local Notation F := PrimFloat.float.

(** *** the packed product, in any arithmetic *)
Section Packed.
  Context {T : Type} {N : Num T}.
  Lemma product_packed h (a b : list T) : length a = (2 * h)%nat -> length b = (2 * h)%nat -> (1 <= h)%nat ->
    exists fa fb q, unpack_spectrum a = Ret fa /\ unpack_spectrum b = Ret fb /\ length fa = (2 * h)%nat /\ length fb = (2 * h)%nat /\
      pack_spectrum (2 * h) (map (fun p => cmul (fst p) (snd p)) (combine fa (map cconj fb))) = Ret q /\ length q = (2 * h)%nat /\
      (forall j, (j < 2)%nat -> nth j q n0 = nsub (nmul (nth j a n0) (nth j b n0)) (nmul n0 (nopp n0))) /\
      forall k, (1 <= k < h)%nat ->
        nth (2 * k) q n0 = nsub (nmul (nth (2 * k) a n0) (nth (2 * k) b n0)) (nmul (nth (2 * k + 1) a n0) (nopp (nth (2 * k + 1) b n0))) /\
        nth (2 * k + 1) q n0 = nadd (nmul (nth (2 * k) a n0) (nopp (nth (2 * k + 1) b n0))) (nmul (nth (2 * k + 1) a n0) (nth (2 * k) b n0)).
  Proof.
    intros La Lb Hh. destruct (unpack_spec h a La Hh) as (fa & A0 & A1 & A2 & A3 & A4 & _). destruct (unpack_spec h b Lb Hh) as (fb & B0 & B1 & B2 & B3 & B4 & _).
    set (P := map (fun p => cmul (fst p) (snd p)) (combine fa (map cconj fb))).
    assert (LP : length P = (2 * h)%nat) by (unfold P; rewrite map_length, combine_length, map_length; unfold cplx in *; lia).
    assert (NP : forall k, (k < 2 * h)%nat -> nth k P (n0, n0) = cmul (nth k fa (n0, n0)) (cconj (nth k fb (n0, n0)))).
    { intros k Hk. unfold P. set (g := fun p : cplx T * cplx T => cmul (fst p) (snd p)). rewrite (nth_indep (map g _) (n0, n0) (g ((n0, n0), cconj (n0, n0)))) by (rewrite map_length, combine_length, map_length; unfold cplx in *; lia).
      rewrite (map_nth g), combine_nth by (rewrite map_length; unfold cplx in *; lia). unfold g. cbn [fst snd]. f_equal. apply (map_nth cconj). }
    destruct (pack_spec h P ltac:(unfold cplx in *; lia) Hh) as (q & Q0 & Q1 & Q2 & Q3 & Q4). exists fa, fb, q.
    split; [exact A0|]. split; [exact B0|]. split; [exact A1|]. split; [exact B1|]. split; [exact Q0|]. split; [exact Q1|]. split.
    - intros j Hj. destruct j as [|[|j]]; [| |lia].
      + rewrite Q2, NP by lia. rewrite A2, B2. reflexivity.
      + rewrite Q3, NP by lia. rewrite A3, B3. reflexivity.
    - intros k Hk. destruct (Q4 k Hk) as [E O]. rewrite E, O, NP by lia. rewrite A4, B4 by exact Hk. split; reflexivity.
  Qed.
End Packed.

(** *** one bin of the product in binary64 *)
Lemma rnd_err' z : Rabs (rnd z - z) <= u * (Rabs z + tiny).
Proof. pose proof (Rabs_pos z). assert (0 < tiny) by apply bpow_gt_0. apply rnd_err; lra. Qed.
Lemma op_val (x : F) z : (Rabs (rnd z) < fmax -> FR x = rnd z /\ fin x) -> Rabs z <= bpow radix2 900 -> fin x /\ Rabs (FR x - z) <= u * (Rabs z + tiny).
Proof.
  intros H Hz. destruct H as [E Fx].
  - apply (rnd_fmax _ (bpow radix2 900)); [exact Hz|unfold tiny; apply bpow_le; lia|unfold big; apply bpow_le; lia].
  - split; [exact Fx|]. rewrite E. apply rnd_err'.
Qed.
Lemma opp_val x : FR (@nopp F _ x) = - FR x /\ (fin x -> fin (@nopp F _ x)).
Proof.
  unfold FR, fin. cbn [nopp NumF]. rewrite opp_equiv. split; [apply B2R_Bopp|]. intros H. rewrite is_finite_Bopp. exact H.
Qed.
Lemma two_terms (x : F) p q zp zq A : fin p -> fin q -> Rabs (FR p - zp) <= u * (Rabs zp + tiny) -> Rabs (FR q - zq) <= u * (Rabs zq + tiny) ->
  Rabs zp + Rabs zq <= A -> A <= bpow radix2 800 -> (Rabs (rnd (FR p + FR q)) < fmax -> FR x = rnd (FR p + FR q) /\ fin x) ->
  fin x /\ Rabs (FR x - (zp + zq)) <= 4 * u * (A + tiny).
Proof.
  intros Fp Fq Ep Eq HA HB Hx. pose proof u_pos as U. pose proof u_small as US. assert (TP : 0 < tiny) by apply bpow_gt_0. pose proof tiny_small. pose proof (Rabs_pos zp). pose proof (Rabs_pos zq).
  assert (Z : Rabs (FR p + FR q) <= (1 + u) * A + 2 * u * tiny).
  { replace (FR p + FR q) with ((FR p - zp) + zp + ((FR q - zq) + zq)) by ring. apply Rle_trans with (1 := Rabs_triang _ _). pose proof (Rabs_triang (FR p - zp) zp). pose proof (Rabs_triang (FR q - zq) zq). nra. }
  destruct (op_val x _ Hx) as [Fx E].
  - apply Rle_trans with (1 := Z). assert (bpow radix2 800 * 4 <= bpow radix2 900). { change 4 with (bpow radix2 2). rewrite <- bpow_plus. apply bpow_le. lia. } assert (1 <= bpow radix2 800) by (change 1 with (bpow radix2 0); apply bpow_le; lia). nra.
  - split; [exact Fx|]. replace (FR x - (zp + zq)) with ((FR x - (FR p + FR q)) + ((FR p - zp) + (FR q - zq))) by ring. apply Rle_trans with (1 := Rabs_triang _ _). pose proof (Rabs_triang (FR p - zp) (FR q - zq)).
    assert (u * Rabs (FR p + FR q) <= u * ((1 + u) * A + 2 * u * tiny)) by (apply Rmult_le_compat_l; lra).
    assert (u * (Rabs zp + Rabs zq) <= u * A) by (apply Rmult_le_compat_l; lra). assert (0 <= A) by lra. assert (u * u <= u * (1 / 10)) by nra. assert (u * u * A <= u * (1 / 10) * A) by nra. assert (u * u * tiny <= u * (1 / 10) * tiny) by nra. assert (0 < u * tiny) by nra. assert (0 <= u * A) by nra. lra.
Qed.
Lemma mul_val x y : fin x -> fin y -> Rabs (FR x * FR y) <= bpow radix2 800 -> fin (@nmul F _ x y) /\ Rabs (FR (@nmul F _ x y) - FR x * FR y) <= u * (Rabs (FR x * FR y) + tiny).
Proof. intros Fx Fy H. apply op_val; [intros G; apply FR_mul; assumption|]. apply Rle_trans with (1 := H). apply bpow_le. lia. Qed.
Lemma bin_sub a b c d A : fin a -> fin b -> fin c -> fin d -> Rabs (FR a * FR b) + Rabs (FR c * FR d) <= A -> A <= bpow radix2 800 ->
  fin (@nsub F _ (nmul a b) (nmul c (nopp d))) /\ Rabs (FR (@nsub F _ (nmul a b) (nmul c (nopp d))) - (FR a * FR b + FR c * FR d)) <= 4 * u * (A + tiny).
Proof.
  intros Fa Fb Fc Fd HA HB. destruct (opp_val d) as [Od Fo]. specialize (Fo Fd). pose proof (Rabs_pos (FR a * FR b)). pose proof (Rabs_pos (FR c * FR d)).
  destruct (mul_val a b Fa Fb ltac:(lra)) as [F1 E1]. destruct (mul_val c (nopp d) Fc Fo) as [F2 E2]. { rewrite Od, Ropp_mult_distr_r_reverse, Rabs_Ropp. lra. }
  destruct (opp_val (nmul c (nopp d))) as [O2 FO2]. specialize (FO2 F2).
  apply (two_terms _ (nmul a b) (nopp (nmul c (nopp d)))); try assumption.
  - rewrite O2. rewrite Od, Ropp_mult_distr_r_reverse, Rabs_Ropp in E2. replace (- FR (nmul c (nopp d)) - FR c * FR d) with (- (FR (nmul c (nopp d)) - - (FR c * FR d))) by ring. rewrite Rabs_Ropp. exact E2.
  - rewrite O2. intros G. apply FR_sub; assumption.
Qed.
Lemma bin_add a b c d A : fin a -> fin b -> fin c -> fin d -> Rabs (FR a * FR b) + Rabs (FR c * FR d) <= A -> A <= bpow radix2 800 ->
  fin (@nadd F _ (nmul a (nopp b)) (nmul c d)) /\ Rabs (FR (@nadd F _ (nmul a (nopp b)) (nmul c d)) - (- (FR a * FR b) + FR c * FR d)) <= 4 * u * (A + tiny).
Proof.
  intros Fa Fb Fc Fd HA HB. destruct (opp_val b) as [Ob Fo]. specialize (Fo Fb). pose proof (Rabs_pos (FR a * FR b)). pose proof (Rabs_pos (FR c * FR d)).
  destruct (mul_val c d Fc Fd ltac:(lra)) as [F1 E1]. destruct (mul_val a (nopp b) Fa Fo) as [F2 E2]. { rewrite Ob, Ropp_mult_distr_r_reverse, Rabs_Ropp. lra. }
  rewrite Ob, Ropp_mult_distr_r_reverse in E2.
  apply (two_terms _ (nmul a (nopp b)) (nmul c d)); try assumption.
  - rewrite Rabs_Ropp. exact HA.
  - intros G. apply FR_add; assumption.
Qed.

(** *** the sum of the sizes of the bins of a product *)
Definition abs_bin (a b : nat -> R) (j : nat) : R :=
  if Nat.ltb j 2 then Rabs (a j * b j) else if Nat.even j then Rabs (a j * b j) + Rabs (a (j + 1)%nat * b (j + 1)%nat) else Rabs (a (j - 1)%nat * b j) + Rabs (a j * b (j - 1)%nat).
Lemma abs_bin_even a b k : (1 <= k)%nat -> abs_bin a b (2 * k) = Rabs (a (2 * k)%nat * b (2 * k)%nat) + Rabs (a (2 * k + 1)%nat * b (2 * k + 1)%nat).
Proof. intros H. unfold abs_bin. replace (Nat.ltb (2 * k) 2) with false by (symmetry; apply Nat.ltb_ge; lia). rewrite Nat.even_mul. reflexivity. Qed.
Lemma abs_bin_odd a b k : (1 <= k)%nat -> abs_bin a b (2 * k + 1) = Rabs (a (2 * k)%nat * b (2 * k + 1)%nat) + Rabs (a (2 * k + 1)%nat * b (2 * k)%nat).
Proof. intros H. unfold abs_bin. replace (Nat.ltb (2 * k + 1) 2) with false by (symmetry; apply Nat.ltb_ge; lia). rewrite Nat.even_add, Nat.even_mul. cbn [Nat.even orb Bool.eqb]. replace (2 * k + 1 - 1)%nat with (2 * k)%nat by lia. reflexivity. Qed.
Lemma abs_bin_pos a b j : 0 <= abs_bin a b j.
Proof. unfold abs_bin. destruct (Nat.ltb j 2); [apply Rabs_pos|]. destruct (Nat.even j); apply Rplus_le_le_0_compat; apply Rabs_pos. Qed.
Lemma bin_abs a b j : Rabs (bin_product a b j) <= abs_bin a b j.
Proof.
  unfold bin_product, abs_bin. destruct (Nat.ltb j 2); [lra|]. destruct (Nat.even j); [apply Rabs_triang|]. unfold Rminus. apply Rle_trans with (1 := Rabs_triang _ _). rewrite Rabs_Ropp. lra.
Qed.
Lemma abs_bin_sum h a b : sum (2 * h) (abs_bin a b) <= 2 * (n2 (2 * h) a * n2 (2 * h) b).
Proof.
  rewrite sum_pairs, <- !n2_pn. apply Rle_trans with (2 * sum h (fun k => pn a k * pn b k)); [|apply Rmult_le_compat_l; [lra|apply cauchy]].
  rewrite <- sum_scal. apply sum_le. intros k Hk. apply Rle_trans with (2 := pn_cross a b k).
  assert (P : forall i j, 0 <= Rabs (a i) * Rabs (b j)) by (intros; apply Rmult_le_pos; apply Rabs_pos).
  destruct (Nat.eq_dec k 0) as [->|K].
  - change (2 * 0)%nat with 0%nat. change (0 + 1)%nat with 1%nat. unfold abs_bin. cbn [Nat.ltb Nat.leb]. rewrite !Rabs_mult. pose proof (P 0%nat 1%nat). pose proof (P 1%nat 0%nat). lra.
  - rewrite abs_bin_even, abs_bin_odd by lia. rewrite !Rabs_mult. lra.
Qed.
Lemma bin_sum h a b : sum (2 * h) (fun j => Rabs (bin_product a b j)) <= 2 * (n2 (2 * h) a * n2 (2 * h) b).
Proof. apply Rle_trans with (2 := abs_bin_sum h a b). apply sum_le. intros. apply bin_abs. Qed.
Lemma bin_diff a b a' b' j : bin_product a b j - bin_product a' b' j = bin_product (fun i => a i - a' i) b j + bin_product a' (fun i => b i - b' i) j.
Proof. unfold bin_product. destruct (Nat.ltb j 2); [ring|]. destruct (Nat.even j); ring. Qed.

(** all the bins of the product in binary64 *)
Lemma bins_near h (a b : list F) q : length a = (2 * h)%nat -> length b = (2 * h)%nat -> Forall fin a -> Forall fin b -> (1 <= h)%nat ->
  n2 (2 * h) (smp (exact a)) <= bpow radix2 200 -> n2 (2 * h) (smp (exact b)) <= bpow radix2 200 ->
  (forall j, (j < 2)%nat -> nth j q n0 = nsub (nmul (nth j a n0) (nth j b n0)) (nmul n0 (nopp n0))) ->
  (forall k, (1 <= k < h)%nat ->
    nth (2 * k) q n0 = nsub (nmul (nth (2 * k) a n0) (nth (2 * k) b n0)) (nmul (nth (2 * k + 1) a n0) (nopp (nth (2 * k + 1) b n0))) /\
    nth (2 * k + 1) q n0 = nadd (nmul (nth (2 * k) a n0) (nopp (nth (2 * k + 1) b n0))) (nmul (nth (2 * k + 1) a n0) (nth (2 * k) b n0))) ->
  forall j, (j < 2 * h)%nat -> fin (nth j q n0) /\
    Rabs (FR (nth j q n0) - bin_product (smp (exact a)) (smp (exact b)) j) <= 4 * u * (abs_bin (smp (exact a)) (smp (exact b)) j + tiny).
Proof.
  intros La Lb Fa Fb Hh Na Nb Q1 Q2 j Hj. set (A := smp (exact a)) in *. set (B := smp (exact b)) in *.
  assert (VA : forall i, (i < 2 * h)%nat -> fin (nth i a n0) /\ FR (nth i a n0) = A i).
  { intros i Hi. split; [rewrite Forall_forall in Fa; apply Fa, nth_In; lia|]. unfold A, smp, exact. change 0 with (FR (@n0 F _)). rewrite map_nth. reflexivity. }
  assert (VB : forall i, (i < 2 * h)%nat -> fin (nth i b n0) /\ FR (nth i b n0) = B i).
  { intros i Hi. split; [rewrite Forall_forall in Fb; apply Fb, nth_In; lia|]. unfold B, smp, exact. change 0 with (FR (@n0 F _)). rewrite map_nth. reflexivity. }
  assert (BD : forall i k, (i < 2 * h)%nat -> (k < 2 * h)%nat -> Rabs (A i * B k) <= bpow radix2 400).
  { intros i k Hi Hk. rewrite Rabs_mult. replace 400%Z with (200 + 200)%Z by reflexivity. rewrite bpow_plus. apply Rmult_le_compat; try apply Rabs_pos; [apply Rle_trans with (1 := n2_term _ A i Hi)|apply Rle_trans with (1 := n2_term _ B k Hk)]; assumption. }
  assert (B8 : 2 * bpow radix2 400 <= bpow radix2 800) by (change 2 with (bpow radix2 1); rewrite <- bpow_plus; apply bpow_le; lia).
  destruct (Nat.lt_ge_cases j 2) as [J|J].
  - destruct (VA j Hj) as [F1 E1]. destruct (VB j Hj) as [F2 E2]. rewrite (Q1 j J). unfold bin_product, abs_bin. replace (Nat.ltb j 2) with true by (symmetry; apply Nat.ltb_lt; exact J).
    pose proof (BD j j Hj Hj). assert (F0 : fin (@n0 F _)) by reflexivity. assert (E0 : FR (@n0 F _) = 0) by reflexivity.
    destruct (bin_sub (nth j a n0) (nth j b n0) n0 n0 (Rabs (A j * B j)) F1 F2 F0 F0) as [R1 R2]; [rewrite E0, E1, E2, Rmult_0_r, Rabs_R0; lra|pose proof (bpow_gt_0 radix2 400); lra|]. split; [exact R1|]. rewrite E0, E1, E2 in R2. replace (A j * B j) with (A j * B j + 0 * 0) at 1 by ring. exact R2.
  - set (k := (j / 2)%nat). assert (K : (1 <= k < h)%nat) by (unfold k; lia). destruct (Q2 k K) as [QE QO]. assert (C : j = (2 * k)%nat \/ j = (2 * k + 1)%nat) by (unfold k; lia). clearbody k.
    destruct (VA (2 * k)%nat ltac:(lia)) as [F1 E1]. destruct (VB (2 * k)%nat ltac:(lia)) as [F2 E2]. destruct (VA (2 * k + 1)%nat ltac:(lia)) as [F3 E3]. destruct (VB (2 * k + 1)%nat ltac:(lia)) as [F4 E4].
    destruct C as [-> | ->].
    + rewrite QE, bin_even, abs_bin_even by lia. pose proof (BD (2 * k)%nat (2 * k)%nat ltac:(lia) ltac:(lia)). pose proof (BD (2 * k + 1)%nat (2 * k + 1)%nat ltac:(lia) ltac:(lia)).
      rewrite <- E1, <- E2, <- E3, <- E4 in *. apply bin_sub; try assumption; lra.
    + rewrite QO, bin_odd, abs_bin_odd by lia. pose proof (BD (2 * k)%nat (2 * k + 1)%nat ltac:(lia) ltac:(lia)). pose proof (BD (2 * k + 1)%nat (2 * k)%nat ltac:(lia) ltac:(lia)).
      rewrite <- E1, <- E2, <- E3, <- E4 in *. replace (FR (nth (2 * k + 1) a n0) * FR (nth (2 * k) b n0) - FR (nth (2 * k) a n0) * FR (nth (2 * k + 1) b n0)) with (- (FR (nth (2 * k) a n0) * FR (nth (2 * k + 1) b n0)) + FR (nth (2 * k + 1) a n0) * FR (nth (2 * k) b n0)) by ring.
      apply bin_add; try assumption; lra.
Qed.
