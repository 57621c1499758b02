(** Lowest decile and frame counts in binary64 (C14, C67). *)
From Coq Require Import ZArith List Bool Reals Lra Lia ZifyBool ZifyNat Sorted Permutation Floats.
From Flocq Require Import Core.Core IEEE754.BinarySingleNaN IEEE754.PrimFloat.
From Verif Require Import Base.Res Base.Num Base.NumF Base.Lists Base.Mat Model.Amatrix Model.MiscMath Model.Fft Model.Alignment Model.Selector
  Model.Nsim Model.Visqol Spec.AggSpec Proofs.B64P Proofs.ScoresP Proofs.AlignCasesP Proofs.ShapeP Proofs.AggregateP.
Import ListNotations.
Open Scope R_scope.

(** the tenth of a count is exact *)
Lemma tenth_F n : (Z.of_nat n < 2 ^ 31)%Z ->
  to_int (nmul (nofnat n) (ndec 10 2) : PrimFloat.float) = Ret (Z.of_nat n / 10)%Z.
Proof.
  intros Hn. set (z := Z.of_nat n). assert (Hz : (0 <= z)%Z) by (unfold z; lia).
  destruct (FR_ofZ z ltac:(lia)) as [E1 F1].
  assert (E2 : FR (ndec 10 2 : PrimFloat.float) = 3602879701896397 / 36028797018963968).
  { unfold FR. vm_compute (ndec 10 2 : PrimFloat.float). unfold Prim2B. cbn. unfold F2R. cbn. lra. }
  assert (F2 : fin (ndec 10 2 : PrimFloat.float)) by reflexivity.
  pose proof (Z.div_mod z 10 ltac:(lia)) as DM. pose proof (Z.mod_pos_bound z 10 ltac:(lia)) as MB.
  set (k := (z / 10)%Z) in *. set (r := (z mod 10)%Z) in *.
  assert (ZR : IZR z = 10 * IZR k + IZR r) by (rewrite DM at 1; rewrite plus_IZR, mult_IZR; ring).
  assert (K0 : 0 <= IZR k) by (apply IZR_le; lia). assert (K1 : IZR k <= 214748365) by (apply IZR_le; lia).
  assert (R0 : 0 <= IZR r) by (apply IZR_le; lia). assert (R1 : IZR r <= 9) by (apply IZR_le; lia).
  set (x := FR (nofnat n) * FR (ndec 10 2 : PrimFloat.float)).
  assert (X : x = IZR z * (3602879701896397 / 36028797018963968)) by (unfold x; rewrite E2; unfold nofnat; cbn [nofZ NumF]; fold z; now rewrite E1).
  assert (Lo : IZR k <= rnd x). { rewrite <- (rnd_Z k) by lia. apply rnd_le. rewrite X. nra. }
  assert (Hi : rnd x <= IZR k + 15 / 16).
  { replace (IZR k + 15 / 16) with (rnd (IZR k + 15 / 16)).
    - apply rnd_le. rewrite X. nra.
    - apply (rnd_exact (16 * k + 15) (-4)); try lia. change (bpow radix2 (-4)) with (/ 16). rewrite plus_IZR, mult_IZR. lra. }
  assert (F1' : fin (nofnat n : PrimFloat.float)) by (unfold nofnat; cbn [nofZ NumF]; exact F1).
  destruct (FR_mul (nofnat n : PrimFloat.float) (ndec 10 2 : PrimFloat.float) F1' F2) as [E F].
  { fold x. rewrite Rabs_pos_eq by lra. eapply Rle_lt_trans; [exact Hi|]. apply Rlt_trans with (IZR (k + 1)).
    - rewrite plus_IZR. lra.
    - rewrite <- (Rabs_pos_eq (IZR (k + 1))) by (apply IZR_le; lia). apply IZR_lt_fmax. lia. }
  unfold to_int. cbn [ntrunc NumF]. change (nmul (nofnat n) (ndec 10 2)) with (PrimFloat.mul (nofnat n) (ndec 10 2)).
  rewrite (F_trunc_spec _ F), E. fold x. replace (Ztrunc (rnd x)) with k.
  - unfold fits_int. replace (_ && _) with true by lia. reflexivity.
  - rewrite Ztrunc_floor by lra. symmetry. apply Zfloor_imp. rewrite plus_IZR. lra.
Qed.

Section Sort.
  Context {T : Type} {N : Num T}.
  Lemma insert_permT (x : T) l : Permutation (x :: l) (insert x l).
  Proof.
    induction l as [|y t IH]; cbn [insert]; [reflexivity|]. destruct (nltb y x); [|reflexivity].
    eapply perm_trans; [apply perm_swap|]. now constructor.
  Qed.
  Lemma isort_permT (l : list T) : Permutation l (isort l).
  Proof.
    unfold isort. induction l as [|x t IH]; cbn [fold_right]; [constructor|].
    eapply perm_trans; [|apply insert_permT]. now constructor.
  Qed.
  Hypothesis asym : forall a b : T, nltb a b = true -> nltb b a = false.
  Lemma insert_sortedT (x : T) l : Sorted (fun a b => nltb b a = false) l -> Sorted (fun a b => nltb b a = false) (insert x l).
  Proof.
    induction 1 as [|y t Hs IH Hf]; cbn [insert]; [repeat constructor|]. destruct (nltb y x) eqn:C.
    - constructor; [exact IH|]. destruct t as [|z t]; cbn [insert] in *; [repeat constructor; auto|].
      destruct (nltb z x); constructor; auto. now inversion Hf.
    - constructor; [constructor; assumption|]. now constructor.
  Qed.
  Lemma isort_sortedT (l : list T) : Sorted (fun a b => nltb b a = false) (isort l).
  Proof. unfold isort. induction l as [|x t IH]; cbn [fold_right]; [constructor|]. now apply insert_sortedT. Qed.
End Sort.
Lemma asym_F (a b : PrimFloat.float) : nltb a b = true -> nltb b a = false.
Proof.
  cbn [nltb NumF]. rewrite !ltb_equiv. unfold Bltb, SFltb.
  change (SFcompare (B2SF (Prim2B b)) (B2SF (Prim2B a))) with (Bcompare (Prim2B b) (Prim2B a)).
  change (SFcompare (B2SF (Prim2B a)) (B2SF (Prim2B b))) with (Bcompare (Prim2B a) (Prim2B b)).
  rewrite (Bcompare_swap _ _ (Prim2B a) (Prim2B b)). destruct (Bcompare _ _) as [[| |]|]; cbn; congruence.
Qed.

Lemma quantile_F nb (ps : list (psr PrimFloat.float)) l b : ps <> [] -> Forall (shaped nb) ps ->
  (Z.of_nat (length ps) < 2 ^ 31)%Z -> calc_quantile ps (ndec 10 2) = Ret l -> (b < nb)%nat ->
  exists s, Permutation (map (fun p => band_of b (ps_means p)) ps) s /\
    Sorted (fun x y => nltb y x = false) s /\
    nth b l n0 = average (firstn (decile_size (length ps)) s).
Proof.
  intros Hne Hsh Hlen H Hb. apply (calc_quantile_len nb) in H; [|assumption|assumption]. destruct H as [_ H].
  specialize (H b Hb). unfold quantile_band in H. rewrite (band_values nb) in H by auto using shaped_means.
  cbn [bind] in H. rewrite map_map in H. set (v := map (fun p => band_of b (ps_means p)) ps) in *.
  assert (Lv : length v = length ps) by (unfold v; now rewrite map_length).
  unfold std_sort in H. destruct (has_nan v); [discriminate|]. cbn [bind] in H.
  assert (Ls : length (isort v) = length ps) by (rewrite <- Lv; symmetry; apply Permutation_length, isort_permT).
  exists (isort v). split; [apply isort_permT|]. split; [apply isort_sortedT, asym_F|].
  rewrite Ls, tenth_F in H by exact Hlen. cbn [bind] in H.
  replace (Z.max 1 (Z.of_nat (length ps) / 10)) with (Z.of_nat (decile_size (length ps))) in H.
  2:{ unfold decile_size. rewrite Nat2Z.inj_max, Nat2Z.inj_div. reflexivity. }
  destruct (_ <? _)%Z eqn:C in H; [discriminate|]. match type of H with Ret ?a = Ret ?b => assert (HH : a = b) by congruence end. rewrite <- HH. clear H HH.
  unfold average, nsum. rewrite Nat2Z.id. f_equal. f_equal. f_equal. rewrite firstn_length, Ls. lia.
Qed.

(** *** frame counts *)
Lemma mag_exact_true m e : mag_exact m e = true -> IZR (mag_trunc m e) = IZR (Zpos m) * bpow radix2 e.
Proof.
  unfold mag_exact, mag_trunc. destruct e as [|p|p]; intros H.
  - cbn. lra.
  - rewrite mult_IZR. f_equal.
  - apply Z.eqb_eq in H. pose proof (Z.div_mod (Zpos m) (2 ^ Zpos p) ltac:(lia)) as D. rewrite H, Z.add_0_r in D.
    rewrite D at 2. rewrite mult_IZR. replace (bpow radix2 (Zneg p)) with (/ IZR (2 ^ Zpos p)).
    + field. apply not_0_IZR. lia.
    + change (Zneg p) with (- Zpos p)%Z. rewrite bpow_opp. reflexivity.
Qed.
Lemma mag_exact_false m e : mag_exact m e = false -> IZR (mag_trunc m e) < IZR (Zpos m) * bpow radix2 e.
Proof.
  unfold mag_exact, mag_trunc. destruct e as [|p|p]; intros H; try discriminate.
  apply Z.eqb_neq in H. pose proof (Z.div_mod (Zpos m) (2 ^ Zpos p) ltac:(lia)) as D.
  pose proof (Z.mod_pos_bound (Zpos m) (2 ^ Zpos p) ltac:(lia)).
  replace (bpow radix2 (Zneg p)) with (/ IZR (2 ^ Zpos p)).
  2:{ change (Zneg p) with (- Zpos p)%Z. rewrite bpow_opp. reflexivity. }
  assert (P : 0 < IZR (2 ^ Zpos p)) by (apply IZR_lt; lia).
  apply (Rmult_lt_reg_r (IZR (2 ^ Zpos p))); [exact P|]. rewrite Rmult_assoc, Rinv_l, Rmult_1_r by lra.
  rewrite <- mult_IZR. apply IZR_lt. lia.
Qed.
Lemma F_ceil_spec x : fin x -> F_ceil x = Some (Zceil (FR x)).
Proof.
  unfold fin, FR, F_ceil. rewrite <- B2SF_Prim2B.
  destruct (Prim2B x) as [s|s| |s m e H]; cbn [is_finite B2SF B2R]; try discriminate; intros _.
  - now rewrite Zceil_IZR.
  - f_equal. pose proof (mag_trunc_floor m e) as MT. unfold Zceil. destruct s; cbn [cond_Zopp].
    + unfold F2R. cbn [Fnum Fexp]. rewrite MT, opp_IZR. do 2 f_equal. ring.
    + unfold F2R. cbn [Fnum Fexp]. destruct (mag_exact m e) eqn:C.
      * apply mag_exact_true in C. rewrite <- C, <- opp_IZR, Zfloor_IZR. lia.
      * apply mag_exact_false in C. rewrite (Zfloor_imp (- mag_trunc m e - 1)); [lia|].
        pose proof (Zfloor_ub (IZR (Zpos m) * bpow radix2 e)) as U. rewrite <- MT in U.
        rewrite plus_IZR, minus_IZR, opp_IZR. lra.
Qed.

(** start and end of a patch of p frames that starts at frame i, counted back in frames *)
Lemma span_bound (fd : PrimFloat.float) (i : Z) (p : nat) :
  fin fd -> bpow radix2 (-20) <= FR fd <= bpow radix2 20 -> (0 <= i < 2 ^ 30)%Z -> (1 <= p <= 1000)%nat ->
  let start := PrimFloat.mul (F_ofZ i) fd in
  let stop := PrimFloat.add start (PrimFloat.mul fd (F_ofZ (Z.of_nat p))) in
  let q := PrimFloat.div (PrimFloat.sub stop start) fd in
  fin q /\ INR p - / 100000 <= FR q <= INR p + / 100000.
Proof.
  intros Ff Hf Hi Hp start stop q.
  destruct (FR_ofZ i ltac:(lia)) as [Ei Fi]. destruct (FR_ofZ (Z.of_nat p) ltac:(lia)) as [Ep Fp].
  rewrite <- INR_IZR_INZ in Ep. set (f := FR fd) in *. set (I := IZR i) in *. set (P := INR p) in *.
  assert (HI : 0 <= I <= 1073741824) by (unfold I; split; apply IZR_le; lia).
  assert (HP : 1 <= P <= 1000).
  { unfold P. split; [change 1 with (INR 1)|rewrite INR_IZR_INZ; change 1000 with (IZR (Z.of_nat 1000))]; [apply le_INR; lia|apply IZR_le; lia]. }
  change (bpow radix2 (-20)) with (/ 1048576) in Hf. change (bpow radix2 20) with 1048576 in Hf.
  set (u := bpow radix2 (-53)). assert (Hu : u = / 9007199254740992) by reflexivity.
  assert (N : forall x, / 4194304 <= x -> Rabs (rnd x - x) <= u * x).
  { intros x Hx. pose proof (rnd_rel x) as RR. rewrite (Rabs_pos_eq x) in RR by lra. apply RR.
    apply Rle_trans with (bpow radix2 (-22)); [apply bpow_le; lia|]. change (bpow radix2 (-22)) with (/ 4194304). exact Hx. }
  assert (BIG : forall x, 0 <= x <= 2251799813685248 -> Rabs (rnd x) < fmax).
  { intros x Hx. apply Rle_lt_trans with (IZR 2251799813685248); [apply rnd_abs; [lia|]; rewrite Rabs_pos_eq; lra|].
    rewrite <- (Rabs_pos_eq (IZR 2251799813685248)) by lra. apply IZR_lt_fmax. reflexivity. }
  (* start *)
  destruct (FR_mul (F_ofZ i) fd Fi Ff) as [E1 F1]; [rewrite Ei; fold f; apply BIG; nra|]. rewrite Ei in E1. fold f start in E1, F1.
  assert (A : Rabs (FR start - I * f) <= u * (I * f)).
  { rewrite E1. destruct (Z.eq_dec i 0) as [Z0|NZ].
    - unfold I. rewrite Z0, Rmult_0_l. change 0 with (IZR 0). rewrite rnd_Z by reflexivity. rewrite Rminus_0_r, Rabs_R0. lra.
    - apply N. assert (1 <= I) by (unfold I; apply IZR_le; lia). nra. }
  apply Rabs_le_inv in A.
  (* duration *)
  destruct (FR_mul fd (F_ofZ (Z.of_nat p)) Ff Fp) as [E2 F2]; [rewrite Ep; fold f; apply BIG; nra|]. rewrite Ep in E2. fold f in E2.
  set (pd := PrimFloat.mul fd (F_ofZ (Z.of_nat p))) in *.
  assert (B : Rabs (FR pd - f * P) <= u * (f * P)) by (rewrite E2; apply N; nra). apply Rabs_le_inv in B.
  assert (U : 0 < u < / 1000000000000) by (rewrite Hu; lra).
  set (s := FR start) in *. set (d := FR pd) in *.
  assert (If : 0 <= I * f <= 1073741824 * f) by nra. assert (Pf : f <= f * P <= 1000 * f) by nra.
  assert (S1 : 0 <= s <= 1073741825 * f) by (rewrite Hu in A; lra).
  assert (D1 : f / 2 <= d <= 1001 * f) by (rewrite Hu in B; lra).
  (* stop *)
  destruct (FR_add start pd F1 F2) as [E3 F3]; [fold s d; apply BIG; lra|]. fold s d in E3. fold stop in E3, F3.
  assert (C : Rabs (FR stop - (s + d)) <= u * (s + d)) by (rewrite E3; apply N; lra). apply Rabs_le_inv in C.
  set (e := FR stop) in *.
  assert (C' : - (/ 8000000 * f) <= e - (s + d) <= / 8000000 * f) by (rewrite Hu in C; lra).
  destruct (FR_sub stop start F3 F1) as [E4 F4]; [fold s e; apply BIG; lra|]. fold s e in E4.
  set (df := PrimFloat.sub stop start) in *.
  assert (G : Rabs (FR df - (e - s)) <= u * (e - s)) by (rewrite E4; apply N; lra). apply Rabs_le_inv in G.
  set (g := FR df) in *. rewrite Hu in B, G. clear A C N.
  assert (G' : f * (P - / 4000000) <= g <= f * (P + / 4000000)) by lra.
  assert (Q : P - / 4000000 <= g / f <= P + / 4000000).
  { split; apply (Rmult_le_reg_r f); try lra; unfold Rdiv; rewrite ?Rmult_assoc, ?Rinv_l, ?Rmult_1_r by lra; lra. }
  destruct (FR_div df fd F4) as [E5 F5]; [fold f; lra|fold g f; apply BIG; lra|]. fold g f in E5. fold q in E5, F5.
  split; [exact F5|]. rewrite E5.
  pose proof (rnd_rel (g / f)) as RR. rewrite (Rabs_pos_eq (g / f)) in RR by lra.
  assert (BB : bpow radix2 (-1022) <= g / f) by (apply Rle_trans with (bpow radix2 (-1)); [apply bpow_le; lia|change (bpow radix2 (-1)) with (/ 2); lra]).
  specialize (RR BB). fold u in RR. rewrite Hu in RR. apply Rabs_le_inv in RR. lra.
Qed.

Lemma frame_count_F (x : psr PrimFloat.float) fd i p :
  fin fd -> bpow radix2 (-20) <= FR fd <= bpow radix2 20 -> (0 <= i < 2 ^ 30)%Z -> (1 <= p <= 1000)%nat ->
  ps_ref_start x = nmul (nofZ i) fd -> ps_ref_end x = nadd (ps_ref_start x) (nmul fd (nofZ (Z.of_nat p))) ->
  frame_count fd x = Ret (Z.of_nat p) \/ frame_count fd x = Ret (Z.of_nat p + 1)%Z.
Proof.
  intros Ff Hf Hi Hp E1 E2. destruct (span_bound fd i p Ff Hf Hi Hp) as [F B]. unfold frame_count. rewrite E2, E1.
  cbn [nceil ndiv nsub nadd nmul nofZ NumF]. rewrite (F_ceil_spec _ F). set (v := FR (PrimFloat.div _ _)) in *.
  rewrite INR_IZR_INZ in B. destruct (Rle_lt_dec v (IZR (Z.of_nat p))) as [C|C].
  - left. rewrite (Zceil_imp (Z.of_nat p)) by (rewrite minus_IZR; lra). unfold fits_int. replace (_ && _) with true by lia. reflexivity.
  - right. rewrite (Zceil_imp (Z.of_nat p + 1)) by (rewrite minus_IZR, plus_IZR; lra). unfold fits_int. replace (_ && _) with true by lia. reflexivity.
Qed.
