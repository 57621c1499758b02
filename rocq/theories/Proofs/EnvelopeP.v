(** What the envelope is (C87). *)
From Coq Require Import ZArith List Bool Lia Arith Reals Lra.
From Coq Require Import ZifyBool ZifyNat.
From Verif Require Import Base.Res Base.Num Base.NumR Base.Lists Base.Cplx Model.MiscMath Model.Fft
  Spec.FftSpec Spec.EnvelopeSpec Proofs.RealP Proofs.FftP Proofs.DftP Proofs.XcorrP.
Import ListNotations.
Open Scope R_scope.
Ltac Zify.zify_post_hook ::= Z.div_mod_to_equations.

Lemma cos_alt j : cos (PI * INR j) = (-1) ^ j.
Proof.
  induction j as [|j IH]; [cbn; rewrite Rmult_0_r; apply cos_0|]. rewrite S_INR, Rmult_plus_distr_l, Rmult_1_r, neg_cos, IH. cbn [pow]. ring.
Qed.
Lemma fold_sum (l : list R) : forall a, fold_left Rplus l a = a + sum (length l) (smp l).
Proof.
  induction l as [|x l IH] using rev_ind; intros a; [cbn; lra|]. rewrite fold_left_app, IH, app_length. cbn [fold_left length]. rewrite Nat.add_1_r. cbn [sum].
  rewrite (sum_ext _ (smp (l ++ [x])) (smp l)). - unfold smp at 3. rewrite nth_middle. lra.
  - intros i Hi. unfold smp. now rewrite app_nth1.
Qed.
Lemma mean_average (l : list R) : vec_mean l = average l.
Proof. unfold vec_mean, nsum, average. change (n0 : R) with 0. cbn [nadd ndiv NumR]. rewrite nofnat_INR, fold_sum. unfold Rdiv. ring. Qed.
Lemma centred_sum (l : list R) : (1 <= length l)%nat -> sum (length l) (centred l) = 0.
Proof.
  intros H. assert (H0 : INR (length l) <> 0) by (apply not_0_INR; lia).
  rewrite (sum_ext _ (centred l) (fun i => smp l i + - average l * 1)) by (intros i Hi; unfold centred; replace (Nat.ltb i (length l)) with true by lia; ring).
  rewrite sum_plus, sum_scal. assert (E : forall k, sum k (fun _ => 1) = INR k) by (induction k as [|k IH]; [reflexivity|cbn [sum]; rewrite IH, S_INR; reflexivity]).
  rewrite E. unfold average. field. exact H0.
Qed.

(** the scaling *)
Lemma scaling_nth n h k : (1 <= h)%nat -> (1 <= n <= 2 * h)%nat -> (1 <= k <= h)%nat ->
  nth k (hilbert_scaling (T := R) n (2 * h)) 0 = if Nat.ltb k h then 2 else if Nat.eqb n (2 * h) then 1 else 0.
Proof.
  intros Hh Hn Hk. unfold hilbert_scaling. cbv zeta. replace (Nat.eqb n 0) with false by lia.
  replace (if Nat.eqb (n mod 2) 1 then ((2 * h + 1) / 2)%nat else (2 * h / 2)%nat) with h by (destruct (Nat.eqb (n mod 2) 1); lia).
  assert (FL : forall is (l : list R), (forall i, In i is -> (i < length l)%nat) -> nth k (fold_left (fun s i => upd s i (nofZ 2)) is l) 0 = if in_dec Nat.eq_dec k is then 2 else nth k l 0).
  { induction is as [|i is IH]; intros l Hl; [reflexivity|]. cbn [fold_left]. rewrite IH by (intros j Hj; rewrite upd_length; apply Hl; right; exact Hj).
    destruct (in_dec Nat.eq_dec k is) as [I|I].
    - destruct (in_dec Nat.eq_dec k (i :: is)) as [J|J]; [reflexivity|]. exfalso. apply J. right. exact I.
    - destruct (Nat.eq_dec i k) as [->|C].
      + rewrite nth_upd_same by (apply Hl; left; reflexivity). destruct (in_dec Nat.eq_dec k (k :: is)) as [J|J]; [reflexivity|]. exfalso. apply J. left. reflexivity.
      + rewrite nth_upd_other by exact C. destruct (in_dec Nat.eq_dec k (i :: is)) as [J|J]; [|reflexivity]. destruct J as [J|J]; contradiction. }
  rewrite FL. 2:{ intros i Hi. apply in_seq in Hi. rewrite !upd_length, repeat_length. lia. }
  destruct (in_dec Nat.eq_dec k (seq 1 (h - 1))) as [I|I].
  - apply in_seq in I. replace (Nat.ltb k h) with true by lia. reflexivity.
  - assert (~ (1 <= k < 1 + (h - 1))%nat) by (intros C; apply I, in_seq; exact C). replace (Nat.ltb k h) with false by lia. assert (k = h) as -> by lia.
    rewrite nth_upd. destruct (Nat.eqb_spec (n / 2) h) as [C|C].
    + replace (Nat.ltb (n / 2) (length (upd (repeat n0 (2 * h)) 0 n1))) with true by (rewrite upd_length, repeat_length; lia).
      replace (Nat.eqb n (2 * h)) with true by lia. replace (Nat.eqb (n mod 2) 1) with false by lia. reflexivity.
    + replace (Nat.eqb n (2 * h)) with false by lia. rewrite nth_upd_other by lia. apply nth_repeat.
Qed.
Lemma scaling_len n k : length (hilbert_scaling (T := R) n k) = k.
Proof.
  unfold hilbert_scaling.
  assert (FL : forall is (l : list R), length (fold_left (fun s i => upd s i (nofZ 2)) is l) = length l).
  { induction is as [|i is IH]; intros l; [reflexivity|]. cbn [fold_left]. now rewrite IH, upd_length. }
  rewrite FL. destruct (Nat.eqb n 0); rewrite ?upd_length; apply repeat_length.
Qed.

Lemma spectrum_len M x : length (spectrum M x) = M.
Proof. unfold spectrum. now rewrite map_length, seq_length. Qed.
Definition scaled (M : nat) (x : nat -> R) (s : list R) : list (cplx R) := map (fun p => cscale (fst p) (snd p)) (combine (spectrum M x) s).
Lemma scaled_nth M x s k : length s = M -> (k < M)%nat -> nth k (scaled M x s) (0, 0) = (dft_re M x k * nth k s 0, dft_im M x k * nth k s 0).
Proof.
  intros Hs Hk. unfold scaled. set (g := fun p : cplx R * R => cscale (fst p) (snd p)).
  rewrite (nth_indep _ (0, 0) (g ((0, 0), 0))) by (rewrite map_length, combine_length; unfold cplx; rewrite spectrum_len; lia).
  rewrite (map_nth g), combine_nth by (unfold cplx; rewrite spectrum_len; lia). unfold spectrum. unfold cplx. rewrite nth_map_seq by exact Hk. reflexivity.
Qed.

(** inverse transform of the scaled spectrum *)
Lemma hilbert_values (x : list R) : (1 <= Z.of_nat (length x) <= 2 ^ 31)%Z -> sum (length x) (smp x) = 0 ->
  let M := fm_size (make_fft_manager (length x)) in
  hilbert ideal_fft x = Ret (map (fun j => (2 * smp x j - (-1) ^ j * ((if Nat.eqb (length x) M then 1 else 2) * sum (length x) (fun i => (-1) ^ i * smp x i) / INR M), 0)) (seq 0 (length x))).
Proof.
  intros Hn H0. destruct (fm_size_even _ Hn) as (h & E & Hh). pose proof (fm_size_ge _ Hn) as G. cbv zeta. set (n := length x) in *.
  assert (Hi : INR h <> 0) by (apply not_0_INR; lia).
  unfold hilbert. fold n. rewrite (forward_ideal n x Hn (le_n _)), E. cbn [bind]. cbv zeta.
  unfold cplx. rewrite spectrum_len. change (map _ (combine _ ?s)) with (scaled (2 * h) (padded n x) s). set (s := hilbert_scaling n (2 * h)).
  assert (Ls : length s = (2 * h)%nat) by apply scaling_len.
  assert (LS : length (scaled (2 * h) (padded n x) s) = (2 * h)%nat) by (unfold scaled; rewrite map_length, combine_length; unfold cplx; rewrite spectrum_len; lia).
  destruct (inverse_fm h n (make_fft_manager n) ltac:(lia) E eq_refl ltac:(lia) (scaled (2 * h) (padded n x) s)) as (p & Q & P1 & P2); [unfold cplx in *; lia|].
  unfold cplx in *. rewrite P2. f_equal. apply map_ext_in. intros j Hj. apply in_seq in Hj. f_equal.
  destruct (pack_spec h (scaled (2 * h) (padded n x) s) ltac:(unfold cplx in *; lia) ltac:(lia)) as (p' & Q' & _ & R0 & R1 & R2).
  change (@n0 R NumR) with 0 in R0, R1, R2.
  unfold cplx in *. rewrite Q in Q'. apply (f_equal (fun z => match z with Ret y => y | _ => [] end)) in Q'. subst p'.
  set (X := padded n x) in *.
  assert (X0 : dft_re (2 * h) X 0 = 0).
  { unfold dft_re. rewrite (sum_ext _ _ X).
    - rewrite (sum_extend n) by (try lia; intros i Hi'; unfold X, padded; replace (Nat.ltb i n) with false by lia; reflexivity).
      rewrite <- H0. apply sum_ext. intros i Hi'. unfold X, padded. replace (Nat.ltb i n) with true by lia. reflexivity.
    - intros i _. unfold angle. cbn [INR]. replace (2 * PI * 0 * INR i / INR (2 * h)) with 0 by (unfold Rdiv; ring). rewrite cos_0. ring. }
  assert (XH : dft_re (2 * h) X h = sum n (fun i => (-1) ^ i * smp x i)).
  { unfold dft_re. rewrite (sum_extend n) by (try lia; intros i Hi'; unfold X, padded; replace (Nat.ltb i n) with false by lia; ring).
    apply sum_ext. intros i Hi'. rewrite angle_h by lia. replace (PI * INR h * INR i / INR h) with (PI * INR i) by (field; exact Hi). rewrite cos_alt.
    unfold X, padded. replace (Nat.ltb i n) with true by lia. ring. }
  pose proof (inverse_packed_dft h X j ltac:(lia) ltac:(lia)) as RT. destruct (packed_nth h X ltac:(lia)) as (A & B & C).
  unfold inverse_packed in RT |- *. rewrite nth_map_seq in RT by lia. rewrite nth_map_seq by lia. unfold smp at 1 2 in RT. rewrite A, B, X0 in RT.
  replace (2 * h / 2)%nat with h in * by lia.
  cbv zeta in RT |- *.
  match type of RT with context [sum (h - 1) ?g] => match goal with |- context [sum (h - 1) ?f] => rewrite (sum_ext (h - 1) f (fun i => 2 * g i)) end end.
  2:{ intros i Hi'. cbv zeta. unfold smp. destruct (R2 (S i) ltac:(lia)) as [-> ->]. destruct (C (S i) ltac:(lia)) as [-> ->].
      pose proof (scaled_nth (2 * h) X s (S i) Ls ltac:(lia)) as SN. unfold cplx in SN. rewrite SN. cbn [cre cim fst snd].
      unfold s. rewrite scaling_nth by lia. replace (Nat.ltb (S i) h) with true by lia. ring. }
  rewrite sum_scal. unfold smp at 1 2. rewrite R0, R1.
  pose proof (scaled_nth (2 * h) X s 0 Ls ltac:(lia)) as S0. pose proof (scaled_nth (2 * h) X s h Ls ltac:(lia)) as SH. unfold cplx in S0, SH. rewrite S0, SH. cbn [cre fst]. rewrite X0.
  assert (SV : nth h s 0 = if Nat.eqb n (2 * h) then 1 else 0) by (unfold s; rewrite scaling_nth by lia; replace (Nat.ltb h h) with false by lia; reflexivity).
  rewrite SV, cos_alt, XH. rewrite cos_alt, XH in RT.
  assert (XJ : X j = smp x j) by (unfold X, padded; replace (Nat.ltb j n) with true by lia; reflexivity). rewrite XJ in RT.
  rewrite mult_INR. change (INR 2) with 2.
  match goal with |- context [2 * sum (h - 1) ?f] => set (SS := sum (h - 1) f) in * end.
  set (AL := sum n (fun i => (-1) ^ i * smp x i)) in *.
  replace SS with (2 * INR h * smp x j - AL * (-1) ^ j) by lra.
  destruct (Nat.eqb n (2 * h)); field; exact Hi.
Qed.

Lemma envelope_rectified (s : list R) : (1 <= Z.of_nat (length s) <= 2 ^ 31)%Z -> calc_upper_env ideal_fft s = Ret (rectified s).
Proof.
  intros Hn. unfold calc_upper_env, rectified. cbv zeta. set (c := map (fun x => nsub x (vec_mean s)) s).
  assert (Lc : length c = length s) by (unfold c; apply map_length).
  assert (CN : forall i, (i < length s)%nat -> smp c i = centred s i).
  { intros i Hi. unfold smp, c. set (g := fun x : R => nsub x (vec_mean s)). rewrite (nth_indep _ 0 (g 0)) by (rewrite map_length; exact Hi). rewrite (map_nth g).
    unfold g. rewrite mean_average. unfold centred. replace (Nat.ltb i (length s)) with true by lia. reflexivity. }
  pose proof (hilbert_values c) as HV. rewrite Lc in HV. cbv zeta in HV. rewrite HV.
  - cbn [bind]. apply (f_equal (@Ret _)). rewrite map_map. apply map_ext_in. intros j Hj. apply in_seq in Hj. cbn [cre fst]. rewrite mean_average.
    cbn [nabs nadd NumR]. rewrite CN by lia. do 2 f_equal. unfold alternating. f_equal. f_equal. unfold Rdiv. f_equal. f_equal. apply sum_ext. intros i Hi. now rewrite CN.
  - exact Hn.
  - rewrite (sum_ext _ _ (centred s)) by (intros i Hi; apply CN, Hi). apply centred_sum. lia.
Qed.

Lemma rectified_nth s j : (j < length s)%nat -> let M := fm_size (make_fft_manager (length s)) in
  nth j (rectified s) 0 = Rabs (2 * centred s j - (-1) ^ j * ((if Nat.eqb (length s) M then 1 else 2) * alternating s / INR M)) + average s.
Proof. intros H. unfold rectified. cbv zeta. now rewrite nth_map_seq. Qed.

(** without content at the highest frequency the envelope lies above the signal *)
Lemma envelope_above (s e : list R) j : (1 <= Z.of_nat (length s) <= 2 ^ 31)%Z -> calc_upper_env ideal_fft s = Ret e -> alternating s = 0 ->
  (j < length s)%nat -> nth j s 0 <= nth j e 0.
Proof.
  intros Hn E A Hj. rewrite (envelope_rectified s Hn) in E. apply (f_equal (fun z => match z with Ret y => y | _ => [] end)) in E. subst e.
  rewrite rectified_nth by exact Hj. rewrite A. replace (_ * (_ * 0 / _)) with 0 by (unfold Rdiv; ring).
  unfold centred. replace (Nat.ltb j (length s)) with true by lia. unfold smp. pose proof (Rle_abs (2 * (nth j s 0 - average s) - 0)). pose proof (Rabs_pos (2 * (nth j s 0 - average s) - 0)). lra.
Qed.
Lemma envelope_mean (s e : list R) j : (1 <= Z.of_nat (length s) <= 2 ^ 31)%Z -> calc_upper_env ideal_fft s = Ret e ->
  (j < length s)%nat -> average s <= nth j e 0.
Proof.
  intros Hn E Hj. rewrite (envelope_rectified s Hn) in E. apply (f_equal (fun z => match z with Ret y => y | _ => [] end)) in E. subst e.
  rewrite rectified_nth by exact Hj. match goal with |- context [Rabs ?x] => pose proof (Rabs_pos x) end. lra.
Qed.

(** three samples *)
Definition three : list R := [1; 0; -1].
Lemma three_average : average three = 0.
Proof. unfold average, three, smp. cbn. lra. Qed.
Lemma three_centred i : centred three i = smp three i.
Proof. unfold centred. rewrite three_average. unfold smp. destruct (Nat.ltb_spec i (length three)) as [H|H]; [ring|]. rewrite nth_overflow by exact H. reflexivity. Qed.
Lemma three_alternating : alternating three = 0.
Proof. unfold alternating. cbn [length three sum]. rewrite !three_centred. unfold smp. cbn. lra. Qed.
Lemma three_rectified : rectified three = [2; 0; 2].
Proof.
  unfold rectified. cbv zeta. rewrite three_alternating, three_average. cbn [length three seq map]. rewrite !three_centred. unfold smp. cbn [nth].
  assert (Z : forall j c m, (-1) ^ j * (c * 0 / m) = 0) by (intros; unfold Rdiv; ring). rewrite !Z.
  rewrite !Rminus_0_r, !Rplus_0_r. unfold three. cbn [nth].
  replace (Rabs (2 * 1)) with 2 by (rewrite Rabs_right; lra). replace (Rabs (2 * 0)) with 0 by (rewrite Rabs_right; lra).
  replace (Rabs (2 * -1)) with 2 by (rewrite Rabs_left; lra). reflexivity.
Qed.
Lemma three_im : 0 < analytic_im 32 (centred three) 1.
Proof.
  unfold analytic_im. change (32 / 2 - 1)%nat with 15%nat. apply Rdiv_lt_0_compat; [|cbn; lra].
  assert (D : forall f, (forall i, (2 < i)%nat -> f i = 0) -> sum 32 f = f 0%nat + f 1%nat + f 2%nat).
  { intros f Hf. rewrite (sum_extend 3 32) by (try lia; intros; apply Hf; lia). cbn [sum]. ring. }
  assert (Z3 : forall i, (2 < i)%nat -> centred three i = 0) by (intros i Hi; rewrite three_centred; unfold smp; apply nth_overflow; cbn; lia).
  assert (T : forall i, (i < 15)%nat -> 0 < 2 * (dft_re 32 (centred three) (S i) * sin (angle 32 (S i) 1) + dft_im 32 (centred three) (S i) * cos (angle 32 (S i) 1))).
  { intros i Hi. unfold dft_re, dft_im. rewrite !D by (intros q Hq; rewrite Z3 by exact Hq; ring). rewrite !three_centred. unfold smp, three. cbn [nth].
    set (a := angle 32 (S i) 1).
    replace (angle 32 (S i) 0) with 0 by (unfold angle; cbn [INR]; unfold Rdiv; ring).
    replace (angle 32 (S i) 2) with (2 * a) by (unfold a, angle; change (INR 2) with (1 + 1); change (INR 1) with 1; unfold Rdiv; ring).
    rewrite cos_0, sin_0, cos_2a_sin, sin_2a.
    assert (P : 0 < sin a).
    { unfold a, angle. change (INR 1) with 1. replace (INR 32) with 32 by (cbn; lra). pose proof PI_RGT_0. assert (B1 : 1 <= INR (S i)) by (change 1 with (INR 1); apply le_INR; lia).
      assert (B2 : INR (S i) <= 15) by (replace 15 with (INR 15) by (cbn; lra); apply le_INR; lia).
      apply sin_gt_0; nra. }
    pose proof (sin2_cos2 a) as SC. unfold Rsqr in SC.
    match goal with |- 0 < ?t => replace t with (4 * (sin a * (sin a * sin a + cos a * cos a))) by ring end. rewrite SC. lra. }
  assert (GS : forall k, (k <= 15)%nat -> (0 < k)%nat -> 0 < sum k (fun i => 2 * (dft_re 32 (centred three) (S i) * sin (angle 32 (S i) 1) + dft_im 32 (centred three) (S i) * cos (angle 32 (S i) 1)))).
  { induction k as [|k IH]; intros H1 H2; [lia|]. cbn [sum]. pose proof (T k ltac:(lia)). destruct k as [|k]; [cbn [sum]; lra|]. specialize (IH ltac:(lia) ltac:(lia)). lra. }
  apply GS; lia.
Qed.
Lemma three_hilbert : 0 < nth 1 (hilbert_envelope three) 0.
Proof.
  unfold hilbert_envelope. cbv zeta. rewrite nth_map_seq by (cbn; lia). change (fm_size (make_fft_manager (length three))) with 32%nat. rewrite three_average, Rplus_0_r.
  apply sqrt_lt_R0. pose proof three_im as P. set (a := analytic_re 32 _ 1). set (b := analytic_im _ _ _) in *. pose proof (pow2_ge_0 a). assert (0 < b ^ 2) by (apply pow_lt; exact P). lra.
Qed.
Lemma not_hilbert : ~ (forall s, (1 <= Z.of_nat (length s) <= 2 ^ 31)%Z -> calc_upper_env ideal_fft s = Ret (hilbert_envelope s)).
Proof.
  intros H. specialize (H three ltac:(cbn; lia)). rewrite envelope_rectified, three_rectified in H by (cbn; lia).
  apply (f_equal (fun z => match z with Ret y => nth 1 y 0 | _ => 0 end)) in H. cbn [nth] in H. pose proof three_hilbert. lra.
Qed.

(** thirty samples at the highest frequency *)
Definition buzz : list R := map (fun i => (-1) ^ i) (seq 0 30).
Lemma buzz_nth i : (i < 30)%nat -> smp buzz i = (-1) ^ i.
Proof. intros H. unfold smp, buzz. now rewrite nth_map_seq. Qed.
Lemma buzz_average : average buzz = 0.
Proof.
  unfold average. change (length buzz) with 30%nat. rewrite (sum_ext 30 _ (fun i => (-1) ^ i)) by (intros; apply buzz_nth; assumption).
  assert (E : forall k, sum (2 * k) (fun i => (-1) ^ i) = 0).
  { induction k as [|k IH]; [reflexivity|]. replace (2 * S k)%nat with (S (S (2 * k))) by lia. cbn [sum]. rewrite IH. cbn [pow]. ring. }
  change 30%nat with (2 * 15)%nat at 1. rewrite E. unfold Rdiv. ring.
Qed.
Lemma buzz_alternating : alternating buzz = 30.
Proof.
  unfold alternating. change (length buzz) with 30%nat.
  rewrite (sum_ext 30 _ (fun i => 1)).
  - cbn. lra.
  - intros i Hi. unfold centred. change (length buzz) with 30%nat. replace (Nat.ltb i 30) with true by lia. rewrite buzz_average, Rminus_0_r, buzz_nth by exact Hi.
    rewrite <- Rpow_mult_distr. replace (-1 * -1) with 1 by ring. apply pow1.
Qed.
Lemma buzz_below : nth 0 (rectified buzz) 0 = 1 / 8.
Proof.
  rewrite rectified_nth by (cbn; lia). change (fm_size (make_fft_manager (length buzz))) with 32%nat. change (length buzz) with 30%nat. cbn [Nat.eqb].
  rewrite buzz_alternating, buzz_average. unfold centred. change (length buzz) with 30%nat. cbn [Nat.ltb Nat.leb]. rewrite buzz_average, buzz_nth by lia. cbn [pow].
  replace (INR 32) with 32 by (cbn; lra). rewrite Rabs_right; lra.
Qed.
Lemma not_above : ~ (forall s e j, (1 <= Z.of_nat (length s) <= 2 ^ 31)%Z -> calc_upper_env ideal_fft s = Ret e -> (j < length s)%nat -> nth j s 0 <= nth j e 0).
Proof.
  intros H. specialize (H buzz (rectified buzz) 0%nat ltac:(cbn; lia) (envelope_rectified buzz ltac:(cbn; lia)) ltac:(cbn; lia)). rewrite buzz_below in H.
  pose proof (buzz_nth 0 ltac:(lia)) as B. unfold smp in B. rewrite B in H. cbn in H. lra.
Qed.
