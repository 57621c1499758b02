(** Alignment in exact and in binary64 arithmetic, and runs that fail. *)
From Coq Require Import ZArith List Bool Lia Arith Reals Lra Floats.
From Coq Require Import ZifyBool ZifyNat.
From Flocq Require Import Core IEEE754.PrimFloat Relative.
From Verif Require Import Base.Res Base.Num Base.NumR Base.NumF Base.Lists Base.Mat Model.Amatrix Model.MiscMath Model.Fft
  Model.FilterBank Model.Alignment Model.PatchCreator Model.Selector Spec.AlignSpec Spec.FftSpec
  Proofs.RealP Proofs.B64P Proofs.ScoresP Proofs.FftP Proofs.DftP Proofs.XcorrP Proofs.AlignP.
Import ListNotations.
Open Scope R_scope.
Ltac Zify.zify_post_hook ::= Z.div_mod_to_equations.

(** *** exact arithmetic *)
Lemma half_exact_R b : half_exact (T:=R) b.
Proof.
  intros n k Hn Hk. cbn [nltb ndiv nofZ NumR]. apply Bool.eq_iff_eq_true.
  rewrite Rltb_true, Z.ltb_lt. split; intros H.
  - apply lt_IZR. rewrite mult_IZR. lra.
  - apply IZR_lt in H. rewrite mult_IZR in H. lra.
Qed.
Lemma lag_exact_R k sr : (- 2 ^ 31 <= k < 2 ^ 31)%Z -> (sr <> 0)%Z ->
  to_int (nmul (ndiv (nofZ k) (nofZ sr)) (nofZ sr) : R) = Ret k.
Proof.
  intros Hk Hs. unfold to_int. cbn [nmul ndiv nofZ ntrunc NumR].
  replace (IZR k / IZR sr * IZR sr) with (IZR k) by (field; now apply not_0_IZR).
  rewrite Rtrunc_IZR. replace (_ && _) with true; [reflexivity|]. symmetry. apply andb_true_iff. lia.
Qed.
Lemma lag_back_R : lag_back (T:=R) (2 ^ 31).
Proof. intros k sr Hk Hs. exists k. split; [lia|]. apply lag_exact_R; lia. Qed.
Lemma zero_back_R : zero_back (T:=R) (2 ^ 31).
Proof.
  intros sr Hs. unfold to_int. cbn [nmul nofZ ntrunc NumR].
  replace (n0 * IZR sr) with 0 by (change (@n0 R NumR) with 0; ring). now rewrite Rtrunc_IZR.
Qed.

(** *** binary64 *)
Lemma half_exact_F : half_exact (T:=PrimFloat.float) (2 ^ 53).
Proof.
  intros n k Hn Hk. cbn [nltb ndiv nofZ NumF].
  destruct (FR_ofZ n) as [N1 N2]; [lia|]. destruct (FR_ofZ k) as [K1 K2]; [lia|].
  destruct (FR_ofZ 2) as [T1 T2]; [lia|].
  assert (E : rnd (IZR n / 2) = IZR n / 2).
  { apply (rnd_exact n (-1)); [cbn; lra|lia|lia]. }
  destruct (FR_div (F_ofZ n) (F_ofZ 2) N2) as [D1 D2].
  - rewrite T1. lra.
  - rewrite N1, T1, E. apply Rle_lt_trans with (Rabs (IZR n)); [|apply IZR_lt_fmax; lia].
    assert (0 <= IZR n) by (apply IZR_le; lia). rewrite !Rabs_pos_eq; lra.
  - rewrite FR_ltb by assumption. rewrite D1, N1, T1, E, K1.
    apply Bool.eq_iff_eq_true. rewrite Z.ltb_lt.
    destruct (Rlt_bool_spec (IZR n / 2) (IZR k)) as [H|H].
    + split; [intros _|auto]. apply lt_IZR. rewrite mult_IZR. lra.
    + split; [discriminate|]. intros C. apply IZR_lt in C. rewrite mult_IZR in C. lra.
Qed.

Lemma rnd_rel x : bpow radix2 (-1022) <= Rabs x -> Rabs (rnd x - x) <= bpow radix2 (-53) * Rabs x.
Proof.
  intros H. pose proof (relative_error_N_FLT radix2 (-1074) 53 eq_refl (fun x => negb (Z.even x)) x) as R.
  cbn in R. specialize (R H). unfold rnd.
  replace (bpow radix2 (-53)) with (/ 2 * bpow radix2 (-52)); [exact R|].
  cbn. lra.
Qed.

Lemma lag_back_F : lag_back (T:=PrimFloat.float) (2 ^ 31).
Proof.
  intros k sr Hk Hs.
  destruct (FR_ofZ k) as [K1 K2]; [lia|]. destruct (FR_ofZ sr) as [S1 S2]; [lia|].
  assert (Hsr : 1 <= IZR sr) by (apply IZR_le; lia).
  assert (Hsr' : IZR sr < IZR (2 ^ 31)) by (apply IZR_lt; lia).
  assert (Hk0 : 0 <= IZR k) by (apply IZR_le; lia).
  assert (Hk' : IZR k < IZR (2 ^ 31)) by (apply IZR_lt; lia).
  change (IZR (2 ^ 31)) with 2147483648 in *.
  set (q := IZR k / IZR sr).
  assert (Hq : 0 <= q <= IZR k).
  { unfold q. split; [apply Rmult_le_pos; [lra|left; apply Rinv_0_lt_compat; lra]|].
    apply Rmult_le_reg_r with (IZR sr); [lra|]. unfold Rdiv. rewrite Rmult_assoc, Rinv_l by lra. nra. }
  assert (Qs : q * IZR sr = IZR k) by (unfold q; field; lra).
  (** the quotient *)
  assert (X : 0 <= rnd q <= q * (1 + bpow radix2 (-53)) /\ rnd q <= IZR k).
  { assert (R0 : rnd 0 = 0) by (change 0 with (IZR 0); apply rnd_Z; lia).
    split; [split|].
    - rewrite <- R0. apply rnd_le. lra.
    - destruct (Req_dec q 0) as [->|Q0]; [rewrite R0; lra|].
      assert (Q1 : / 2147483648 <= q).
      { assert (1 <= k)%Z.
        { destruct (Z.eq_dec k 0) as [->|]; [|lia]. exfalso. apply Q0. unfold q. unfold Rdiv. ring. }
        apply IZR_le in H. change (IZR 1) with 1 in H.
        unfold q. apply Rmult_le_reg_r with (IZR sr); [lra|]. unfold Rdiv. rewrite Rmult_assoc, Rinv_l by lra.
        apply Rle_trans with (/ 2147483648 * 2147483648); [apply Rmult_le_compat_l; lra|lra]. }
      pose proof (rnd_rel q) as R. rewrite (Rabs_pos_eq q) in R by lra.
      assert (B : bpow radix2 (-1022) <= q).
      { apply Rle_trans with (bpow radix2 (-31)); [apply bpow_le; lia|]. exact Q1. }
      specialize (R B). apply Rabs_le_inv in R. lra.
    - rewrite <- (rnd_Z k) by lia. apply rnd_le. lra. }
  destruct X as [[X0 X1] X2].
  destruct (FR_div (F_ofZ k) (F_ofZ sr) K2) as [D1 D2].
  { rewrite S1. lra. }
  { rewrite K1, S1. fold q. rewrite Rabs_pos_eq by lra. apply Rle_lt_trans with (Rabs (IZR k)).
    - rewrite Rabs_pos_eq; lra.
    - apply IZR_lt_fmax. lia. }
  rewrite K1, S1 in D1. fold q in D1.
  (** the product *)
  assert (Y1 : rnd q * IZR sr <= IZR k + / 2).
  { apply Rle_trans with (q * (1 + bpow radix2 (-53)) * IZR sr); [apply Rmult_le_compat_r; lra|].
    replace (q * (1 + bpow radix2 (-53)) * IZR sr) with (IZR k + IZR k * bpow radix2 (-53)) by (rewrite <- Qs; ring).
    assert (IZR k * bpow radix2 (-53) <= 2147483648 * bpow radix2 (-53)).
    { apply Rmult_le_compat_r; [apply bpow_ge_0|lra]. }
    assert (2147483648 * bpow radix2 (-53) <= / 2) by (cbn; lra). lra. }
  assert (Y2 : 0 <= rnd (rnd q * IZR sr) <= IZR k + / 2).
  { split.
    - assert (R0 : rnd 0 = 0) by (change 0 with (IZR 0); apply rnd_Z; lia). rewrite <- R0. apply rnd_le.
      apply Rmult_le_pos; lra.
    - assert (RH : rnd (IZR k + / 2) = IZR k + / 2).
      { apply (rnd_exact (2 * k + 1) (-1)); [rewrite plus_IZR, mult_IZR; cbn; lra|lia|lia]. }
      rewrite <- RH. now apply rnd_le. }
  destruct (FR_mul (PrimFloat.div (F_ofZ k) (F_ofZ sr)) (F_ofZ sr) D2 S2) as [M1 M2].
  { rewrite D1, S1, Rabs_pos_eq by lra. apply Rle_lt_trans with (Rabs (IZR (k + 1))).
    - rewrite plus_IZR, Rabs_pos_eq; lra.
    - apply IZR_lt_fmax. lia. }
  rewrite D1, S1 in M1.
  exists (Ztrunc (rnd (rnd q * IZR sr))).
  assert (ZB : (0 <= Ztrunc (rnd (rnd q * IZR sr)) <= k)%Z).
  { rewrite Ztrunc_floor by lra. split.
    - apply Zfloor_lub. cbn. lra.
    - assert (Zfloor (rnd (rnd q * IZR sr)) < k + 1)%Z; [|lia]. apply lt_IZR. rewrite plus_IZR.
      pose proof (Zfloor_lb (rnd (rnd q * IZR sr))). lra. }
  split; [exact ZB|]. unfold to_int. cbn [ntrunc nmul ndiv nofZ NumF]. rewrite F_trunc_spec by exact M2. rewrite M1.
  replace (_ && _) with true; [reflexivity|]. symmetry. apply andb_true_iff. lia.
Qed.
Lemma zero_back_F : zero_back (T:=PrimFloat.float) (2 ^ 31).
Proof.
  intros sr Hs. destruct (FR_ofZ 0) as [Z1 Z2]; [lia|]. destruct (FR_ofZ sr) as [S1 S2]; [lia|].
  change (@n0 PrimFloat.float NumF) with (F_ofZ 0). cbn [nmul nofZ NumF].
  assert (R0 : rnd 0 = 0) by (change 0 with (IZR 0); apply rnd_Z; lia).
  destruct (FR_mul (F_ofZ 0) (F_ofZ sr) Z2 S2) as [M1 M2].
  { rewrite Z1, Rmult_0_l, R0, Rabs_R0. apply bpow_gt_0. }
  rewrite Z1, Rmult_0_l, R0 in M1.
  unfold to_int. cbn [ntrunc NumF]. change 0%R with (IZR 0) in M1. rewrite F_trunc_spec, M1, Ztrunc_IZR by exact M2. reflexivity.
Qed.

(** *** exact arithmetic, ideal FFT: a degraded signal no longer than the reference never fails *)
Lemma no_overlap s1 s2 g : (g <= - Z.of_nat (length s2))%Z -> cross_correlation s1 s2 g = 0.
Proof.
  intros H. unfold cross_correlation. apply sum_zero. intros b Hb. rewrite smpZ_out; [ring|lia].
Qed.

Lemma lag_overlaps (s1 s2 : list R) g : (length s2 <= length s1)%nat -> (3 <= length s1)%nat -> (1 <= length s2)%nat ->
  (2 * Z.of_nat (length s1) - 1 < 2 ^ 31)%Z ->
  find_lowest_lag_index ideal_fft s1 s2 = Ret g ->
  (- g < Z.of_nat (length s2))%Z \/ (- g = Z.of_nat (length s1) - 1)%Z.
Proof.
  intros H1 H2 H3 H4 E. set (n := Nat.max (length s1) (length s2)).
  assert (En : n = length s1) by (unfold n; lia).
  destruct (Z.lt_ge_cases (- g) (Z.of_nat (length s2))) as [C|C]; [left; exact C|right].
  assert (FM : exists f : Z -> R, f g = 0 /\ f (- (Z.of_nat n - 1))%Z = 0 /\
            first_maximiser f (- (Z.of_nat n - 1)) (Z.of_nat n - 1) g).
  { destruct (Nat.le_gt_cases 9 n) as [D|D].
    - destruct (lag_is_first_maximiser s1 s2) as (g' & G1 & G2); [fold n; lia|fold n; lia|].
      rewrite E in G1. injection G1 as ->. fold n in G2.
      exists (cross_correlation s1 s2). split; [apply no_overlap; lia|]. split; [|exact G2].
      apply no_overlap. destruct G2 as [G2 _]. lia.
    - destruct (small_lags s1 s2) as (g' & G1 & G2); [fold n; lia|].
      rewrite E in G1. injection G1 as ->. fold n in G2.
      eexists. split; [|split; [|exact G2]]; cbv beta; destruct (Z.ltb_spec (- (Z.of_nat n - 1)) 0); destruct (Z.ltb_spec g' 0); try reflexivity; lia. }
  destruct FM as (f & F1 & F2 & F3 & _ & F4).
  destruct (Z.eq_dec g (- (Z.of_nat n - 1))) as [->|Ng]; [lia|].
  specialize (F4 (- (Z.of_nat n - 1))%Z ltac:(lia)). lra.
Qed.

Lemma align_returns_R (ref deg : audio R) :
  (3 <= length (au_data ref))%nat -> (1 <= length (au_data deg))%nat -> (length (au_data deg) <= length (au_data ref))%nat ->
  (Z.of_nat (length (au_data ref)) < 2 ^ 30)%Z -> (1 <= au_sr ref < 2 ^ 31)%Z -> au_sr deg = au_sr ref ->
  exists r' d' t, align_and_truncate ideal_fft ref deg = Ret (r', d', t).
Proof.
  intros H0 H1 H2 H3 Hsr Hs. unfold align_and_truncate, globally_align.
  pose proof ideal_keeps_length as K.
  destruct (envelope_returns ideal_fft (au_data ref) K ltac:(lia)) as (re & RE & RL).
  destruct (envelope_returns ideal_fft (au_data deg) K ltac:(lia)) as (de & DE & DL).
  rewrite RE, DE. cbn [bind].
  destruct (lag_returns ideal_fft re de K ltac:(lia) ltac:(lia)) as (g & G & GB). rewrite G. cbn [bind].
  assert (A : exists d t, apply_lag ref deg g = Ret (d, t)).
  { apply lag_overlaps in G; try lia. unfold apply_lag, nofnat. rewrite (half_exact_R (2 ^ 53)) by lia.
    destruct (Z.eqb_spec g 0) as [->|G0]; cbn [orb]; [eauto|].
    destruct (Z.ltb_spec (Z.of_nat (length (au_data ref))) (2 * Z.abs g)) as [C|C]; cbn [orb]; [eauto|].
    destruct (Z.ltb_spec g 0) as [G1|G1]; [|cbn [bind]; eauto].
    rewrite size_small by (unfold two64; lia). rewrite v_rows_ret by lia. cbn [bind]. eauto. }
  destruct A as (d & t & E). rewrite E. cbn [bind].
  apply (truncate_returns ref deg d t (half_exact_R _) lag_back_R zero_back_R); try assumption; try lia.
  apply (apply_lag_cases ref deg g d t (half_exact_R _)); try assumption; try lia. unfold two64; lia.
Qed.

(** *** an accurate 32-point transform in binary64 *)
Definition cos_table : list PrimFloat.float := [
  1.0; 0.9807852804032304; 0.9238795325112867; 0.8314696123025452;
  0.7071067811865476; 0.5555702330196023; 0.38268343236508984; 0.19509032201612833;
  0.0; (-0.1950903220161282); (-0.3826834323650897); (-0.555570233019602);
  (-0.7071067811865475); (-0.8314696123025453); (-0.9238795325112867); (-0.9807852804032304);
  (-1.0); (-0.9807852804032304); (-0.9238795325112868); (-0.8314696123025455);
  (-0.7071067811865477); (-0.5555702330196022); (-0.38268343236509034); (-0.19509032201612866);
  0.0; 0.1950903220161283; 0.38268343236509; 0.5555702330196018;
  0.7071067811865474; 0.8314696123025452; 0.9238795325112865; 0.9807852804032303]%float.
Definition cos32 (i : Z) : PrimFloat.float := nth (Z.to_nat (i mod 32)) cos_table 0%float.
Definition sin32 (i : Z) : PrimFloat.float := cos32 (i - 8).
Definition zrange (n : nat) : list Z := map Z.of_nat (seq 0 n).
Definition dot (w : Z -> PrimFloat.float) (l : list PrimFloat.float) : PrimFloat.float :=
  nsum (map (fun p => nmul (snd p) (w (fst p))) (combine (zrange 32) l)).
Definition fwd32 (l : list PrimFloat.float) : list PrimFloat.float :=
  map (fun j => if Z.eqb j 1 then dot (fun n => cos32 (16 * n)) l
                else if Z.even j then dot (fun n => cos32 (j / 2 * n)) l
                else PrimFloat.opp (dot (fun n => sin32 (j / 2 * n)) l)) (zrange 32).
Definition bwd32 (p : list PrimFloat.float) : list PrimFloat.float :=
  map (fun n => dot (fun j => if Z.eqb j 0 then 1%float
                              else if Z.eqb j 1 then cos32 (16 * n)
                              else nmul 2%float (if Z.even j then cos32 (j / 2 * n) else PrimFloat.opp (sin32 (j / 2 * n)))) p)
      (zrange 32).
Definition fft32 : pffft PrimFloat.float := MkPffft fwd32 bwd32 (fun x => x).

(** a click of the reference comes two samples later in a longer degraded signal *)
Definition click (n at_ : nat) : audio PrimFloat.float :=
  MkAudio (map (fun i => if Nat.eqb i at_ then 5%float else 0%float) (seq 0 n)) 16000.
Lemma late_click :
  globally_align fft32 (click 12 2) (click 16 4) =
    Ret (MkAudio (skipn 2 (au_data (click 16 4))) 16000, PrimFloat.div (F_ofZ (-2)) (F_ofZ 16000)) /\
  align_and_truncate fft32 (click 12 2) (click 16 4) = Throw.
Proof. split; vm_compute; reflexivity. Qed.
(** the same lengths: nothing goes wrong *)
Lemma late_click_same : exists r d t, align_and_truncate fft32 (click 16 2) (click 16 4) = Ret (r, d, t) /\
  au_data r = au_data (click 14 2) /\ au_data d = au_data (click 14 2).
Proof. eexists _, _, _. split; [vm_compute; reflexivity|]. split; vm_compute; reflexivity. Qed.
Lemma early_click_same : exists r d t, align_and_truncate fft32 (click 16 6) (click 16 4) = Ret (r, d, t) /\
  au_data r = au_data (click 14 4) /\ au_data d = au_data (click 14 4).
Proof. eexists _, _, _. split; [vm_compute; reflexivity|]. split; vm_compute; reflexivity. Qed.

(** *** slices *)
Lemma slice_R (s : audio R) (i j : Z) : (1 <= au_sr s)%Z -> (- 2 ^ 31 <= i < j)%Z ->
  (0 < j < Z.of_nat (length (au_data s)))%Z -> (Z.of_nat (length (au_data s)) <= 2 ^ 31)%Z ->
  slice s (IZR i / IZR (au_sr s)) (IZR j / IZR (au_sr s)) = Ret (MkAudio (interval (au_data s) i j) (au_sr s)).
Proof.
  intros Hs Hi Hj Hn. assert (S0 : IZR (au_sr s) <> 0) by (apply not_0_IZR; lia).
  assert (S1 : 1 <= IZR (au_sr s)) by (apply IZR_le; lia).
  assert (SI : 0 < / IZR (au_sr s)) by (apply Rinv_0_lt_compat; lra).
  apply slice_spec; try lia.
  - apply lag_exact_R; lia.
  - apply lag_exact_R; lia.
  - cbn [nltb NumR]. change (@n0 R NumR) with 0. apply Bool.eq_iff_eq_true. rewrite Rltb_true, Z.ltb_lt. split; intros H.
    + apply lt_IZR. apply Rmult_lt_reg_r with (/ IZR (au_sr s)); [exact SI|]. rewrite Rmult_0_l. exact H.
    + apply IZR_lt in H. unfold Rdiv. rewrite <- (Rmult_0_l (/ IZR (au_sr s))). apply Rmult_lt_compat_r; assumption.
  - intros H. unfold to_size. cbn [nmul nofZ ntrunc NumR].
    replace (-1 * (IZR i / IZR (au_sr s)) * IZR (au_sr s)) with (IZR (- i)) by (rewrite opp_IZR; field; exact S0).
    rewrite Rtrunc_IZR. replace (_ && _) with true; [reflexivity|]. symmetry. apply andb_true_iff. unfold two64. lia.
  - cbn [nltb nsub nmul nofZ NumR]. apply Rltb_false. change (@n0 R NumR) with 0.
    replace (IZR j / IZR (au_sr s) * IZR (au_sr s)) with (IZR j) by (field; exact S0).
    assert (IZR j <= IZR (Z.of_nat (length (au_data s)))) by (apply IZR_le; lia). lra.
Qed.
Definition five : audio PrimFloat.float := MkAudio (map (fun i => nofZ (Z.of_nat i)) (seq 1 5)) 1.
(** the last two samples of five, asked for with two samples of silence behind them: silence comes first and the
    last sample is missing *)
Lemma slice_past_end : slice five 3%float 7%float = Ret (MkAudio [0; 0; 4]%float 1).
Proof. vm_compute. reflexivity. Qed.
Lemma slice_to_end : slice five 3%float 5%float = Ret (MkAudio [4]%float 1).
Proof. vm_compute. reflexivity. Qed.

(** *** cross-correlation of very short signals *)
Lemma two_samples : find_lowest_lag_index ideal_fft [2; 1] [1; 3] = Ret 0%Z /\
  cross_correlation [2; 1] [1; 3] (-1) = 6 /\ cross_correlation [2; 1] [1; 3] 0 = 5.
Proof.
  assert (C0 : cross_correlation [2; 1] [1; 3] 0 = 5) by (unfold cross_correlation, smpZ, smp; cbn; change (Pos.to_nat 1) with 1%nat;
    change (Pos.to_nat 2) with 2%nat; cbn; lra).
  assert (C1 : cross_correlation [2; 1] [1; 3] 1 = 1) by (unfold cross_correlation, smpZ, smp; cbn; change (Pos.to_nat 1) with 1%nat;
    change (Pos.to_nat 2) with 2%nat; cbn; lra).
  split; [|split; [unfold cross_correlation, smpZ, smp; cbn; lra|exact C0]].
  destruct (small_lags [2; 1] [1; 3]) as (g & G & F1 & F2 & F3); [cbn; lia|]. cbn in F1. rewrite G. f_equal.
  assert (g = -1 \/ g = 0 \/ g = 1)%Z as [->|[->| ->]] by lia; [|reflexivity|].
  - specialize (F2 0%Z ltac:(cbn; lia)). cbn [Z.ltb Z.compare] in F2. rewrite C0 in F2. lra.
  - specialize (F2 0%Z ltac:(cbn; lia)). cbn [Z.ltb Z.compare] in F2. rewrite C0, C1 in F2. lra.
Qed.

(** *** GloballyAlign with an ideal FFT *)
Lemma align_by_correlation (ref deg aligned : audio R) t :
  let n := Nat.max (length (au_data ref)) (length (au_data deg)) in
  (1 <= length (au_data ref))%nat -> (1 <= length (au_data deg))%nat -> (9 <= n)%nat -> (Z.of_nat n < 2 ^ 30)%Z ->
  globally_align ideal_fft ref deg = Ret (aligned, t) ->
  exists re de g, calc_upper_env ideal_fft (au_data ref) = Ret re /\ calc_upper_env ideal_fft (au_data deg) = Ret de /\
    first_maximiser (cross_correlation re de) (- (Z.of_nat n - 1)) (Z.of_nat n - 1) g /\
    ((2 * Z.abs g <= Z.of_nat (length (au_data ref)))%Z -> t = IZR g / IZR (au_sr deg)) /\
    ((2 * Z.abs g > Z.of_nat (length (au_data ref)))%Z -> t = 0).
Proof.
  intros n H1 H2 H3 H4 H. unfold globally_align in H. pose proof ideal_keeps_length as K.
  destruct (envelope_returns ideal_fft (au_data ref) K ltac:(lia)) as (re & RE & RL).
  destruct (envelope_returns ideal_fft (au_data deg) K ltac:(lia)) as (de & DE & DL).
  rewrite RE, DE in H. cbn [bind] in H.
  destruct (lag_is_first_maximiser re de) as (g & G & GM); [lia|lia|]. rewrite G in H. cbn [bind] in H.
  exists re, de, g. split; [exact RE|]. split; [exact DE|].
  replace (Nat.max (length re) (length de)) with n in GM by lia. split; [exact GM|].
  unfold apply_lag, nofnat in H. destruct GM as [GB _]. rewrite (half_exact_R (2 ^ 53)) in H by lia.
  destruct (Z.eqb_spec g 0) as [Eg|G0]; cbn [orb] in H.
  { rewrite Eg. injection H as _ <-. split; [intros _|reflexivity]. change (@n0 R NumR) with 0. unfold Rdiv. ring. }
  destruct (Z.ltb_spec (Z.of_nat (length (au_data ref))) (2 * Z.abs g)) as [C|C]; cbn [orb] in H.
  { injection H as _ <-. split; [lia|reflexivity]. }
  destruct (if (g <? 0)%Z then _ else _) as [m| | |]; try discriminate. cbn [bind] in H. injection H as _ <-.
  split; [reflexivity|lia].
Qed.
Lemma short_signals : exists s1 s2 g g', find_lowest_lag_index ideal_fft s1 s2 = Ret g /\
  length s1 = 2%nat /\ length s2 = 2%nat /\ (-1 <= g' <= 1)%Z /\ cross_correlation s1 s2 g < cross_correlation s1 s2 g'.
Proof.
  exists [2; 1], [1; 3], 0%Z, (-1)%Z. destruct two_samples as (A & B & C).
  split; [exact A|]. split; [reflexivity|]. split; [reflexivity|]. split; [lia|]. rewrite B, C. lra.
Qed.
