(** The size and hop of the analysis window in binary64 (C68). *)
From Coq Require Import ZArith List Bool Reals Lra Lia ZifyBool ZifyNat Floats.
From Flocq Require Import Core.Core IEEE754.BinarySingleNaN IEEE754.PrimFloat.
From Verif Require Import Base.Res Base.Num Base.NumR Base.NumF Model.Window Proofs.B64P Proofs.ScoresP Proofs.WindowP.
Open Scope R_scope.

Lemma mag_round_floor m e : mag_round m e = Zfloor (IZR (Zpos m) * bpow radix2 e + / 2).
Proof.
  assert (I : forall z, Zfloor (IZR z + / 2) = z) by (intros z; apply Zfloor_imp; rewrite plus_IZR; lra).
  unfold mag_round, mag_trunc. destruct e as [|p|p].
  - cbn [bpow]. now rewrite Rmult_1_r, I.
  - rewrite <- IZR_Zpower by lia. rewrite <- mult_IZR, I. reflexivity.
  - rewrite <- Zfloor_div by lia. f_equal. change (bpow radix2 (Zneg p)) with (/ IZR (2 ^ Zpos p)).
    assert (IZR (2 ^ Zpos p) <> 0) by (apply not_0_IZR; lia). rewrite plus_IZR, !mult_IZR. field. assumption.
Qed.
Lemma F_round_nonneg x : fin x -> 0 <= FR x -> F_round x = Some (Zfloor (FR x + / 2)).
Proof.
  unfold fin, FR, F_round. rewrite <- B2SF_Prim2B.
  destruct (Prim2B x) as [s|s| |s m e H]; cbn [is_finite B2SF B2R]; try discriminate; intros _ P.
  - f_equal. symmetry. apply Zfloor_imp. rewrite plus_IZR. lra.
  - destruct s; cbn [cond_Zopp] in *.
    + exfalso. unfold F2R in P. cbn [Fnum Fexp] in P. rewrite opp_IZR in P. pose proof (bpow_gt_0 radix2 e).
      assert (0 < IZR (Zpos m)) by (apply IZR_lt; lia). nra.
    + now rewrite mag_round_floor.
Qed.

Lemma window_size_F sr : (0 <= sr < 2 ^ 31)%Z -> window_size (T:=PrimFloat.float) sr = Some ((4 * sr + 25) / 50)%Z.
Proof.
  intros H. destruct (FR_ofZ sr ltac:(lia)) as [E1 F1].
  assert (E2 : FR (ndec 8 2 : PrimFloat.float) = 5764607523034235 / 72057594037927936).
  { unfold FR. vm_compute (ndec 8 2 : PrimFloat.float). unfold Prim2B. cbn. unfold F2R. cbn. lra. }
  assert (F2 : fin (ndec 8 2 : PrimFloat.float)) by reflexivity.
  pose proof (Z.div_mod (4 * sr + 25) 50 ltac:(lia)) as DM. pose proof (Z.mod_pos_bound (4 * sr + 25) 50 ltac:(lia)) as MB.
  set (k := ((4 * sr + 25) / 50)%Z) in *. set (r := ((4 * sr + 25) mod 50)%Z) in *.
  assert (K : (0 <= k <= 2 ^ 28)%Z) by lia.
  assert (RR : (1 <= r <= 49)%Z) by lia.
  assert (R1 : 1 <= IZR r <= 49) by (split; apply IZR_le; lia).
  assert (K1 : 0 <= IZR k <= 268435456) by (split; apply IZR_le; lia).
  assert (SR : IZR sr = (50 * IZR k + IZR r - 25) / 4).
  { replace sr with ((50 * k + r - 25) / 4)%Z by lia. replace (50 * k + r - 25)%Z with (4 * sr)%Z by lia.
    rewrite Z.mul_comm, Z.div_mul by lia. apply (Rmult_eq_reg_l 4); [|lra].
    replace (4 * IZR sr) with (IZR (4 * sr)) by now rewrite mult_IZR.
    replace (4 * sr)%Z with (50 * k + r - 25)%Z by lia. rewrite minus_IZR, plus_IZR, mult_IZR. lra. }
  assert (S0 : 0 <= IZR sr) by (apply IZR_le; lia).
  set (x := FR (F_ofZ sr) * FR (ndec 8 2 : PrimFloat.float)).
  assert (X : x = IZR sr * (5764607523034235 / 72057594037927936)) by (unfold x; now rewrite E1, E2).
  assert (Lo : IZR k - 1 / 2 + 1 / 64 <= rnd x).
  { replace (IZR k - 1 / 2 + 1 / 64) with (rnd (IZR k - 1 / 2 + 1 / 64)).
    - apply rnd_le. rewrite X, SR. lra.
    - apply (rnd_exact (64 * k - 31) (-6)); try lia. change (bpow radix2 (-6)) with (/ 64). rewrite minus_IZR, mult_IZR. lra. }
  assert (Hi : rnd x <= IZR k + 1 / 2 - 1 / 64).
  { replace (IZR k + 1 / 2 - 1 / 64) with (rnd (IZR k + 1 / 2 - 1 / 64)).
    - apply rnd_le. rewrite X, SR. lra.
    - apply (rnd_exact (64 * k + 31) (-6)); try lia. change (bpow radix2 (-6)) with (/ 64). rewrite plus_IZR, mult_IZR. lra. }
  assert (P : 0 <= rnd x).
  { change 0 with (IZR 0). rewrite <- (rnd_Z 0) by reflexivity. apply rnd_le. rewrite X. lra. }
  destruct (FR_mul (F_ofZ sr) (ndec 8 2 : PrimFloat.float) F1 F2) as [E F].
  { fold x. rewrite Rabs_pos_eq by exact P. eapply Rle_lt_trans; [exact Hi|]. apply Rlt_trans with (IZR (k + 1)).
    - rewrite plus_IZR. lra.
    - rewrite <- (Rabs_pos_eq (IZR (k + 1))) by (apply IZR_le; lia). apply IZR_lt_fmax. lia. }
  unfold window_size. cbn [nround nmul nofZ NumF].
  rewrite (F_round_nonneg _ F); rewrite E; fold x; [|exact P]. f_equal. apply Zfloor_imp. rewrite plus_IZR. lra.
Qed.
Lemma hop_size_F (n : nat) : (Z.of_nat n < 2 ^ 50)%Z -> hop_size (MkWin n (kOverlap : PrimFloat.float)) = Some (Z.of_nat n / 4)%Z.
Proof.
  intros H. unfold hop_size, kOverlap. cbn [w_size w_overlap]. unfold nofnat. cbn [ntrunc nmul nofZ NumF].
  destruct (FR_ofZ (Z.of_nat n) ltac:(lia)) as [E1 F1].
  assert (E2 : FR (ndec 25 2 : PrimFloat.float) = / 4).
  { unfold FR. vm_compute (ndec 25 2 : PrimFloat.float). unfold Prim2B. cbn. unfold F2R. cbn. lra. }
  assert (F2 : fin (ndec 25 2 : PrimFloat.float)) by reflexivity.
  set (z := Z.of_nat n) in *. assert (Z0 : (0 <= z)%Z) by (unfold z; lia). assert (P : 0 <= IZR z) by (apply IZR_le; exact Z0).
  assert (EX : rnd (IZR z * / 4) = IZR z * / 4) by (apply (rnd_exact z (-2)); [reflexivity|lia|lia]).
  destruct (FR_mul (F_ofZ z) (ndec 25 2 : PrimFloat.float) F1 F2) as [E F].
  { rewrite E1, E2, EX. rewrite Rabs_pos_eq by lra. apply Rle_lt_trans with (Rabs (IZR z)); [rewrite Rabs_pos_eq; lra|apply IZR_lt_fmax; lia]. }
  rewrite (F_trunc_spec _ F). rewrite E, E1, E2, EX. rewrite Ztrunc_floor by lra. f_equal.
  change (IZR z * / 4) with (IZR z / IZR 4). now rewrite Zfloor_div by lia.
Qed.

Lemma window_geometry_F sr : (0 <= sr < 2 ^ 31)%Z ->
  make_window (T:=PrimFloat.float) sr = Ret (MkWin (Z.to_nat ((4 * sr + 25) / 50)) kOverlap) /\
  hop_size (MkWin (Z.to_nat ((4 * sr + 25) / 50)) (kOverlap : PrimFloat.float)) = Some ((4 * sr + 25) / 50 / 4)%Z.
Proof.
  intros H. assert (0 <= (4 * sr + 25) / 50 < 2 ^ 29)%Z by (split; [apply Z.div_pos; lia|apply Z.div_lt_upper_bound; lia]). split.
  - unfold make_window. rewrite window_size_F by exact H. replace (_ <=? _)%Z with true by lia. reflexivity.
  - rewrite hop_size_F by lia. rewrite Z2Nat.id by lia. reflexivity.
Qed.

Lemma window_geometry sr : (0 <= sr < 2 ^ 31)%Z -> exists n : nat,
  (Rabs (INR n - 8 / 100 * IZR sr) < / 2)%R /\
  (exists w, make_window (T:=PrimFloat.float) sr = Ret w /\ w_size w = n /\ hop_size w = Some (Z.of_nat n / 4)%Z) /\
  (exists w, make_window (T:=R) sr = Ret w /\ w_size w = n /\ hop_size w = Some (Z.of_nat n / 4)%Z).
Proof.
  intros H. exists (Z.to_nat ((4 * sr + 25) / 50)). destruct (window_geometry_F sr H) as [E1 E2].
  assert (0 <= (4 * sr + 25) / 50)%Z by (apply Z.div_pos; lia). rewrite Z2Nat.id by lia. split; [|split].
  - rewrite INR_IZR_INZ, Z2Nat.id by lia.
    pose proof (Z.div_mod (4 * sr + 25) 50 ltac:(lia)) as DM. pose proof (Z.mod_pos_bound (4 * sr + 25) 50 ltac:(lia)) as MB.
    set (k := ((4 * sr + 25) / 50)%Z) in *. set (r := ((4 * sr + 25) mod 50)%Z) in *.
    assert (RR : (1 <= r <= 49)%Z) by lia. assert (R1 : 1 <= IZR r <= 49) by (split; apply IZR_le; lia).
    apply (f_equal IZR) in DM. rewrite !plus_IZR, !mult_IZR in DM. apply Rabs_lt. lra.
  - eexists. split; [exact E1|]. split; [reflexivity|exact E2].
  - eexists. split; [apply make_window_R; lia|]. split; [reflexivity|]. rewrite hop_size_R, Z2Nat.id by lia. reflexivity.
Qed.
