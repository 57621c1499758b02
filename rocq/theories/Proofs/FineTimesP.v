(** Times of patches multiplied with the sample rate: exact in real arithmetic, at most one sample too low in
    binary64. *)
From Coq Require Import ZArith List Bool Reals Lra Lia Floats.
From Flocq Require Import Core.Core.
From Coq Require Import ZifyBool ZifyNat.
From Verif Require Import Base.Res Base.Num Base.NumR Base.NumF Base.Lists Model.Amatrix Model.MiscMath Model.Fft
  Model.FilterBank Model.Alignment Model.Selector Spec.AlignSpec Proofs.FloatP Proofs.B64P Proofs.ScoresP Proofs.AlignP Proofs.AlignCasesP
  Spec.FineSpec Proofs.FineSafeP.
Import ListNotations.
Open Scope R_scope.

(** *** exact arithmetic *)
Lemma lag_back_neg_R : lag_back_neg (T:=R) (2 ^ 31).
Proof. intros k sr Hk Hs. exists (- k)%Z. split; [lia|]. apply lag_exact_R; lia. Qed.

Lemma to_int_IZR z : (- 2 ^ 31 <= z < 2 ^ 31)%Z -> to_int (IZR z : R) = Ret z.
Proof.
  intros H. unfold to_int. cbn [ntrunc NumR]. rewrite Rtrunc_IZR. replace (_ && _) with true; [reflexivity|]. symmetry. apply andb_true_iff. lia.
Qed.
Lemma to_size_IZR z : (0 <= z < 2 ^ 31)%Z -> to_size (IZR z : R) = Ret z.
Proof.
  intros H. unfold to_size. cbn [ntrunc NumR]. rewrite Rtrunc_IZR. replace (_ && _) with true; [reflexivity|]. symmetry. apply andb_true_iff. unfold two64. lia.
Qed.

Lemma times_R h sr p : (1 <= h)%Z -> (1 <= sr)%Z -> (0 <= p)%Z -> times_within (T:=R) 0 h sr p (2 ^ 31).
Proof.
  intros Hh Hs Hp i Hi Hb.
  assert (S1 : 1 <= IZR sr) by (apply IZR_le; lia). assert (H1 : 1 <= IZR h) by (apply IZR_le; lia).
  assert (I0 : 0 <= IZR i) by (apply IZR_le; lia).
  assert (Ea : nmul (frame_time h sr i) (nofZ sr) = IZR (i * h)).
  { unfold frame_time. cbn [nmul ndiv nofZ NumR]. rewrite mult_IZR. field. lra. }
  assert (Eb : nmul (frame_end h sr p i) (nofZ sr) = IZR ((i + p) * h)).
  { unfold frame_end, frame_time. cbn [nmul ndiv nadd nofZ NumR]. rewrite mult_IZR, plus_IZR. field. lra. }
  rewrite Ea, Eb. assert (0 <= i * h)%Z by nia. assert (0 <= p * h)%Z by nia.
  split; [|split; [|split]].
  - unfold frame_time. cbn [nltb nmul ndiv nofZ NumR]. apply Rltb_false. change (@n0 R NumR) with 0.
    apply Rmult_le_pos; [exact I0|]. apply Rmult_le_pos; [lra|]. left. apply Rinv_0_lt_compat. lra.
  - exists (i * h)%Z. split; [apply to_int_IZR; nia|]. lia.
  - exists ((i + p) * h)%Z. split; [apply to_int_IZR; nia|]. lia.
  - intros n Hn. cbv zeta. cbn [nltb nsub nofZ NumR]. rewrite <- minus_IZR. change (@n0 R NumR) with 0.
    destruct (Rltb 0 (IZR ((i + p) * h - n))) eqn:E.
    + apply Rltb_true in E. apply lt_IZR in E. exists ((i + p) * h - n)%Z. split; [apply to_size_IZR; lia|lia].
    + apply Rltb_false in E. apply le_IZR in E. lia.
Qed.

(** *** binary64 *)
Notation u := (bpow radix2 (-53)).
Lemma u_small : 0 < u /\ u <= / 1000000000000000.
Proof. cbn. lra. Qed.

Lemma near_rnd c v y : 0 <= c <= / 4 -> y = 0 \/ bpow radix2 (-100) <= y -> 0 <= y <= 10000000000 -> Rabs (v - y) <= c * y ->
  Rabs (rnd v - y) <= (c + 2 * u) * y /\ Rabs (rnd v) < fmax.
Proof.
  intros Hc Hy Hy' H. destruct u_small as [U0 U1]. apply Rabs_le_inv in H.
  assert (FM : 20000000000 < fmax).
  { apply Rlt_trans with (Rabs (IZR 20000000001)); [rewrite Rabs_pos_eq; lra|]. apply IZR_lt_fmax. lia. }
  assert (R0 : rnd 0 = 0) by (change 0 with (IZR 0); apply rnd_Z; lia).
  destruct Hy as [->|Hy].
  { replace v with 0 by nra. rewrite R0. replace (0 - 0) with 0 by ring. rewrite Rabs_R0. split; [nra|lra]. }
  assert (Y0 : 0 < bpow radix2 (-100)) by apply bpow_gt_0.
  assert (V0 : y * (3 / 4) <= v <= y * (5 / 4)) by nra.
  assert (B : bpow radix2 (-1022) <= v).
  { apply Rle_trans with (bpow radix2 (-101)); [apply bpow_le; lia|]. change (bpow radix2 (-101)) with (bpow radix2 (-1 + -100)).
    rewrite bpow_plus. change (bpow radix2 (-1)) with (/ 2). nra. }
  pose proof (rnd_rel v) as R. rewrite (Rabs_pos_eq v) in R by nra. specialize (R B). apply Rabs_le_inv in R.
  assert (V1 : u * v <= 2 * u * y) by nra.
  assert (M : 2 * u * y <= y / 4) by nra.
  split; [apply Rabs_le; nra|]. rewrite Rabs_pos_eq by nra. nra.
Qed.

(** [x] is finite and close to [y] *)
Definition near (c : R) (x : PrimFloat.float) (y : R) : Prop := fin x /\ Rabs (FR x - y) <= c * y.

Lemma near_mul c x y z : 0 <= c <= / 4 -> near c x y -> (Z.abs z < 2 ^ 53)%Z -> (0 <= z)%Z ->
  y * IZR z = 0 \/ bpow radix2 (-100) <= y * IZR z -> 0 <= y * IZR z <= 10000000000 ->
  near (c + 2 * u) (nmul x (nofZ z)) (y * IZR z).
Proof.
  intros Hc [F H] Hz Hz' H1 H2. destruct (FR_ofZ z Hz) as [E1 F1].
  assert (Z0 : 0 <= IZR z) by (apply IZR_le; lia).
  destruct (near_rnd c (FR x * IZR z) (y * IZR z) Hc H1 H2) as [A B].
  { replace (FR x * IZR z - y * IZR z) with ((FR x - y) * IZR z) by ring. rewrite Rabs_mult, (Rabs_pos_eq (IZR z)) by exact Z0. nra. }
  cbn [nmul nofZ NumF]. destruct (FR_mul x (F_ofZ z) F F1) as [E G]; [rewrite E1; exact B|]. split; [exact G|]. rewrite E, E1. exact A.
Qed.
Lemma near_add c x y a b : 0 <= c <= / 4 -> near c x a -> near c y b ->
  a + b = 0 \/ bpow radix2 (-100) <= a + b -> 0 <= a + b <= 10000000000 ->
  near (c + 2 * u) (nadd x y) (a + b).
Proof.
  intros Hc [Fx Hx] [Fy Hy] H1 H2.
  destruct (near_rnd c (FR x + FR y) (a + b) Hc H1 H2) as [A B].
  { apply Rabs_le_inv in Hx, Hy. apply Rabs_le. nra. }
  cbn [nadd NumF]. destruct (FR_add x y Fx Fy B) as [E G]. split; [exact G|]. rewrite E. exact A.
Qed.
Lemma near_div a b : (0 <= a < 2 ^ 31)%Z -> (1 <= b < 2 ^ 31)%Z -> near (2 * u) (ndiv (nofZ a) (nofZ b)) (IZR a / IZR b).
Proof.
  intros Ha Hb. destruct (FR_ofZ a ltac:(lia)) as [E1 F1]. destruct (FR_ofZ b ltac:(lia)) as [E2 F2].
  assert (B1 : 1 <= IZR b < 2147483648) by (split; [apply IZR_le|apply (IZR_lt b 2147483648)]; lia).
  assert (A1 : 0 <= IZR a < 2147483648) by (split; [apply IZR_le|apply (IZR_lt a 2147483648)]; lia).
  assert (IB : 0 < / IZR b <= 1) by (split; [apply Rinv_0_lt_compat; lra|rewrite <- Rinv_1; apply Rinv_le; lra]).
  assert (Q : 0 <= IZR a / IZR b <= IZR a) by (unfold Rdiv; nra).
  destruct (near_rnd 0 (IZR a / IZR b) (IZR a / IZR b)) as [X Y].
  - lra.
  - destruct (Z.eq_dec a 0) as [->|A0]; [left; unfold Rdiv; ring|right].
    assert (1 <= IZR a) by (apply IZR_le; lia).
    apply Rle_trans with (/ 2147483648).
    + apply Rle_trans with (bpow radix2 (-31)); [apply bpow_le; lia|cbn; lra].
    + apply Rle_trans with (/ IZR b); [apply Rinv_le; lra|]. unfold Rdiv. nra.
  - lra.
  - replace (IZR a / IZR b - IZR a / IZR b) with 0 by ring. rewrite Rabs_R0. lra.
  - cbn [ndiv nofZ NumF]. destruct (FR_div (F_ofZ a) (F_ofZ b) F1) as [E G]; [rewrite E2; lra|rewrite E1, E2; exact Y|].
    split; [exact G|]. rewrite E, E1, E2. replace (2 * u) with (0 + 2 * u) by ring. exact X.
Qed.

(** a float close to an integer converts to it or to the one below *)
Lemma near_int x z : near (8 * u) x (IZR z) -> (0 <= z < 2 ^ 31)%Z ->
  0 <= FR x /\ Rabs (FR x - IZR z) <= / 8 /\ (0 <= Ztrunc (FR x) /\ z - 1 <= Ztrunc (FR x) <= z)%Z /\ to_int x = Ret (Ztrunc (FR x)).
Proof.
  intros [F H] Hz. destruct u_small as [U0 U1].
  assert (Z1 : 0 <= IZR z < 2147483648) by (split; [apply IZR_le|apply (IZR_lt z 2147483648)]; lia).
  assert (B : 8 * u * IZR z <= / 8) by nra.
  assert (X0 : 0 <= FR x). { apply Rabs_le_inv in H. nra. }
  assert (D : Rabs (FR x - IZR z) <= / 8) by lra. split; [exact X0|]. split; [exact D|].
  apply Rabs_le_inv in D.
  assert (ZB : (0 <= Ztrunc (FR x) /\ z - 1 <= Ztrunc (FR x) <= z)%Z).
  { rewrite Ztrunc_floor by exact X0. pose proof (Zfloor_lb (FR x)) as A1. pose proof (Zfloor_ub (FR x)) as A2.
    split; [apply Zfloor_lub; cbn; lra|]. split.
    - apply Zfloor_lub. rewrite minus_IZR. lra.
    - assert (Zfloor (FR x) < z + 1)%Z; [|lia]. apply lt_IZR. rewrite plus_IZR. lra. }
  split; [exact ZB|]. unfold to_int. cbn [ntrunc NumF]. rewrite (F_trunc_spec _ F).
  replace (_ && _) with true; [reflexivity|]. symmetry. apply andb_true_iff. lia.
Qed.

Lemma times_F h sr p : (1 <= h < 2 ^ 31)%Z -> (1 <= sr < 2 ^ 31)%Z -> (0 <= p < 2 ^ 31)%Z ->
  times_within (T:=PrimFloat.float) 1 h sr p (2 ^ 31).
Proof.
  intros Hh Hs Hp i Hi Hb. destruct u_small as [U0 U1].
  assert (S1 : 1 <= IZR sr < 2147483648) by (split; [apply IZR_le|apply (IZR_lt sr 2147483648)]; lia).
  assert (H1 : 1 <= IZR h < 2147483648) by (split; [apply IZR_le|apply (IZR_lt h 2147483648)]; lia).
  assert (i < 2 ^ 31)%Z as Hi' by nia.
  assert (0 <= i * h < 2 ^ 31)%Z as HI by nia. assert (0 <= p * h < 2 ^ 31)%Z as HP by nia.
  assert (0 <= (i + p) * h < 2 ^ 31)%Z as HE by nia.
  set (q := IZR h / IZR sr).
  assert (Q1 : / 2147483648 <= q).
  { apply Rle_trans with (/ IZR sr); [apply Rinv_le; lra|]. unfold q, Rdiv. assert (0 < / IZR sr) by (apply Rinv_0_lt_compat; lra). nra. }
  assert (Q2 : bpow radix2 (-100) <= q).
  { apply Rle_trans with (bpow radix2 (-31)); [apply bpow_le; lia|]. cbn. lra. }
  assert (QS : forall z, q * IZR z * IZR sr = IZR (z * h)) by (intros z; rewrite mult_IZR; unfold q; field; lra).
  assert (QB : forall z, (0 <= z)%Z -> (0 <= z * h < 2 ^ 31)%Z -> (q * IZR z = 0 \/ bpow radix2 (-100) <= q * IZR z) /\ 0 <= q * IZR z <= 10000000000).
  { intros z Hz Hzh. assert (0 <= IZR z) by (apply IZR_le; lia). split.
    - destruct (Z.eq_dec z 0) as [->|]; [left; ring|right]. assert (1 <= IZR z) by (apply IZR_le; lia). nra.
    - assert (A : q * IZR z * IZR sr < 2147483648) by (rewrite QS; apply (IZR_lt _ 2147483648); lia). split; [nra|]. nra. }
  assert (EB : forall z, (0 <= z)%Z -> IZR z = 0 \/ bpow radix2 (-100) <= IZR z).
  { intros z Hz. destruct (Z.eq_dec z 0) as [->|]; [left; reflexivity|right].
    apply Rle_trans with (bpow radix2 0); [apply bpow_le; lia|]. cbn. apply IZR_le. lia. }
  pose proof (near_div h sr ltac:(lia) Hs) as NF. fold q in NF.
  set (fd := ndiv (nofZ h) (nofZ sr) : PrimFloat.float) in *.
  assert (NS : near (2 * u + 2 * u) (frame_time h sr i) (q * IZR i)).
  { unfold frame_time. fold fd. rewrite Fmul_comm. apply near_mul; try lia; try lra; try exact NF; apply (QB i); lia. }
  assert (NP : near (2 * u + 2 * u) (nmul fd (nofZ p)) (q * IZR p)).
  { apply near_mul; try lia; try lra; try exact NF; apply (QB p); lia. }
  assert (NE : near (2 * u + 2 * u + 2 * u) (frame_end h sr p i) (q * IZR (i + p))).
  { unfold frame_end. fold fd. replace (q * IZR (i + p)) with (q * IZR i + q * IZR p) by (rewrite plus_IZR; ring).
    apply near_add; try lra; try assumption; replace (q * IZR i + q * IZR p) with (q * IZR (i + p)) by (rewrite plus_IZR; ring); apply (QB (i + p)%Z); lia. }
  assert (WK : forall c d x y, c <= d -> 0 <= y -> near c x y -> near d x y).
  { intros c d x y C Y [F X]. split; [exact F|]. nra. }
  assert (XI : near (8 * u) (nmul (frame_time h sr i) (nofZ sr)) (IZR (i * h))).
  { rewrite <- QS. assert (0 <= q * IZR i * IZR sr <= 2147483648) by (rewrite QS; split; [apply IZR_le; lia|apply (IZR_le _ 2147483648); lia]).
    apply (WK (2 * u + 2 * u + 2 * u)); [lra|lra|]. apply near_mul; try lia; try lra; try exact NS. rewrite QS. apply EB. lia. }
  assert (XE : near (8 * u) (nmul (frame_end h sr p i) (nofZ sr)) (IZR ((i + p) * h))).
  { rewrite <- QS. assert (0 <= q * IZR (i + p) * IZR sr <= 2147483648) by (rewrite QS; split; [apply IZR_le; lia|apply (IZR_le _ 2147483648); lia]).
    apply (WK (2 * u + 2 * u + 2 * u + 2 * u)); [lra|lra|]. apply near_mul; try lia; try lra; try exact NE. rewrite QS. apply EB. lia. }
  destruct (near_int _ _ XI HI) as (_ & _ & (A0 & A1) & A2). destruct (near_int _ _ XE HE) as (B0 & BD & (B1 & B2) & B3).
  split; [|split; [|split]].
  - destruct NS as [F X]. destruct (FR_ofZ 0 ltac:(lia)) as [E0 F0]. cbn [nltb NumF]. change (@n0 PrimFloat.float NumF) with (F_ofZ 0).
    rewrite (FR_ltb _ _ F F0), E0. apply Rlt_bool_false. destruct (QB i Hi HI) as [_ QQ]. apply Rabs_le_inv in X. nra.
  - exists (Ztrunc (FR (nmul (frame_time h sr i) (nofZ sr)))). split; [exact A2|]. lia.
  - exists (Ztrunc (FR (nmul (frame_end h sr p i) (nofZ sr)))). split; [exact B3|]. lia.
  - intros n Hn. cbv zeta. destruct XE as [FE _]. set (x := nmul (frame_end h sr p i) (nofZ sr)) in *.
    set (E := ((i + p) * h)%Z) in *. destruct (FR_ofZ n ltac:(lia)) as [En Fn]. destruct (FR_ofZ 0 ltac:(lia)) as [E0 F0].
    assert (N1 : 0 <= IZR n < 2147483648) by (split; [apply IZR_le|apply (IZR_lt n 2147483648)]; lia).
    assert (E1 : 0 <= IZR E < 2147483648) by (split; [apply IZR_le|apply (IZR_lt E 2147483648)]; lia).
    apply Rabs_le_inv in BD.
    assert (RH : forall z k, (Z.abs z < 2 ^ 40)%Z -> (k = 1 \/ k = -1 \/ k = 0)%Z -> rnd (IZR z + IZR k / 4) = IZR z + IZR k / 4).
    { intros z k Hz Hk. apply (rnd_exact (4 * z + k) (-2)); [rewrite plus_IZR, mult_IZR; cbn; lra|lia|lia]. }
    (** the difference is within a quarter of the integer difference *)
    assert (DL : IZR (E - n) - / 4 <= rnd (FR x - IZR n) <= IZR (E - n) + / 4).
    { pose proof (RH (E - n)%Z 1%Z ltac:(lia) ltac:(lia)) as P1. pose proof (RH (E - n)%Z (-1)%Z ltac:(lia) ltac:(lia)) as P2.
      split.
      - replace (IZR (E - n) - / 4) with (IZR (E - n) + IZR (-1) / 4) by (cbn; lra). rewrite <- P2. apply rnd_le. rewrite minus_IZR. lra.
      - replace (IZR (E - n) + / 4) with (IZR (E - n) + IZR 1 / 4) by (cbn; lra). rewrite <- P1. apply rnd_le. rewrite minus_IZR. lra. }
    rewrite minus_IZR in DL.
    destruct (FR_sub x (F_ofZ n) FE Fn) as [ED FD].
    { rewrite En. apply Rlt_trans with (Rabs (IZR 4294967298)); [|apply IZR_lt_fmax; lia]. rewrite (Rabs_pos_eq (IZR 4294967298)) by (apply IZR_le; lia).
      apply Rabs_lt. lra. }
    rewrite En in ED. cbn [nltb nsub nofZ NumF]. change (@n0 PrimFloat.float NumF) with (F_ofZ 0). rewrite (FR_ltb _ _ F0 FD), E0, ED.
    destruct (Rlt_bool_spec 0 (rnd (FR x - IZR n))) as [C|C].
    + exists (Ztrunc (rnd (FR x - IZR n))).
      assert (ZB : (0 <= Ztrunc (rnd (FR x - IZR n)) /\ E - n - 1 <= Ztrunc (rnd (FR x - IZR n)) <= E - n)%Z).
      { rewrite Ztrunc_floor by lra. pose proof (Zfloor_lb (rnd (FR x - IZR n))) as C1. pose proof (Zfloor_ub (rnd (FR x - IZR n))) as C2.
        split; [apply Zfloor_lub; lra|]. split.
        - apply Zfloor_lub. rewrite !minus_IZR. lra.
        - assert (Zfloor (rnd (FR x - IZR n)) < E - n + 1)%Z; [|lia]. apply lt_IZR. rewrite plus_IZR, minus_IZR. lra. }
      split; [|exact ZB]. unfold to_size. cbn [ntrunc NumF]. rewrite (F_trunc_spec _ FD), ED.
      replace (_ && _) with true; [reflexivity|]. symmetry. apply andb_true_iff. unfold two64. lia.
    + assert (E < n + 1)%Z; [|lia]. apply lt_IZR. rewrite plus_IZR. lra.
Qed.

Lemma lag_back_neg_F : lag_back_neg (T:=PrimFloat.float) (2 ^ 31).
Proof.
  intros k sr Hk Hs. destruct (lag_back_F k sr Hk Hs) as (a & A1 & A2). exists (- a)%Z. split; [lia|].
  destruct (FR_ofZ k ltac:(lia)) as [K1 K2]. destruct (FR_ofZ (- k) ltac:(lia)) as [L1 L2]. destruct (FR_ofZ sr ltac:(lia)) as [S1 S2].
  assert (S3 : 1 <= IZR sr) by (apply IZR_le; lia).
  destruct (near_div k sr ltac:(lia) Hs) as [FD ND].
  assert (B1 : 0 <= IZR k < 2147483648) by (split; [apply IZR_le|apply (IZR_lt k 2147483648)]; lia).
  assert (IB : 0 < / IZR sr <= 1) by (split; [apply Rinv_0_lt_compat; lra|rewrite <- Rinv_1; apply Rinv_le; lra]).
  assert (RO : forall x, rnd (- x) = - rnd x) by (intros x; apply round_NE_opp).
  cbn [nmul ndiv nofZ NumF] in *.
  assert (QB : Rabs (rnd (IZR k / IZR sr)) < fmax).
  { apply Rle_lt_trans with (Rabs (IZR 2147483648)); [|apply IZR_lt_fmax; lia]. rewrite (Rabs_pos_eq (IZR 2147483648)) by (apply IZR_le; lia).
    apply rnd_abs; [lia|]. assert (0 <= IZR k / IZR sr <= 2147483648) by (unfold Rdiv; nra). rewrite Rabs_pos_eq; lra. }
  destruct (FR_div (F_ofZ k) (F_ofZ sr) K2 ltac:(rewrite S1; lra)) as [D1 D2]; [rewrite K1, S1; exact QB|]. rewrite K1, S1 in D1.
  destruct (FR_div (F_ofZ (- k)) (F_ofZ sr) L2 ltac:(rewrite S1; lra)) as [G1 G2].
  { rewrite L1, S1, opp_IZR. replace (- IZR k / IZR sr) with (- (IZR k / IZR sr)) by (unfold Rdiv; ring). rewrite RO, Rabs_Ropp. exact QB. }
  rewrite L1, S1, opp_IZR in G1. replace (- IZR k / IZR sr) with (- (IZR k / IZR sr)) in G1 by (unfold Rdiv; ring). rewrite RO, <- D1 in G1.
  destruct (near_mul (2 * u) (PrimFloat.div (F_ofZ k) (F_ofZ sr)) (IZR k / IZR sr) sr) as [M1 M2]; try lia.
  { destruct u_small. lra. } { split; assumption. }
  { replace (IZR k / IZR sr * IZR sr) with (IZR k) by (field; lra). destruct (Z.eq_dec k 0) as [->|]; [left; reflexivity|right].
    apply Rle_trans with (bpow radix2 0); [apply bpow_le; lia|]. cbn. apply IZR_le. lia. }
  { replace (IZR k / IZR sr * IZR sr) with (IZR k) by (field; lra). lra. }
  replace (IZR k / IZR sr * IZR sr) with (IZR k) in M2 by (field; lra). cbn [nmul nofZ NumF] in M1, M2.
  set (d := PrimFloat.div (F_ofZ k) (F_ofZ sr)) in *. set (d' := PrimFloat.div (F_ofZ (- k)) (F_ofZ sr)) in *.
  assert (MB : Rabs (rnd (FR d * IZR sr)) < fmax).
  { apply (near_rnd (2 * u) _ (IZR k)).
    - destruct u_small. lra.
    - destruct (Z.eq_dec k 0) as [->|]; [left; reflexivity|right]. apply Rle_trans with (bpow radix2 0); [apply bpow_le; lia|]. cbn. apply IZR_le. lia.
    - lra.
    - replace (FR d * IZR sr - IZR k) with ((FR d - IZR k / IZR sr) * IZR sr) by (field; lra).
      rewrite Rabs_mult, (Rabs_pos_eq (IZR sr)) by lra. replace (2 * u * IZR k) with (2 * u * (IZR k / IZR sr) * IZR sr) by (field; lra). nra. }
  destruct (FR_mul d (F_ofZ sr) D2 S2) as [E1 E2]; [rewrite S1; exact MB|].
  destruct (FR_mul d' (F_ofZ sr) G2 S2) as [E3 E4]; [rewrite S1, G1; replace (- FR d * IZR sr) with (- (FR d * IZR sr)) by ring; rewrite RO, Rabs_Ropp; exact MB|].
  rewrite S1, G1 in E3. replace (- FR d * IZR sr) with (- (FR d * IZR sr)) in E3 by ring. rewrite RO in E3. rewrite S1 in E1. rewrite <- E1 in E3.
  unfold to_int in A2 |- *. cbn [ntrunc NumF] in A2 |- *. rewrite (F_trunc_spec _ E2) in A2. rewrite (F_trunc_spec _ E4), E3, Ztrunc_opp.
  destruct (_ && _) eqn:EE in A2; [|discriminate]. injection A2 as A2. rewrite A2.
  replace (_ && _) with true; [reflexivity|]. symmetry. apply andb_true_iff. lia.
Qed.
