(** Rounding errors of the patch similarity in binary64 (C93). *)
From Coq Require Import ZArith List Bool Reals Lra Lia Floats.
From Verif Require Import Base.Res Base.Num Base.NumR Base.NumF Base.Lists Base.Mat Model.Amatrix Model.Nsim
  Spec.SmoothSpec Spec.StatSpec Spec.RoundSpec Proofs.RealP Proofs.ConvP Proofs.NsimP Proofs.B64P Proofs.RoundP.
Import ListNotations.
Open Scope R_scope.

(** *** the weights and constants *)
Lemma dec_near m k : (0 < m < 2 ^ 53)%Z -> (Z.abs (10 ^ k) < 2 ^ 53)%Z -> (0 < 10 ^ k)%Z -> tiny <= IZR m / IZR (10 ^ k) -> IZR m / IZR (10 ^ k) <= 1 ->
  near (ndec m k) (IZR m / IZR (10 ^ k)) (u * (IZR m / IZR (10 ^ k))) (IZR m / IZR (10 ^ k)).
Proof.
  intros Hm Hk Hk0 HT H1. unfold ndec. cbn [ndiv nofZ NumF]. set (q := IZR m / IZR (10 ^ k)) in *.
  destruct (FR_ofZ m ltac:(lia)) as [E1 F1]. destruct (FR_ofZ (10 ^ k) Hk) as [E2 F2]. pose proof (IZR_lt _ _ Hk0) as K0.
  pose proof tiny_small. pose proof big_large.
  assert (Q0 : 0 < q). { unfold q. apply Rdiv_lt_0_compat; [apply IZR_lt; lia|exact K0]. }
  apply (near_op _ q q 0 q); [intros H2|rewrite Rminus_diag_eq, Rabs_R0 by reflexivity; lra|rewrite Rabs_pos_eq by lra; lra|exact HT|lra|lra|rewrite Rabs_pos_eq by lra; lra].
  unfold q in *. rewrite <- E1, <- E2 in *. apply FR_div; [exact F1|lra|exact H2].
Qed.
Lemma pow16_near m : (0 < m < 2 ^ 53)%Z -> tiny <= IZR m / 10000000000000000 -> IZR m / 10000000000000000 <= 1 ->
  near (ndec m 16) (IZR m / 10000000000000000) (u * (IZR m / 10000000000000000)) (IZR m / 10000000000000000).
Proof.
  intros Hm HT H1. unfold ndec. cbn [ndiv nofZ NumF]. set (q := IZR m / 10000000000000000) in *.
  destruct (FR_ofZ m ltac:(lia)) as [E1 F1]. pose proof tiny_small. pose proof big_large.
  assert (E2 : FR (F_ofZ (10 ^ 16)) = 10000000000000000 /\ fin (F_ofZ (10 ^ 16))).
  { assert (EX : F_ofZ (10 ^ 16) = PrimFloat.mul (F_ofZ 100000000) (F_ofZ 100000000)) by (vm_compute; reflexivity). rewrite EX.
    destruct (FR_ofZ 100000000 ltac:(reflexivity)) as [A1 A2].
    assert (ER : rnd (FR (F_ofZ 100000000) * FR (F_ofZ 100000000)) = 10000000000000000).
    { rewrite A1. rewrite <- mult_IZR. apply (rnd_exact 5000000000000000 1); [cbn; lra|reflexivity|lia]. }
    destruct (FR_mul (F_ofZ 100000000) (F_ofZ 100000000) A2 A2) as [C1 C2].
    - rewrite ER. apply Rlt_le_trans with big; [rewrite Rabs_pos_eq by lra; lra|]. unfold big, fmax. apply Raux.bpow_le. discriminate.
    - split; [now rewrite C1, ER|exact C2]. }
  destruct E2 as [E2 F2].
  assert (Q0 : 0 < q). { unfold q. apply Rdiv_lt_0_compat; [apply IZR_lt; lia|lra]. }
  apply (near_op _ q q 0 q); [intros H2|rewrite Rminus_diag_eq, Rabs_R0 by reflexivity; lra|rewrite Rabs_pos_eq by lra; lra|exact HT|lra|lra|rewrite Rabs_pos_eq by lra; lra].
  unfold q in *. rewrite <- E1, <- E2 in *. apply FR_div; [exact F1|lra|exact H2].
Qed.

Definition wF (p : nat * nat) : PrimFloat.float := at_ (nsim_window : mat PrimFloat.float) (2 - snd p) (2 - fst p).
Definition wR (p : nat * nat) : R := at_ (nsim_window : mat R) (2 - snd p) (2 - fst p).
Lemma weight_near p : In p (filter_positions 3 3) -> near (wF p) (wR p) (u * wR p) (wR p) /\ 1 / 100 <= wR p.
Proof.
  pose proof tiny_small as T. unfold wF, wR, at_, mget, nsim_window.
  assert (C : near (ndec 113033910173052 16) (ndec 113033910173052 16) (u * ndec 113033910173052 16) (ndec 113033910173052 16) /\ 1 / 100 <= @ndec R _ 113033910173052 16).
  { unfold ndec at 2 3 4 5. cbn [ndiv nofZ NumR]. change (10 ^ 16)%Z with 10000000000000000%Z. split; [apply pow16_near; [lia|lra|lra]|lra]. }
  assert (E : near (ndec 838251475442633 16) (ndec 838251475442633 16) (u * ndec 838251475442633 16) (ndec 838251475442633 16) /\ 1 / 100 <= @ndec R _ 838251475442633 16).
  { unfold ndec at 2 3 4 5. cbn [ndiv nofZ NumR]. change (10 ^ 16)%Z with 10000000000000000%Z. split; [apply pow16_near; [lia|lra|lra]|lra]. }
  assert (M : near (ndec 619485845753726 15) (ndec 619485845753726 15) (u * ndec 619485845753726 15) (ndec 619485845753726 15) /\ 1 / 100 <= @ndec R _ 619485845753726 15).
  { unfold ndec at 2 3 4 5. cbn [ndiv nofZ NumR]. change (10 ^ 15)%Z with 1000000000000000%Z.
    split; [apply (dec_near 619485845753726 15); [lia|reflexivity|reflexivity|change (10 ^ 15)%Z with 1000000000000000%Z; lra ..]|lra]. }
  intros H. cbn in H. repeat (destruct H as [<-|H]; [cbn [fst snd nth Nat.mul Nat.add Nat.sub nrows elems]; assumption|]). destruct H.
Qed.
Lemma wR_sum : fold_right Rplus 0 (map wR (filter_positions 3 3)) = 1.
Proof.
  unfold wR, at_, mget, nsim_window. cbn [filter_positions flat_map seq map app fold_right fst snd nth Nat.mul Nat.add Nat.sub nrows elems].
  unfold ndec. cbn [ndiv nofZ NumR]. change (10 ^ 16)%Z with 10000000000000000%Z. change (10 ^ 15)%Z with 1000000000000000%Z. lra.
Qed.

(** *** the weighted average *)
Lemma fold_near (a : nat * nat -> PrimFloat.float) (ar : nat * nat -> R) X : 1 <= X <= 100000000 -> let t := u * X in
  forall ps acc r E S, (forall p, In p ps -> near (a p) (ar p) t X /\ near (wF p) (wR p) (u * wR p) (wR p) /\ 1 / 100 <= wR p) ->
  let W := fold_right Rplus 0 (map wR ps) in let n := INR (length ps) in
  near acc r (E * t) (S * X) -> 0 <= S -> 0 <= E -> S + W <= 1 -> E + 3.01 * W + 1.03 * n <= 100 ->
  near (fold_left (fun s p => PrimFloat.add s (PrimFloat.mul (a p) (wF p))) ps acc) (fold_left (fun s p => s + ar p * wR p) ps r)
       ((E + 3.01 * W + 1.03 * n) * t) ((S + W) * X).
Proof.
  intros HX t. assert (T0 : 0 < t) by (unfold t; pose proof u_pos; nra). assert (TX : t <= X / 1000000000000000) by (unfold t; pose proof u_small; nra).
  pose proof u_small as US. pose proof u_pos as UP. pose proof tiny_small as TS. pose proof big_large as BL.
  induction ps as [|p ps IH]; intros acc r E S HP W n HA HS HE HW HN.
  - unfold W, n. cbn [map fold_right length INR fold_left]. rewrite !Rmult_0_r, !Rplus_0_r. exact HA.
  - destruct (HP p (or_introl eq_refl)) as (N1 & N2 & W0). unfold W, n in *. cbn [map fold_right fold_left] in *.
    replace (INR (length (p :: ps))) with (1 + INR (length ps)) in * by (cbn [length]; rewrite S_INR; ring). pose proof (pos_INR (length ps)) as LP.
    set (W' := fold_right Rplus 0 (map wR ps)) in *.
    assert (W'0 : 0 <= W').
    { unfold W'. assert (Q : forall q, In q ps -> 1 / 100 <= wR q) by (intros q Hq; apply HP; now right). clear - Q.
      induction ps as [|q ps IH]; cbn [map fold_right]; [lra|]. pose proof (Q q (or_introl eq_refl)). specialize (IH (fun x Hx => Q x (or_intror Hx))). lra. }
    set (w := wR p) in *.
    assert (WX : 0 < w * X) by nra.
    assert (HM : near (PrimFloat.mul (a p) (wF p)) (ar p * w) (3.01 * w * t) (X * w)).
    { apply (near_mul _ _ _ _ _ _ _ _ (2.001 * w * t) (1.003 * (w * X)) _ N1 N2).
      - replace (X * (u * w)) with (w * t) by (unfold t; ring). assert (t * (u * w) <= 0.001 * (w * t)) by (replace (t * (u * w)) with (u * (w * t)) by ring; apply Rmult_le_compat_r; [|lra]; apply Rmult_le_pos; lra). lra.
      - assert (t * w <= 0.001 * (w * X)) by nra. assert (X * (u * w) <= 0.001 * (w * X)) by (replace (X * (u * w)) with (u * (w * X)) by ring; apply Rmult_le_compat_r; lra). assert (t * (u * w) <= 0.001 * (w * t)) by (replace (t * (u * w)) with (u * (w * t)) by ring; apply Rmult_le_compat_r; [|lra]; apply Rmult_le_pos; lra). lra.
      - nra.
      - nra.
      - replace (u * (1.003 * (w * X))) with (1.003 * (w * t)) by (unfold t; ring). nra. }
    replace ((E + 3.01 * (w + W') + 1.03 * (1 + INR (length ps))) * t) with ((E + (3.01 * w + 1.03) + 3.01 * W' + 1.03 * INR (length ps)) * t) by ring.
    replace ((S + (w + W')) * X) with ((S + w + W') * X) by ring.
    apply IH; [intros q Hq; apply HP; now right| |lra|lra|lra|lra].
    apply (near_weaken _ _ ((E + (3.01 * w + 1.03)) * t) (S * X + X * w)); [|lra|lra].
    apply (near_add _ _ _ _ _ _ _ _ (1.02 * X) _ HA HM).
    + assert (E * t <= 100 * t) by nra. assert (3.01 * w * t <= 100 * t) by nra. assert ((S + w) * X <= 1 * X) by (apply Rmult_le_compat_r; lra). nra.
    + lra.
    + lra.
    + replace (u * (1.02 * X)) with (1.02 * t) by (unfold t; ring). nra.
Qed.

Lemma conv_near (M : mat PrimFloat.float) (MR : mat R) X r c : 1 <= X <= 100000000 -> (0 < nrows M)%nat -> (0 < ncols M)%nat ->
  nrows MR = nrows M -> ncols MR = ncols M ->
  (forall i j, (i < nrows M)%nat -> (j < ncols M)%nat -> near (at_ M i j) (at_ MR i j) (u * X) X) ->
  near (conv_elem nsim_window M r c) (conv_elem nsim_window MR r c) (13 * (u * X)) X.
Proof.
  intros HX HR HC ER EC H. unfold conv_elem.
  assert (Z0 : near (@n0 PrimFloat.float NumF) 0 (0 * (u * X)) (0 * X)).
  { rewrite !Rmult_0_l. apply (near_ofZ 0); [reflexivity|rewrite Rabs_R0; lra]. }
  pose proof (fold_near (fun p => at_ M (clamped (nrows M) r (snd p)) (clamped (ncols M) c (fst p)))
    (fun p => at_ MR (clamped (nrows M) r (snd p)) (clamped (ncols M) c (fst p))) X HX (filter_positions 3 3) n0 0 0 0) as F. cbv zeta in F.
  rewrite wR_sum in F. change (INR (length (filter_positions 3 3))) with (INR 9) in F. replace (INR 9) with 9 in F by (cbn; lra).
  rewrite ER, EC. change (@n0 R NumR) with 0. change (@nadd R NumR) with Rplus. change (@nmul R NumR) with Rmult. change (@nadd PrimFloat.float NumF) with PrimFloat.add. change (@nmul PrimFloat.float NumF) with PrimFloat.mul.
  eapply near_weaken; [apply F|..]; try lra.
  - intros p Hp. destruct (weight_near p Hp) as [A B]. split; [|split; assumption]. apply H; unfold clamped; lia.
  - exact Z0.
  - assert (0 < u * X) by (pose proof u_pos; nra). nra.
Qed.

(** *** the constants *)
Ltac tb := pose proof tiny_small; pose proof big_large; pose proof u_small; pose proof u_pos.
Lemma one_near : near (nofZ 1) 1 0 1.
Proof. apply (near_ofZ 1); [reflexivity|rewrite Rabs_pos_eq by lra; lra]. Qed.
Lemma two_near : near (nofZ 2) 2 0 2.
Proof. apply (near_ofZ 2); [reflexivity|rewrite Rabs_pos_eq by lra; lra]. Qed.
Definition small18 : R := 1 / 1000000000000000000.
Lemma sq_const m : (1 <= m <= 3)%Z -> near (nsq (nmul (ndec m 2) n1)) (IZR m / 100 * 1 * (IZR m / 100 * 1)) small18 (9 / 10000).
Proof.
  intros Hm. pose proof (IZR_le _ _ (proj1 Hm)) as M1. pose proof (IZR_le _ _ (proj2 Hm)) as M2. tb. unfold small18.
  assert (A : near (ndec m 2) (IZR m / 100) (36 / 10000000000000000000) (3 / 100)).
  { apply (near_weaken _ _ (u * (IZR m / 100)) (IZR m / 100)); [apply (dec_near m 2); [lia|reflexivity|reflexivity|cbn; lra|cbn; lra]|nra|lra]. }
  assert (B : near (nmul (ndec m 2) n1) (IZR m / 100 * 1) (8 / 1000000000000000000) (3 / 100 * 1)).
  { apply (near_mul _ _ _ _ _ _ _ _ (36 / 10000000000000000000) (31 / 1000) _ A one_near); lra. }
  apply (near_weaken _ _ (7 / 10000000000000000000) (3 / 100 * 1 * (3 / 100 * 1))); [|lra|lra].
  apply (near_mul _ _ _ _ _ _ _ _ (49 / 100000000000000000000) (10 / 10000) _ B B); try lra.
Qed.
Lemma c1_near : near nsim_c1 0.0001 small18 0.001.
Proof.
  pose proof (sq_const 1 ltac:(lia)) as H. unfold nsim_c1. replace 0.0001 with (1 / 100 * 1 * (1 / 100 * 1)) by lra.
  apply (near_weaken _ _ _ _ _ _ H); unfold small18; lra.
Qed.
Lemma c3_near : near nsim_c3 0.00045 small18 0.001.
Proof.
  pose proof (sq_const 3 ltac:(lia)) as H. unfold nsim_c3. replace 0.00045 with (3 / 100 * 1 * (3 / 100 * 1) / 2) by lra. tb. unfold small18 in *.
  apply (near_weaken _ _ (1 / 1000000000000000000) (1 / 1000)); [|lra|lra].
  apply (near_div _ _ _ _ _ _ _ _ 2 (1 / 1000) (5 / 10000000000000000000) _ H two_near); try lra.
  rewrite Rabs_pos_eq; lra.
Qed.

(** *** the smoothed values of a patch and of the product of two patches *)
Lemma smooth_near (M : mat PrimFloat.float) f X r c : 1 <= X <= 100000000 -> (0 < nrows M)%nat -> (0 < ncols M)%nat ->
  (forall i j, (i < nrows M)%nat -> (j < ncols M)%nat -> near (at_ M i j) (f i j) (u * X) X) ->
  near (conv_elem nsim_window M r c) (smooth (nrows M) (ncols M) f r c) (13 * (u * X)) X.
Proof.
  intros HX HR HC H. set (MR := tab (nrows M) (ncols M) f : mat R).
  replace (smooth (nrows M) (ncols M) f r c) with (conv_elem nsim_window MR r c).
  - apply conv_near; try assumption; try reflexivity. intros i j Hi Hj. unfold MR. rewrite at_tab by assumption. now apply H.
  - rewrite conv_elem_smooth. unfold MR, smooth. cbn [nrows ncols tab]. f_equal. apply map_ext. intros p. rewrite at_tab by (apply clamped_lt; assumption). reflexivity.
Qed.

Notation sm A f r c := (smooth (nrows A) (ncols A) f r c) (only parsing).

Definition dm : R := 156 / 1000000000000000.
Lemma mu_near A r c : moderate A -> near (conv_elem nsim_window A r c) (sm A (vals A) r c) dm 100.
Proof.
  intros (HR & HC & H). tb. apply (near_weaken _ _ (13 * (u * 100)) 100); [|unfold dm; lra|lra].
  apply smooth_near; [lra|assumption ..|]. intros i j Hi Hj. destruct (H i j Hi Hj) as [F B]. unfold vals.
  apply (near_weaken _ _ 0 100); [now apply near_exact|lra|lra].
Qed.
Definition d2 : R := 156 / 10000000000000.
Lemma prod_near A B r c : moderate A -> moderate B -> nrows A = nrows B -> ncols A = ncols B ->
  near (conv_elem nsim_window (sq_tab A B) r c) (sm A (fun i j => vals A i j * vals B i j) r c) d2 10000.
Proof.
  intros (HR & HC & H) (_ & _ & HB) ER EC. tb. apply (near_weaken _ _ (13 * (u * 10000)) 10000); [|unfold d2; lra|lra].
  change (nrows A) with (nrows (sq_tab A B)). change (ncols A) with (ncols (sq_tab A B)).
  apply smooth_near; [lra|assumption ..|]. unfold sq_tab. cbn [nrows ncols tab]. intros i j Hi Hj. rewrite at_tab by assumption.
  destruct (H i j Hi Hj) as [F1 B1]. destruct (HB i j ltac:(lia) ltac:(lia)) as [F2 B2]. unfold vals.
  apply (near_weaken _ _ (u * 10000) (100 * 100)); [|lra|lra].
  apply (near_mul _ _ 0 100 _ _ 0 100 0 10000); try (now apply near_exact); lra.
Qed.

(** products of means, variances *)
Definition d3 : R := 33 / 1000000000000.
Lemma musq_near x r y s : near x r dm 100 -> near y s dm 100 -> near (nmul x y) (r * s) d3 10000.
Proof.
  intros H1 H2. tb. unfold dm, d3 in *. apply (near_weaken _ _ (33 / 1000000000000) (100 * 100)); [|lra|lra].
  apply (near_mul _ _ _ _ _ _ _ _ (313 / 10000000000000) 10001 _ H1 H2); lra.
Qed.
Definition dv : R := 6 / 100000000000.
Lemma var_near x r y s : near x r d2 10000 -> near y s d3 10000 -> near (nsub x y) (r - s) dv 20000.
Proof.
  intros H1 H2. tb. unfold d2, d3, dv in *. apply (near_weaken _ _ (6 / 100000000000) (10000 + 10000)); [|lra|lra].
  apply (near_sub _ _ _ _ _ _ _ _ 20001 _ H1 H2); lra.
Qed.

(** *** the intensity term *)
Definition di : R := 16 / 10000000.
Lemma intensity_near mr a md b : near mr a dm 100 -> near md b dm 100 ->
  near (ndiv (nadd (nmul (nmul mr md) (nofZ 2)) nsim_c1) (nadd (nadd (nmul mr mr) (nmul md md)) nsim_c1))
       ((2 * (a * b) + 0.0001) / (a * a + b * b + 0.0001)) di 1.
Proof.
  intros H1 H2. tb. pose proof c1_near as C. pose proof two_near as T. pose proof (musq_near _ _ _ _ H1 H2) as P. pose proof (musq_near _ _ _ _ H1 H1) as P1. pose proof (musq_near _ _ _ _ H2 H2) as P2.
  unfold d3, dm, di, small18 in *.
  assert (N : near (nadd (nmul (nmul mr md) (nofZ 2)) nsim_c1) (2 * (a * b) + 0.0001) (75 / 1000000000000) 20001).
  { apply (near_weaken _ _ (75 / 1000000000000) (10000 * 2 + 0.001)); [|lra|lra]. rewrite (Rmult_comm 2).
    apply (near_add _ _ (70 / 1000000000000) (10000 * 2) _ _ (1 / 1000000000000000000) 0.001 20001); [|exact C|lra ..].
    apply (near_mul _ _ _ _ _ _ _ _ (66 / 1000000000000) 20001 _ P T); lra. }
  assert (D : near (nadd (nadd (nmul mr mr) (nmul md md)) nsim_c1) (a * a + b * b + 0.0001) (75 / 1000000000000) 20001).
  { apply (near_weaken _ _ (75 / 1000000000000) (10000 + 10000 + 0.001)); [|lra|lra].
    apply (near_add _ _ (70 / 1000000000000) (10000 + 10000) _ _ (1 / 1000000000000000000) 0.001 20001); [|exact C|lra ..].
    apply (near_add _ _ _ _ _ _ _ _ 20001 _ P1 P2); lra. }
  pose proof (Rle_0_sqr a) as SA. pose proof (Rle_0_sqr b) as SB. pose proof (Rle_0_sqr (a - b)) as SM. pose proof (Rle_0_sqr (a + b)) as SP. unfold Rsqr in *.
  apply (near_div _ _ _ _ _ _ _ _ 0.0001 1 (151 / 100000000) _ N D); try lra.
  apply Rabs_le. lra.
Qed.

(** *** the structure term when both variances are at least 1/10000 *)
Lemma sqrt_near x d h : fin x -> 0 < d -> 1 / 1000000000 <= d -> d <= 1000000000 -> 0 <= h <= 1 / 1000 -> Rabs (FR x - d) <= h * d ->
  near (nsqrt x) (R_sqrt.sqrt d) ((h + 2 * u) * R_sqrt.sqrt d) (R_sqrt.sqrt d).
Proof.
  intros F D0 D1 D2 Hh H. tb. cbn [nsqrt NumF]. set (s := R_sqrt.sqrt d). assert (S0 : 0 < s) by (apply sqrt_lt_R0; exact D0). assert (SS : s * s = d) by (apply sqrt_sqrt; lra).
  assert (X0 : 0 <= FR x). { pose proof (Rle_trans _ _ _ (Rle_abs (- (FR x - d))) ltac:(rewrite Rabs_Ropp; exact H)). nra. }
  assert (SL : 1 / 100000 <= s). { destruct (Rlt_le_dec s (1 / 100000)); [exfalso; nra|assumption]. }
  assert (SU : s <= 1000000). { destruct (Rlt_le_dec 1000000 s); [exfalso; nra|assumption]. }
  pose proof (sqrt_close (FR x) d X0 D0) as C. fold s in C.
  assert (C2 : Rabs (R_sqrt.sqrt (FR x) - s) <= h * s).
  { apply Rle_trans with (1 := C). apply Rmult_le_reg_r with s; [exact S0|]. unfold Rdiv. rewrite Rmult_assoc, Rinv_l, Rmult_1_r by lra. rewrite Rmult_assoc, SS. exact H. }
  assert (B : Rabs (R_sqrt.sqrt (FR x)) <= 2 * s).
  { replace (R_sqrt.sqrt (FR x)) with ((R_sqrt.sqrt (FR x) - s) + s) by ring. apply Rle_trans with (1 := Rabs_triang _ _). rewrite (Rabs_pos_eq s) by lra. nra. }
  apply (near_op _ (R_sqrt.sqrt (FR x)) _ (h * s) (2 * s)); [intros _; split; [apply FR_sqrt|now apply fin_sqrt]|exact C2|exact B|lra|lra|lra|rewrite Rabs_pos_eq; lra].
Qed.

Definition ds : R := 17 / 10000000.
Lemma structure_near sr vx sd vy srd cv : near sr vx dv 20000 -> near sd vy dv 20000 -> near srd cv dv 20000 -> 1 / 10000 <= vx -> 1 / 10000 <= vy ->
  Rabs cv <= R_sqrt.sqrt (vx * vy) ->
  near (ndiv (nadd srd nsim_c3) (structure_denominator (nmul sr sd))) ((cv + 0.00045) / (R_sqrt.sqrt (vx * vy) + 0.00045)) ds 1.
Proof.
  intros H1 H2 H3 V1 V2 HC. tb. pose proof c3_near as C. set (d := vx * vy) in *. set (s := R_sqrt.sqrt d) in *.
  assert (X2 : vx <= 20000). { destruct H1 as (_ & _ & B). rewrite Rabs_pos_eq in B; lra. }
  assert (Y2 : vy <= 20000). { destruct H2 as (_ & _ & B). rewrite Rabs_pos_eq in B; lra. }
  assert (D1 : 1 / 100000000 <= d) by (unfold d; nra). assert (D2 : d <= 400000000) by (unfold d; nra).
  (* the product of the variances *)
  assert (ZE : Rabs (FR sr * FR sd - d) <= 121 / 100000000 * d).
  { destruct H1 as (_ & B1 & _). destruct H2 as (_ & B2 & _). unfold dv in *. set (e1 := FR sr - vx) in *. set (e2 := FR sd - vy) in *.
    replace (FR sr * FR sd - d) with (e1 * vy + vx * e2 + e1 * e2) by (unfold e1, e2, d; ring).
    assert (G1 : Rabs e1 <= 6 / 10000000 * vx) by lra. assert (G2 : Rabs e2 <= 6 / 10000000 * vy) by lra.
    apply Rle_trans with (1 := Rabs_triang _ _). apply Rle_trans with (Rabs (e1 * vy) + Rabs (vx * e2) + Rabs (e1 * e2)); [apply Rplus_le_compat_r, Rabs_triang|].
    rewrite !Rabs_mult, (Rabs_pos_eq vx), (Rabs_pos_eq vy) by lra. pose proof (Rabs_pos e1). pose proof (Rabs_pos e2). unfold d.
    assert (Rabs e1 * vy <= 6 / 10000000 * (vx * vy)) by nra. assert (vx * Rabs e2 <= 6 / 10000000 * (vx * vy)) by nra.
    assert (Rabs e1 * Rabs e2 <= (6 / 10000000 * vx) * (6 / 10000000 * vy)) by (apply Rmult_le_compat; lra). unfold d in D1. lra. }
  assert (ZB : Rabs (FR sr * FR sd) <= 2 * d).
  { replace (FR sr * FR sd) with ((FR sr * FR sd - d) + d) by ring. apply Rle_trans with (1 := Rabs_triang _ _). rewrite (Rabs_pos_eq d) by lra. lra. }
  assert (P : near (nmul sr sd) d (122 / 100000000 * d) d).
  { apply (near_op _ (FR sr * FR sd) _ (121 / 100000000 * d) (2 * d)); [intros HH; apply FR_mul; [apply H1|apply H2|exact HH]|exact ZE|exact ZB|lra|lra| |rewrite Rabs_pos_eq; lra].
    assert (u * (2 * d) <= 1 / 10000000000 * d) by nra. lra. }
  destruct P as (PF & PE & _).
  assert (S0 : 0 < s) by (apply sqrt_lt_R0; lra).
  pose proof (sqrt_near (nmul sr sd) d (122 / 100000000) PF ltac:(lra) ltac:(lra) ltac:(lra) ltac:(lra) PE) as SN. fold s in SN.
  assert (SU : s <= 20000). { assert (s * s = d) by (apply sqrt_sqrt; lra). destruct (Rlt_le_dec 20000 s); [exfalso; nra|assumption]. }
  assert (DN : near (structure_denominator (nmul sr sd)) (s + 0.00045) (124 / 100000000 * (s + 0.00045)) (s + 0.001)).
  { unfold structure_denominator. cbn [nltb NumF nadd].
    assert (EQ : PrimFloat.ltb (nmul sr sd) (@n0 PrimFloat.float NumF) = false).
    { destruct (near_ofZ 0 0 ltac:(reflexivity) ltac:(rewrite Rabs_R0; lra)) as (F0 & E0 & _). change (@n0 PrimFloat.float NumF) with (F_ofZ 0).
      destruct (FR_ofZ 0 ltac:(reflexivity)) as [Z0 _].
      rewrite FR_ltb by assumption. rewrite Z0. apply Raux.Rlt_bool_false. pose proof (Rle_trans _ _ _ (Rle_abs (- (FR (nmul sr sd) - d))) ltac:(rewrite Rabs_Ropp; exact PE)). lra. }
    rewrite EQ. unfold small18 in C.
    apply (near_add _ _ _ _ _ _ _ _ (2 * (s + 0.001)) _ SN C).
    - assert ((122 / 100000000 + 2 * u) * s <= s / 2) by nra. lra.
    - lra.
    - lra.
    - assert (u * (2 * (s + 0.001)) <= 1 / 1000000000000 * (s + 0.001)) by nra. assert (2 * u * s <= 1 / 1000000000000 * s) by nra. lra. }
  assert (NN : near (nadd srd nsim_c3) (cv + 0.00045) (7 / 100000000000) 20001).
  { unfold dv, small18 in *. apply (near_weaken _ _ (7 / 100000000000) (20000 + 0.001)); [|lra|lra].
    apply (near_add _ _ _ _ _ _ _ _ 20001 _ H3 C); lra. }
  unfold ds. apply (near_div _ _ _ _ _ _ _ _ (s + 0.00045) 1 (16 / 10000000) _ NN DN); try lra.
  assert (HA := Rle_abs cv). assert (HB := Rle_abs (- cv)). rewrite Rabs_Ropp in HB. apply Rabs_le. lra.
Qed.
