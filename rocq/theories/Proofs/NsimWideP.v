(** Rounding errors of the patch similarity in binary64 for the values that occur in prepared spectrograms (C106). *)
From Coq Require Import ZArith List Bool Reals Lra Lia Floats.
From Verif Require Import Base.Res Base.Num Base.NumR Base.NumF Base.Lists Base.Mat Model.Amatrix Model.Nsim
  Spec.SmoothSpec Spec.StatSpec Spec.RoundSpec Proofs.RealP Proofs.ConvP Proofs.NsimP Proofs.B64P Proofs.RoundP Proofs.ScoresP Proofs.NsimRoundP Proofs.NsimRoundAllP.
Import ListNotations.
Open Scope R_scope.

(** finite values of at most 4100 *)
Definition wide (A : mat PrimFloat.float) : Prop := (0 < nrows A)%nat /\ (0 < ncols A)%nat /\
  forall r c, (r < nrows A)%nat -> (c < ncols A)%nat -> fin (at_ A r c) /\ Rabs (FR (at_ A r c)) <= 4100.

Definition wm : R := 65 / 10000000000000.
Lemma mu_wide A r c : wide A -> near (conv_elem nsim_window A r c) (sm A (vals A) r c) wm 4100.
Proof.
  intros (HR & HC & H). tb. apply (near_weaken _ _ (13 * (u * 4100)) 4100); [|unfold wm; lra|lra].
  apply smooth_near; [lra|assumption ..|]. intros i j Hi Hj. destruct (H i j Hi Hj) as [F B]. unfold vals.
  apply (near_weaken _ _ 0 4100); [now apply near_exact|lra|lra].
Qed.
Definition w2 : R := 27 / 1000000000.
Lemma prod_wide A B r c : wide A -> wide B -> nrows A = nrows B -> ncols A = ncols B ->
  near (conv_elem nsim_window (sq_tab A B) r c) (sm A (fun i j => vals A i j * vals B i j) r c) w2 16810000.
Proof.
  intros (HR & HC & H) (_ & _ & HB) ER EC. tb. apply (near_weaken _ _ (13 * (u * 16810000)) 16810000); [|unfold w2; lra|lra].
  change (nrows A) with (nrows (sq_tab A B)). change (ncols A) with (ncols (sq_tab A B)).
  apply smooth_near; [lra|assumption ..|]. unfold sq_tab. cbn [nrows ncols tab]. intros i j Hi Hj. rewrite at_tab by assumption.
  destruct (H i j Hi Hj) as [F1 B1]. destruct (HB i j ltac:(lia) ltac:(lia)) as [F2 B2]. unfold vals.
  apply (near_weaken _ _ (u * 16810000) (4100 * 4100)); [|lra|lra].
  apply (near_mul _ _ 0 4100 _ _ 0 4100 0 16810000); try (now apply near_exact); lra.
Qed.
Definition w3 : R := 56 / 1000000000.
Lemma musq_wide x r y s : near x r wm 4100 -> near y s wm 4100 -> near (nmul x y) (r * s) w3 16810000.
Proof.
  intros H1 H2. tb. unfold wm, w3 in *. apply (near_weaken _ _ (56 / 1000000000) (4100 * 4100)); [|lra|lra].
  apply (near_mul _ _ _ _ _ _ _ _ (534 / 10000000000) 16810001 _ H1 H2); lra.
Qed.
Definition wv : R := 88 / 1000000000.
Lemma var_wide x r y s : near x r w2 16810000 -> near y s w3 16810000 -> near (nsub x y) (r - s) wv 33620000.
Proof.
  intros H1 H2. tb. unfold w2, w3, wv in *. apply (near_weaken _ _ (88 / 1000000000) (16810000 + 16810000)); [|lra|lra].
  apply (near_sub _ _ _ _ _ _ _ _ 33620001 _ H1 H2); lra.
Qed.

(** *** the intensity term *)
Definition wi : R := 3 / 1000.
Lemma intensity_wide mr a md b : near mr a wm 4100 -> near md b wm 4100 ->
  near (ndiv (nadd (nmul (nmul mr md) (nofZ 2)) nsim_c1) (nadd (nadd (nmul mr mr) (nmul md md)) nsim_c1))
       ((2 * (a * b) + 0.0001) / (a * a + b * b + 0.0001)) wi 1.
Proof.
  intros H1 H2. tb. pose proof c1_near as C. pose proof two_near as T. pose proof (musq_wide _ _ _ _ H1 H2) as P. pose proof (musq_wide _ _ _ _ H1 H1) as P1. pose proof (musq_wide _ _ _ _ H2 H2) as P2.
  unfold w3, wm, wi, small18 in *.
  assert (N : near (nadd (nmul (nmul mr md) (nofZ 2)) nsim_c1) (2 * (a * b) + 0.0001) (121 / 1000000000) 33620001).
  { apply (near_weaken _ _ (121 / 1000000000) (16810000 * 2 + 0.001)); [|lra|lra]. rewrite (Rmult_comm 2).
    apply (near_add _ _ (1165 / 10000000000) (16810000 * 2) _ _ (1 / 1000000000000000000) 0.001 33620001); [|exact C|lra ..].
    apply (near_mul _ _ _ _ _ _ _ _ (112 / 1000000000) 33620001 _ P T); lra. }
  assert (D : near (nadd (nadd (nmul mr mr) (nmul md md)) nsim_c1) (a * a + b * b + 0.0001) (121 / 1000000000) 33620001).
  { apply (near_weaken _ _ (121 / 1000000000) (16810000 + 16810000 + 0.001)); [|lra|lra].
    apply (near_add _ _ (1165 / 10000000000) (16810000 + 16810000) _ _ (1 / 1000000000000000000) 0.001 33620001); [|exact C|lra ..].
    apply (near_add _ _ _ _ _ _ _ _ 33620001 _ P1 P2); lra. }
  pose proof (Rle_0_sqr a) as SA. pose proof (Rle_0_sqr b) as SB. pose proof (Rle_0_sqr (a - b)) as SM. pose proof (Rle_0_sqr (a + b)) as SP. unfold Rsqr in *.
  apply (near_div _ _ _ _ _ _ _ _ 0.0001 1 (25 / 10000) _ N D); try lra.
  apply Rabs_le. lra.
Qed.
Lemma intensity_self_wide m a : near m a wm 4100 ->
  near (ndiv (nadd (nmul (nmul m m) (nofZ 2)) nsim_c1) (nadd (nadd (nmul m m) (nmul m m)) nsim_c1)) 1 0 1.
Proof.
  intros H. tb. pose proof c1_near as C. pose proof two_near as T. pose proof (musq_wide _ _ _ _ H H) as P. set (q := nmul m m) in *. unfold w3, wm, small18 in *.
  assert (QV := near_value _ _ _ _ P).
  assert (N2 : near (nmul q (nofZ 2)) (a * a * 2) (1 / 1000000) 33620000). { apply (near_weaken _ _ (1 / 1000000) (16810000 * 2)); [|lra|lra]. apply (near_mul _ _ _ _ _ _ _ _ (112 / 1000000000) 33620001 _ P T); lra. }
  assert (N3 : near (nadd q q) (a * a + a * a) (1 / 1000000) 33620000). { apply (near_weaken _ _ (1 / 1000000) (16810000 + 16810000)); [|lra|lra]. apply (near_add _ _ _ _ _ _ _ _ 33620001 _ P P); lra. }
  assert (FQ : fin q) by apply P. destruct T as (FT & _ & _). destruct (FR_ofZ 2 ltac:(reflexivity)) as [T2 _].
  assert (RB : forall z, Rabs z <= 33620001 -> Rabs (rnd z) < fmax) by (intros z Hz; apply (rnd_fmax z 33620001); lra).
  assert (B2 : Rabs (FR q * 2) <= 33620001) by (rewrite Rabs_mult, (Rabs_pos_eq 2) by lra; lra).
  assert (E1 : FR (nmul q (nofZ 2)) = rnd (FR q * 2)).
  { cbn [nmul nofZ NumF]. rewrite <- T2. apply FR_mul; [exact FQ|exact FT|]. rewrite T2. now apply RB. }
  assert (E2 : FR (nadd q q) = rnd (FR q * 2)).
  { cbn [nadd NumF]. replace (FR q * 2) with (FR q + FR q) by ring. apply FR_add; [exact FQ|exact FQ|]. replace (FR q + FR q) with (FR q * 2) by ring. now apply RB. }
  assert (X : Rabs (FR (nmul q (nofZ 2)) + FR nsim_c1) <= 33620001).
  { apply Rle_trans with (1 := Rabs_triang _ _). pose proof (near_value _ _ _ _ N2). pose proof (near_value _ _ _ _ C). lra. }
  assert (N := near_add _ _ _ _ _ _ _ _ 33620001 (1 / 100000) N2 C ltac:(lra) ltac:(lra) ltac:(lra) ltac:(lra)).
  assert (F3 : fin (nadd q q)) by apply N3. assert (F2 : fin (nmul q (nofZ 2))) by apply N2. assert (FC : fin nsim_c1) by apply C.
  destruct (FR_add _ _ F2 FC (RB _ X)) as [E3 G3]. assert (X' := X). rewrite E1, <- E2 in X'. destruct (FR_add _ _ F3 FC (RB _ X')) as [E4 G4]. rewrite E2, <- E1, <- E3 in E4.
  assert (NZ : FR (nadd (nmul q (nofZ 2)) nsim_c1) <> 0).
  { destruct N as (_ & N & _). pose proof (Rle_0_sqr a). unfold Rsqr in *. intros E0. cbn [nadd NumF] in E0. rewrite E0 in N. rewrite Rabs_left in N by lra. lra. }
  cbn [ndiv NumF]. set (x := nadd (nmul q (nofZ 2)) nsim_c1) in *. set (y := nadd (nadd q q) nsim_c1) in *.
  change (FR y = FR x) in E4. change (fin x) in G3.
  assert (E5 : FR x / FR y = 1) by (rewrite E4; field; exact NZ).
  destruct (FR_div x y G3 ltac:(rewrite E4; exact NZ)) as [E6 G6].
  { rewrite E5. apply RB. rewrite Rabs_R1. lra. }
  rewrite E5, rnd_1 in E6. split; [exact G6|]. rewrite E6. split; [rewrite Rminus_diag_eq, Rabs_R0 by reflexivity; lra|rewrite Rabs_R1; lra].
Qed.

(** *** the structure term of a patch and itself *)
Lemma structure_self_wide s v : near s v wv 33620000 -> 0 <= v ->
  near (ndiv (nadd s nsim_c3) (structure_denominator (nmul s s))) 1 (45 / 100000) 1.
Proof.
  intros H V0. tb. pose proof c3_near as C. assert (SV := near_value _ _ _ _ H). destruct H as (F & D & _). set (z := FR s) in *. unfold wv, small18 in *.
  assert (Z0 := Rle_trans _ _ _ (Rle_abs (- (z - v))) ltac:(rewrite Rabs_Ropp; exact D)).
  assert (ZU := Rle_trans _ _ _ (Rle_abs z) SV). pose proof (Rabs_pos z) as ZP.
  assert (S2 : Rabs (z * z) <= 1200000000000000). { rewrite Rabs_mult. apply Rle_trans with (33620001 * 33620001); [apply Rmult_le_compat; lra|lra]. }
  destruct (FR_mul s s F F) as [E1 G1]. { fold z. apply (rnd_fmax _ 1200000000000000); lra. } fold z in E1. set (p := PrimFloat.mul s s) in *.
  assert (PE : Rabs (FR p - z * z) <= u * Rmax (z * z) tiny).
  { rewrite E1. apply rnd_err; [rewrite Rabs_pos_eq by apply Rle_0_sqr; apply Rmax_l|apply Rmax_r]. }
  assert (P0 : 0 <= FR p). { rewrite E1. unfold rnd. apply Flocq.Core.Generic_fmt.round_ge_generic; [apply Flocq.IEEE754.BinarySingleNaN.fexp_correct; reflexivity|apply Flocq.Core.Generic_fmt.valid_rnd_N|apply Flocq.Core.Generic_fmt.generic_format_0|apply Rle_0_sqr]. }
  assert (SN : near (PrimFloat.sqrt p) (Rabs z) (1 / 10000000000000 * Rabs z + 2 / 10000000000) (Rabs z)).
  { assert (FS : fin (PrimFloat.sqrt p)) by (apply fin_sqrt; assumption).
    assert (ZZ : z * z = Rabs z * Rabs z) by (rewrite <- Rabs_mult; symmetry; apply Rabs_pos_eq, Rle_0_sqr).
    assert (SZ : R_sqrt.sqrt (Rabs z * Rabs z) = Rabs z) by (apply sqrt_square; exact ZP).
    set (w := Rabs z) in *. rewrite ZZ in *.
    destruct (Rle_lt_dec (1 / 10000000000) w) as [HL|HL].
    - assert (W2 : 1 / 100000000000000000000 <= w * w) by nra. assert (EM : Rmax (w * w) tiny = w * w) by (apply Rmax_left; lra). rewrite EM in PE.
      pose proof (sqrt_close (FR p) (w * w) P0 ltac:(lra)) as SC. rewrite SZ in SC.
      assert (SC2 : Rabs (R_sqrt.sqrt (FR p) - w) <= u * w).
      { apply Rle_trans with (1 := SC). apply Rmult_le_reg_r with w; [lra|]. unfold Rdiv. rewrite Rmult_assoc, Rinv_l, Rmult_1_r by lra. rewrite Rmult_assoc. exact PE. }
      assert (UW : u * w <= 12 / 100000000000000000 * w) by (apply Rmult_le_compat_r; lra).
      assert (B : Rabs (R_sqrt.sqrt (FR p)) <= 2 * w).
      { replace (R_sqrt.sqrt (FR p)) with ((R_sqrt.sqrt (FR p) - w) + w) by ring. apply Rle_trans with (1 := Rabs_triang _ _). rewrite (Rabs_pos_eq w) by lra. lra. }
      apply (near_op _ (R_sqrt.sqrt (FR p)) _ (u * w) (2 * w)); [intros _; split; [apply FR_sqrt|exact FS]|exact SC2|exact B|lra|lra|lra|rewrite Rabs_pos_eq; lra].
    - assert (W2 : w * w <= 1 / 100000000000000000000) by nra.
      assert (EM : Rmax (w * w) tiny <= 1 / 100000000000000000000) by (apply Rmax_lub; lra).
      assert (PU : FR p <= 11 / 10 * (1 / 100000000000000000000)). { pose proof (Rle_trans _ _ _ (Rle_abs _) PE). assert (u * Rmax (w * w) tiny <= u * (1 / 100000000000000000000)) by (apply Rmult_le_compat_l; lra). nra. }
      assert (SU : R_sqrt.sqrt (FR p) <= 12 / 100000000000). { replace (12 / 100000000000) with (R_sqrt.sqrt (12 / 100000000000 * (12 / 100000000000))) by (apply sqrt_square; lra). apply sqrt_le_1_alt. lra. }
      pose proof (sqrt_pos (FR p)) as SP.
      apply (near_op _ (R_sqrt.sqrt (FR p)) _ (13 / 100000000000) (2 / 10000000000)); [intros _; split; [apply FR_sqrt|exact FS]|apply Rabs_le; lra|rewrite Rabs_pos_eq; lra|lra|lra|lra|rewrite Rabs_pos_eq; lra]. }
  assert (DN : near (structure_denominator p) (Rabs z + 0.00045) (1 / 1000000 * (Rabs z + 0.00045)) (Rabs z + 0.001)).
  { unfold structure_denominator. cbn [nltb NumF nadd nsqrt].
    assert (EQ : PrimFloat.ltb p (@n0 PrimFloat.float NumF) = false).
    { destruct (FR_ofZ 0 ltac:(reflexivity)) as [Z1 Z2]. change (@n0 PrimFloat.float NumF) with (F_ofZ 0). rewrite FR_ltb by assumption. rewrite Z1. now apply Raux.Rlt_bool_false. }
    rewrite EQ. apply (near_add _ _ _ _ _ _ _ _ (2 * (Rabs z + 0.001)) _ SN C); try lra.
    assert (u * (2 * (Rabs z + 0.001)) <= 12 / 100000000000000000 * (2 * (Rabs z + 0.001))) by (apply Rmult_le_compat_r; lra). lra. }
  assert (EO : forall x d, 0 < x -> d = x -> 1 = d / x) by (intros x d Hx ->; field; lra).
  assert (NN : near (nadd s nsim_c3) (Rabs z + 0.00045) (18 / 100000000 + 1 / 1000000 * (Rabs z + 0.00045)) (Rabs z + 0.001)).
  { assert (ZN : near s (Rabs z) (2 * (88 / 1000000000)) (Rabs z)).
    { split; [exact F|]. fold z. split; [|rewrite Rabs_Rabsolu; lra]. destruct (Rle_lt_dec 0 z) as [Hz|Hz]; [rewrite (Rabs_pos_eq z), Rminus_diag_eq, Rabs_R0 by (reflexivity || lra); lra|rewrite (Rabs_left z) by lra; apply Rabs_le; lra]. }
    apply (near_add _ _ _ _ _ _ _ _ (2 * (Rabs z + 0.001)) _ ZN C); try lra.
    assert (u * (2 * (Rabs z + 0.001)) <= 12 / 100000000000000000 * (2 * (Rabs z + 0.001))) by (apply Rmult_le_compat_r; lra). lra. }
  rewrite (EO (Rabs z + 0.00045) (Rabs z + 0.00045)) at 1 by lra.
  apply (near_div _ _ _ _ _ _ _ _ (Rabs z + 0.00045) 1 (43 / 100000) _ NN DN); try lra. rewrite Rabs_pos_eq; lra.
Qed.

(** *** the structure term of two patches is bounded *)
Lemma structure_wide sr vx sd vy srd cv : near sr vx wv 33620000 -> near sd vy wv 33620000 -> near srd cv wv 33620000 -> 0 <= vx -> 0 <= vy ->
  Rabs cv <= R_sqrt.sqrt (vx * vy) ->
  fin (ndiv (nadd srd nsim_c3) (structure_denominator (nmul sr sd))) /\ Rabs (FR (ndiv (nadd srd nsim_c3) (structure_denominator (nmul sr sd)))) <= 8600.
Proof.
  intros H1 H2 H3 X0 Y0 HC. tb. pose proof c3_near as C. unfold wv, small18 in *.
  assert (V1 := near_value _ _ _ _ H1). assert (V2 := near_value _ _ _ _ H2).
  assert (VX : vx <= 33620000). { destruct H1 as (_ & _ & B). rewrite Rabs_pos_eq in B; lra. }
  assert (VY : vy <= 33620000). { destruct H2 as (_ & _ & B). rewrite Rabs_pos_eq in B; lra. }
  destruct H1 as (F1 & D1 & _). destruct H2 as (F2 & D2 & _). apply Raux.Rabs_le_inv in D1. apply Raux.Rabs_le_inv in D2.
  set (s := R_sqrt.sqrt (vx * vy)) in *. assert (S0 : 0 <= s) by apply sqrt_pos. assert (P0 : 0 <= vx * vy) by (apply Rmult_le_pos; assumption). assert (SS : s * s = vx * vy) by (apply sqrt_sqrt; exact P0).
  (* the numerator *)
  assert (S1 : s <= 33620000). { replace 33620000 with (R_sqrt.sqrt (33620000 * 33620000)) by (apply sqrt_square; lra). apply sqrt_le_1_alt. apply Rmult_le_compat; lra. }
  assert (NN : near (nadd srd nsim_c3) (cv + 0.00045) (1 / 10000000 + 1 / 1000000 * (s + 0.001)) (s + 0.001)).
  { assert (N3 : near srd cv (88 / 1000000000) s) by (destruct H3 as (A1 & A2 & _); split; [exact A1|split; [exact A2|exact HC]]).
    apply (near_add _ _ _ _ _ _ _ _ (2 * (s + 0.001)) _ N3 C); try lra.
    assert (u * (2 * (s + 0.001)) <= 12 / 100000000000000000 * (2 * (s + 0.001))) by (apply Rmult_le_compat_r; lra). lra. }
  assert (NB : Rabs (FR (nadd srd nsim_c3)) <= 1001 / 1000 * (s + 0.001)) by (pose proof (near_value _ _ _ _ NN); lra).
  destruct NN as (FN & _ & _).
  (* the product *)
  assert (PB : Rabs (FR sr * FR sd) <= 1200000000000000). { rewrite Rabs_mult. apply Rle_trans with (33620001 * 33620001); [apply Rmult_le_compat; try apply Rabs_pos; lra|lra]. }
  destruct (FR_mul sr sd F1 F2) as [E1 G1]. { apply (rnd_fmax _ 1200000000000000); lra. } cbn [nmul NumF]. set (p := PrimFloat.mul sr sd) in *.
  assert (CB := near_value _ _ _ _ C). destruct C as (FC & DC & _). apply Raux.Rabs_le_inv in DC.
  assert (DEN : exists d, FR (structure_denominator p) = d /\ fin (structure_denominator p) /\ 44 / 100000 <= d /\
    (1 / 2500000 <= vx -> 1 / 2500000 <= vy -> 4 / 10 * s <= d)).
  { unfold structure_denominator. cbn [nltb NumF nadd nsqrt]. destruct (FR_ofZ 0 ltac:(reflexivity)) as [Z1 Z2]. change (@n0 PrimFloat.float NumF) with (F_ofZ 0). rewrite FR_ltb, Z1 by assumption.
    assert (BIG : 1 / 2500000 <= vx -> 1 / 2500000 <= vy -> 2 / 10 * (vx * vy) <= FR p).
    { intros Q1 Q2. assert (A1 : vx / 2 <= FR sr) by lra. assert (A2 : vy / 2 <= FR sd) by lra. assert (A3 : vx / 2 * (vy / 2) <= FR sr * FR sd) by (apply Rmult_le_compat; lra).
      assert (A4 : 1 / 10000000000000 <= vx * vy). { apply Rle_trans with (1 / 2500000 * (1 / 2500000)); [lra|]. apply Rmult_le_compat; lra. }
      pose proof (rnd_err (FR sr * FR sd) (FR sr * FR sd) ltac:(rewrite Rabs_pos_eq; lra) ltac:(lra)) as RE. rewrite <- E1 in RE. apply Raux.Rabs_le_inv in RE.
      assert (u * (FR sr * FR sd) <= 1 / 100 * (FR sr * FR sd)) by (apply Rmult_le_compat_r; lra). lra. }
    destruct (Raux.Rlt_bool_spec (FR p) 0) as [HL|HL].
    - eexists. split; [reflexivity|]. split; [exact FC|]. split; [lra|]. intros Q1 Q2. specialize (BIG Q1 Q2). lra.
    - set (q := PrimFloat.sqrt p). assert (FQ : fin q) by (apply fin_sqrt; assumption). assert (EQ : FR q = rnd (R_sqrt.sqrt (FR p))) by apply FR_sqrt.
      assert (PU : FR p <= 2000000000000000). { pose proof (rnd_err (FR sr * FR sd) 1200000000000000 PB ltac:(lra)) as RE. rewrite <- E1 in RE. apply Raux.Rabs_le_inv in RE. apply Raux.Rabs_le_inv in PB. lra. }
      assert (SU : R_sqrt.sqrt (FR p) <= 100000000). { replace 100000000 with (R_sqrt.sqrt (100000000 * 100000000)) by (apply sqrt_square; lra). apply sqrt_le_1_alt. lra. }
      pose proof (sqrt_pos (FR p)) as SP.
      assert (Q0 : 0 <= FR q). { rewrite EQ. unfold rnd. apply Flocq.Core.Generic_fmt.round_ge_generic; [apply Flocq.IEEE754.BinarySingleNaN.fexp_correct; reflexivity|apply Flocq.Core.Generic_fmt.valid_rnd_N|apply Flocq.Core.Generic_fmt.generic_format_0|exact SP]. }
      assert (QU : FR q <= 200000000). { pose proof (rnd_err (R_sqrt.sqrt (FR p)) 100000000 ltac:(rewrite Rabs_pos_eq; lra) ltac:(lra)) as RE. rewrite <- EQ in RE. apply Raux.Rabs_le_inv in RE. lra. }
      assert (AB : Rabs (FR q + FR nsim_c3) <= FR q + 0.001) by (rewrite Rabs_pos_eq; lra).
      destruct (FR_add q nsim_c3 FQ FC) as [E2 G2]. { apply (rnd_fmax _ (FR q + 0.001) AB); lra. }
      pose proof (rnd_err (FR q + FR nsim_c3) (FR q + 0.001) AB ltac:(lra)) as RE. rewrite <- E2 in RE. apply Raux.Rabs_le_inv in RE.
      assert (UE : u * (FR q + 0.001) <= 1 / 1000000 * (FR q + 0.001)) by (apply Rmult_le_compat_r; lra).
      eexists. split; [reflexivity|]. split; [exact G2|]. split; [lra|]. intros Q1 Q2. specialize (BIG Q1 Q2).
      assert (A4 : 1 / 10000000000000 <= vx * vy). { apply Rle_trans with (1 / 2500000 * (1 / 2500000)); [lra|]. apply Rmult_le_compat; lra. }
      assert (SL : 44 / 100 * s <= R_sqrt.sqrt (FR p)).
      { replace (44 / 100 * s) with (R_sqrt.sqrt (44 / 100 * s * (44 / 100 * s))) by (apply sqrt_square; lra). apply sqrt_le_1_alt. replace (44 / 100 * s * (44 / 100 * s)) with (1936 / 10000 * (s * s)) by field. rewrite SS. lra. }
      assert (SL0 : 1 / 100000000 <= s). { destruct (Rlt_le_dec s (1 / 100000000)); [exfalso; nra|assumption]. }
      pose proof (rnd_err (R_sqrt.sqrt (FR p)) (R_sqrt.sqrt (FR p)) ltac:(rewrite Rabs_pos_eq; lra) ltac:(lra)) as RQ. rewrite <- EQ in RQ. apply Raux.Rabs_le_inv in RQ.
      assert (u * R_sqrt.sqrt (FR p) <= 1 / 100 * R_sqrt.sqrt (FR p)) by (apply Rmult_le_compat_r; lra). lra. }
  destruct DEN as (d & ED & FD & DL & DB).
  assert (RAT : Rabs (FR (nadd srd nsim_c3)) <= 8590 * d).
  { apply Rle_trans with (1 := NB). destruct (Rle_lt_dec (1 / 2500000) vx) as [Q1|Q1]; [destruct (Rle_lt_dec (1 / 2500000) vy) as [Q2|Q2]|].
    - specialize (DB Q1 Q2). lra.
    - assert (s * s <= 33620000 * (1 / 2500000)) by (rewrite SS; apply Rmult_le_compat; lra). assert (s <= 367 / 100). { destruct (Rlt_le_dec (367 / 100) s); [exfalso; nra|assumption]. } lra.
    - assert (s * s <= 1 / 2500000 * 33620000) by (rewrite SS; apply Rmult_le_compat; lra). assert (s <= 367 / 100). { destruct (Rlt_le_dec (367 / 100) s); [exfalso; nra|assumption]. } lra. }
  cbn [ndiv NumF]. set (x := nadd srd nsim_c3) in *. set (y := structure_denominator p) in *.
  assert (QB : Rabs (FR x / FR y) <= 8590).
  { rewrite ED. unfold Rdiv. rewrite Rabs_mult, (Rabs_pos_eq (/ d)) by (left; apply Rinv_0_lt_compat; lra). apply Rmult_le_reg_r with d; [lra|]. rewrite Rmult_assoc, Rinv_l, Rmult_1_r by lra. exact RAT. }
  destruct (FR_div x y FN ltac:(rewrite ED; lra)) as [E6 G6]. { apply (rnd_fmax _ 8590 QB); lra. }
  split; [exact G6|]. rewrite E6. pose proof (rnd_err _ 8590 QB ltac:(lra)) as RE. replace (rnd (FR x / FR y)) with (rnd (FR x / FR y) - FR x / FR y + FR x / FR y) by ring. apply Rle_trans with (1 := Rabs_triang _ _). lra.
Qed.

(** *** entries *)
Lemma entry_wide (A B : mat PrimFloat.float) r c : wide A -> wide B -> nrows A = nrows B -> ncols A = ncols B ->
  let W := conv_elem nsim_window in
  let e := nsim_entry (W A r c) (W B r c) (W (sq_tab A A) r c) (W (sq_tab B B) r c) (W (sq_tab A B) r c) in
  fin e /\ Rabs (FR e) <= 8700.
Proof.
  intros HA HB ER EC W e. tb.
  pose proof (mu_wide A r c HA) as M1. pose proof (mu_wide B r c HB) as M2. rewrite <- ER, <- EC in M2.
  pose proof (prod_wide A A r c HA HA eq_refl eq_refl) as P1. pose proof (prod_wide B B r c HB HB eq_refl eq_refl) as P2. rewrite <- ER, <- EC in P2.
  pose proof (prod_wide A B r c HA HB ER EC) as P3.
  pose proof (var_wide _ _ _ _ P1 (musq_wide _ _ _ _ M1 M1)) as VA. pose proof (var_wide _ _ _ _ P2 (musq_wide _ _ _ _ M2 M2)) as VB. pose proof (var_wide _ _ _ _ P3 (musq_wide _ _ _ _ M1 M2)) as VC.
  pose proof (intensity_wide _ _ _ _ M1 M2) as I.
  pose proof (structure_wide _ _ _ _ _ _ VA VB VC) as St.
  assert (V1 : 0 <= sm A (fun i j => vals A i j * vals A i j) r c - sm A (vals A) r c * sm A (vals A) r c).
  { rewrite !smooth_wsum. exact (wvar_nonneg (fun p => vals A (clamped (nrows A) r (fst p)) (clamped (ncols A) c (snd p)))). }
  assert (V2 : 0 <= sm A (fun i j => vals B i j * vals B i j) r c - sm A (vals B) r c * sm A (vals B) r c).
  { rewrite !smooth_wsum. exact (wvar_nonneg (fun p => vals B (clamped (nrows A) r (fst p)) (clamped (ncols A) c (snd p)))). }
  specialize (St V1 V2). match type of St with (?P -> _) => assert (HC : P) end.
  { rewrite !smooth_wsum. exact (wcov_bound (fun p => vals A (clamped (nrows A) r (fst p)) (clamped (ncols A) c (snd p))) (fun p => vals B (clamped (nrows A) r (fst p)) (clamped (ncols A) c (snd p)))). }
  specialize (St HC). destruct St as [F2 B2]. assert (B1 := near_value _ _ _ _ I). destruct I as (F1 & _ & _). unfold wi in *. unfold e, nsim_entry. fold W in F1, F2, B1, B2.
  set (x := ndiv _ _) in F1, B1. set (y := ndiv _ (structure_denominator _)) in F2, B2. cbn [nmul NumF] in *.
  assert (Z : Rabs (FR x * FR y) <= 8690). { rewrite Rabs_mult. apply Rle_trans with (1.003 * 8600); [apply Rmult_le_compat; try apply Rabs_pos; lra|lra]. }
  destruct (FR_mul x y F1 F2) as [E G]. { apply (rnd_fmax _ 8690 Z); lra. }
  fold x y. split; [exact G|]. rewrite E. pose proof (rnd_err _ 8690 Z ltac:(lra)) as RE. replace (rnd (FR x * FR y)) with (rnd (FR x * FR y) - FR x * FR y + FR x * FR y) by ring. apply Rle_trans with (1 := Rabs_triang _ _). lra.
Qed.

(** *** a patch and itself *)
Theorem self_wide (A : mat PrimFloat.float) : wide A -> (Z.of_nat (nrows A) <= 1000000)%Z -> (Z.of_nat (ncols A) <= 1000000)%Z ->
  exists p, measure_patch_similarity A A = Ret p /\ fin (ps_sim p) /\ Rabs (FR (ps_sim p) - 1) <= 5 / 10000.
Proof.
  intros HA NR NC. assert (HA' := HA). destruct HA' as (HR & HC & _).
  destruct (measure_near A A (46 / 100000) (fun _ _ => 1) HR HC eq_refl eq_refl NR NC ltac:(lra)) as (p & E & F & D & _).
  - intros r c Hr Hc. tb. pose proof (mu_wide A r c HA) as M. pose proof (prod_wide A A r c HA HA eq_refl eq_refl) as P.
    pose proof (var_wide _ _ _ _ P (musq_wide _ _ _ _ M M)) as V.
    assert (V0 : 0 <= sm A (fun i j => vals A i j * vals A i j) r c - sm A (vals A) r c * sm A (vals A) r c).
    { rewrite !smooth_wsum. exact (wvar_nonneg (fun p => vals A (clamped (nrows A) r (fst p)) (clamped (ncols A) c (snd p)))). }
    pose proof (structure_self_wide _ _ V V0) as St. pose proof (intensity_self_wide _ _ M) as I. unfold nsim_entry.
    assert (Q := near_mul _ _ _ _ _ _ _ _ (45 / 100000) 2 (46 / 100000) I St ltac:(lra) ltac:(lra) ltac:(lra) ltac:(lra) ltac:(lra)).
    rewrite !Rmult_1_l in Q. exact Q.
  - exists p. split; [exact E|]. split; [exact F|].
    assert (T1 : forall n, (0 < n)%nat -> mean (map (fun _ : nat => 1) (seq 0 n)) = 1).
    { intros n Hn. unfold mean. rewrite map_length, seq_length. assert (T : forall l : list nat, total (map (fun _ => 1) l) = INR (length l)).
      { induction l as [|i l IH]; [reflexivity|]. cbn [map total fold_right length]. fold (total (map (fun _ : nat => 1) l)). rewrite IH, S_INR. ring. }
      rewrite T, seq_length. field. apply not_0_INR. lia. }
    rewrite (T1 (ncols A) HC), (T1 (nrows A) HR) in D. lra.
Qed.
