(** The similarity computed in binary64 against the exact one (C93). *)
From Coq Require Import ZArith List Bool Reals Lra Lia Floats.
From Verif Require Import Base.Res Base.Num Base.NumR Base.NumF Base.Lists Base.Mat Model.Amatrix Model.Nsim
  Spec.SmoothSpec Spec.StatSpec Spec.RoundSpec Proofs.RealP Proofs.ConvP Proofs.NsimP Proofs.B64P Proofs.RoundP Proofs.NsimRoundP.
Import ListNotations.
Open Scope R_scope.

Lemma fold_total l : fold_left Rplus l 0 = total l.
Proof. apply (fold_symmetric Rplus); intros; ring. Qed.
Lemma mean_near eps (l : list nat) (f : nat -> PrimFloat.float) (g : nat -> R) : 0 <= eps <= 1 / 100 -> l <> [] -> (Z.of_nat (length l) <= 1000000)%Z ->
  (forall i, In i l -> near (f i) (g i) eps 1) -> near (ndiv (nsum (map f l)) (nofnat (length l))) (mean (map g l)) (eps + 1 / 1000000000) 1.
Proof.
  intros HE HL HN H. pose proof (near_mean eps (map (fun i => (f i, g i)) l) HE) as M. rewrite map_length, !map_map in M. cbn [fst snd] in M.
  unfold mean. rewrite !map_length, <- fold_total. apply M; [destruct l; [congruence|discriminate]|exact HN|].
  apply Forall_forall. intros p Hp. apply in_map_iff in Hp. destruct Hp as (i & <- & Hi). now apply H.
Qed.

Lemma measure_near (A B : mat PrimFloat.float) eps (g : nat -> nat -> R) : (0 < nrows A)%nat -> (0 < ncols A)%nat -> nrows A = nrows B -> ncols A = ncols B ->
  (Z.of_nat (nrows A) <= 1000000)%Z -> (Z.of_nat (ncols A) <= 1000000)%Z -> 0 <= eps <= 1 / 200 ->
  let W := conv_elem nsim_window in
  (forall r c, (r < nrows A)%nat -> (c < ncols A)%nat ->
     near (nsim_entry (W A r c) (W B r c) (W (sq_tab A A) r c) (W (sq_tab B B) r c) (W (sq_tab A B) r c)) (g r c) eps 1) ->
  exists p, measure_patch_similarity A B = Ret p /\
    near (ps_sim p) (mean (map (fun r => mean (map (g r) (seq 0 (ncols A)))) (seq 0 (nrows A)))) (eps + 2 / 1000000000) 1.
Proof.
  intros HR HC ER EC NR NC HE W H. unfold measure_patch_similarity. rewrite nsim_map_spec by assumption. cbn [bind]. eexists. split; [reflexivity|]. cbn [ps_sim].
  set (S0 := tab (nrows A) (ncols A) _). unfold m_mean_rows. change (nrows S0) with (nrows A). change (ncols S0) with (ncols A).
  replace (Nat.eqb (ncols A) 0) with false by (symmetry; apply Nat.eqb_neq; lia).
  assert (EM : elems (tab (nrows A) 1 (fun r _ => vmean (row_list S0 r))) = map (fun r => vmean (row_list S0 r)) (seq 0 (nrows A))).
  { cbn [tab elems seq flat_map]. apply app_nil_r. }
  rewrite EM. change (nrows (tab (nrows A) 1 (fun r _ => vmean (row_list S0 r)))) with (nrows A).
  assert (NS : forall n, (0 < n)%nat -> seq 0 n <> []) by (intros [|n] Hn; [lia|discriminate]).
  pose proof (mean_near (eps + 1 / 1000000000) (seq 0 (nrows A)) (fun r => vmean (row_list S0 r)) (fun r => mean (map (g r) (seq 0 (ncols A))))) as M.
  rewrite seq_length in M.
  eapply near_weaken; [apply M|lra|lra]; [lra|now apply NS|exact NR|].
  intros r Hr. apply in_seq in Hr. unfold row_list. change (ncols S0) with (ncols A).
  unfold vmean. rewrite map_length. apply (mean_near eps (seq 0 (ncols A)) (fun c => at_ S0 r c)); [lra|now apply NS|rewrite seq_length; exact NC|].
  intros c Hc. apply in_seq in Hc. unfold S0. rewrite at_tab by lia. apply H; lia.
Qed.

(** *** general patches *)
Definition dtot : R := 4 / 1000000.
Lemma entry_near (A B : mat PrimFloat.float) r c : moderate A -> moderate B -> nrows A = nrows B -> ncols A = ncols B ->
  1 / 10000 <= local_variance (nrows A) (ncols A) (vals A) r c -> 1 / 10000 <= local_variance (nrows A) (ncols A) (vals B) r c ->
  let W := conv_elem nsim_window in
  near (nsim_entry (W A r c) (W B r c) (W (sq_tab A A) r c) (W (sq_tab B B) r c) (W (sq_tab A B) r c))
       (similarity (nrows A) (ncols A) (vals A) (vals B) r c) (dtot - 2 / 1000000000) 1.
Proof.
  intros HA HB ER EC V1 V2 W. tb.
  pose proof (mu_near A r c HA) as M1. pose proof (mu_near B r c HB) as M2. rewrite <- ER, <- EC in M2.
  pose proof (prod_near A A r c HA HA eq_refl eq_refl) as P1. pose proof (prod_near B B r c HB HB eq_refl eq_refl) as P2. rewrite <- ER, <- EC in P2.
  pose proof (prod_near A B r c HA HB ER EC) as P3. fold (local_variance (nrows A) (ncols A) (vals A) r c) in *.
  pose proof (var_near _ _ _ _ P1 (musq_near _ _ _ _ M1 M1)) as VA. pose proof (var_near _ _ _ _ P2 (musq_near _ _ _ _ M2 M2)) as VB. pose proof (var_near _ _ _ _ P3 (musq_near _ _ _ _ M1 M2)) as VC.
  pose proof (intensity_near _ _ _ _ M1 M2) as I.
  pose proof (structure_near _ _ _ _ _ _ VA VB VC V1 V2) as St.
  match type of St with (?P -> _) => assert (HC : P) end.
  { rewrite !smooth_wsum. exact (wcov_bound (fun p => vals A (clamped (nrows A) r (fst p)) (clamped (ncols A) c (snd p))) (fun p => vals B (clamped (nrows A) r (fst p)) (clamped (ncols A) c (snd p)))). }
  specialize (St HC). unfold di, ds, dtot in *. unfold nsim_entry, similarity. fold W in I, St.
  apply (near_weaken _ _ (34 / 10000000) (1 * 1)); [|lra|lra].
  apply (near_mul _ _ _ _ _ _ _ _ (33 / 10000000 + 1 / 100000000) 2 _ I St); lra.
Qed.

Theorem similarity_near (A B : mat PrimFloat.float) : moderate A -> moderate B -> nrows A = nrows B -> ncols A = ncols B ->
  (Z.of_nat (nrows A) <= 1000000)%Z -> (Z.of_nat (ncols A) <= 1000000)%Z ->
  (forall r c, (r < nrows A)%nat -> (c < ncols A)%nat -> 1 / 10000 <= local_variance (nrows A) (ncols A) (vals A) r c /\ 1 / 10000 <= local_variance (nrows A) (ncols A) (vals B) r c) ->
  exists p, measure_patch_similarity A B = Ret p /\ fin (ps_sim p) /\
    Rabs (FR (ps_sim p) - patch_similarity (nrows A) (ncols A) (vals A) (vals B)) <= 4 / 1000000.
Proof.
  intros HA HB ER EC NR NC HV. destruct HA as (HR & HC & HA').
  destruct (measure_near A B (dtot - 2 / 1000000000) (similarity (nrows A) (ncols A) (vals A) (vals B)) HR HC ER EC NR NC ltac:(unfold dtot; lra)) as (p & E & F & D & _).
  { intros r c Hr Hc. destruct (HV r c Hr Hc). apply entry_near; try assumption. now split. }
  exists p. split; [exact E|]. split; [exact F|]. eapply Rle_trans; [exact D|unfold dtot; lra].
Qed.

(** *** a patch and itself *)
Lemma rnd_1 : rnd 1 = 1.
Proof. apply (rnd_exact 1 0); [cbn; lra|reflexivity|lia]. Qed.
Lemma intensity_self m a : near m a dm 100 ->
  near (ndiv (nadd (nmul (nmul m m) (nofZ 2)) nsim_c1) (nadd (nadd (nmul m m) (nmul m m)) nsim_c1)) 1 0 1.
Proof.
  intros H. tb. pose proof c1_near as C. pose proof two_near as T. pose proof (musq_near _ _ _ _ H H) as P. set (q := nmul m m) in *. unfold d3, dm, small18 in *.
  assert (QV := near_value _ _ _ _ P).
  assert (N2 : near (nmul q (nofZ 2)) (a * a * 2) (1 / 1000000000) 20000). { apply (near_weaken _ _ (1 / 1000000000) (10000 * 2)); [|lra|lra]. apply (near_mul _ _ _ _ _ _ _ _ (66 / 1000000000000) 20001 _ P T); lra. }
  assert (N3 : near (nadd q q) (a * a + a * a) (1 / 1000000000) 20000). { apply (near_weaken _ _ (1 / 1000000000) (10000 + 10000)); [|lra|lra]. apply (near_add _ _ _ _ _ _ _ _ 20001 _ P P); lra. }
  assert (FQ : fin q) by apply P. destruct T as (FT & _ & _). destruct (FR_ofZ 2 ltac:(reflexivity)) as [T2 _].
  assert (RB : forall z, Rabs z <= 20001 -> Rabs (rnd z) < fmax) by (intros z Hz; apply (rnd_fmax z 20001); lra).
  assert (B2 : Rabs (FR q * 2) <= 20001) by (rewrite Rabs_mult, (Rabs_pos_eq 2) by lra; lra).
  assert (E1 : FR (nmul q (nofZ 2)) = rnd (FR q * 2)).
  { cbn [nmul nofZ NumF]. rewrite <- T2. apply FR_mul; [exact FQ|exact FT|]. rewrite T2. now apply RB. }
  assert (E2 : FR (nadd q q) = rnd (FR q * 2)).
  { cbn [nadd NumF]. replace (FR q * 2) with (FR q + FR q) by ring. apply FR_add; [exact FQ|exact FQ|]. replace (FR q + FR q) with (FR q * 2) by ring. now apply RB. }
  assert (X : Rabs (FR (nmul q (nofZ 2)) + FR nsim_c1) <= 20001).
  { apply Rle_trans with (1 := Rabs_triang _ _). pose proof (near_value _ _ _ _ N2). pose proof (near_value _ _ _ _ C). lra. }
  assert (N := near_add _ _ _ _ _ _ _ _ 20001 (1 / 100000000) N2 C ltac:(lra) ltac:(lra) ltac:(lra) ltac:(lra)).
  assert (F3 : fin (nadd q q)) by apply N3. assert (F2 : fin (nmul q (nofZ 2))) by apply N2. assert (FC : fin nsim_c1) by apply C.
  destruct (FR_add _ _ F2 FC (RB _ X)) as [E3 G3]. assert (X' := X). rewrite E1, <- E2 in X'. destruct (FR_add _ _ F3 FC (RB _ X')) as [E4 G4]. rewrite E2, <- E1, <- E3 in E4.
  assert (NZ : FR (nadd (nmul q (nofZ 2)) nsim_c1) <> 0).
  { destruct N as (_ & N & _). pose proof (Rle_0_sqr a). unfold Rsqr in *. intros E0. cbn [nadd NumF] in E0. rewrite E0 in N. rewrite Rabs_left in N by lra. lra. }
  cbn [ndiv NumF]. set (x := nadd (nmul q (nofZ 2)) nsim_c1) in *. set (y := nadd (nadd q q) nsim_c1) in *.
  change (FR y = FR x) in E4. change (fin x) in G3.
  assert (E5 : FR x / FR y = 1) by (rewrite E4; field; exact NZ).
  destruct (FR_div x y G3 ltac:(rewrite E4; exact NZ)) as [E6 G6].
  { rewrite E5. apply RB. rewrite Rabs_R1. lra. }
  rewrite E5, rnd_1 in E6. split; [exact G6|]. rewrite E6. split; [rewrite Rminus_diag_eq, Rabs_R0 by reflexivity; lra|rewrite Rabs_R1; lra].
Qed.

Lemma structure_self s v : near s v dv 20000 -> 0 <= v ->
  near (ndiv (nadd s nsim_c3) (structure_denominator (nmul s s))) 1 (2 / 1000000) 1.
Proof.
  intros H V0. tb. pose proof c3_near as C. assert (SV := near_value _ _ _ _ H). destruct H as (F & D & _). set (z := FR s) in *. unfold dv, small18 in *.
  assert (Z0 := Rle_trans _ _ _ (Rle_abs (- (z - v))) ltac:(rewrite Rabs_Ropp; exact D)).
  assert (ZU := Rle_trans _ _ _ (Rle_abs z) SV).
  assert (S2 : Rabs (z * z) <= 400000001). { rewrite Rabs_mult. apply Rle_trans with (20000.00001 * 20000.00001); [apply Rmult_le_compat; try apply Rabs_pos; lra|lra]. }
  destruct (FR_mul s s F F) as [E1 G1]. { fold z. apply (rnd_fmax _ 400000001); lra. } fold z in E1. set (p := PrimFloat.mul s s) in *.
  assert (PE : Rabs (FR p - z * z) <= u * Rmax (z * z) tiny).
  { rewrite E1. apply rnd_err; [rewrite Rabs_pos_eq by apply Rle_0_sqr; apply Rmax_l|apply Rmax_r]. }
  assert (P0 : 0 <= FR p). { rewrite E1. unfold rnd. apply Flocq.Core.Generic_fmt.round_ge_generic; [apply Flocq.IEEE754.BinarySingleNaN.fexp_correct; reflexivity|apply Flocq.Core.Generic_fmt.valid_rnd_N|apply Flocq.Core.Generic_fmt.generic_format_0|apply Rle_0_sqr]. }
  (* the denominator is close to |z| + C3 *)
  assert (SN : (Rabs z < 1 / 10000000000 -> near (PrimFloat.sqrt p) (Rabs z) (2 / 10000000000) 1) /\ (1 / 10000000000 <= Rabs z -> near (PrimFloat.sqrt p) (Rabs z) (1 / 10000000000000 * Rabs z) 20001)).
  { assert (FS : fin (PrimFloat.sqrt p)) by (apply fin_sqrt; assumption). pose proof (Rabs_pos z) as ZP.
    assert (ZZ : z * z = Rabs z * Rabs z) by (rewrite <- Rabs_mult; symmetry; apply Rabs_pos_eq, Rle_0_sqr).
    assert (SZ : R_sqrt.sqrt (Rabs z * Rabs z) = Rabs z) by (apply sqrt_square; exact ZP).
    set (w := Rabs z) in *. rewrite ZZ in *.
    destruct (Rle_lt_dec (1 / 10000000000) w) as [HL|HL].
    - assert (W2 : 1 / 100000000000000000000 <= w * w) by nra. assert (EM : Rmax (w * w) tiny = w * w) by (apply Rmax_left; lra). rewrite EM in PE.
      pose proof (sqrt_close (FR p) (w * w) P0 ltac:(lra)) as SC. rewrite SZ in SC.
      assert (SC2 : Rabs (R_sqrt.sqrt (FR p) - w) <= u * w).
      { apply Rle_trans with (1 := SC). apply Rmult_le_reg_r with w; [lra|]. unfold Rdiv. rewrite Rmult_assoc, Rinv_l, Rmult_1_r by lra. rewrite Rmult_assoc. exact PE. }
      assert (UW : u * w <= 12 / 100000000000000000 * w) by (apply Rmult_le_compat_r; lra).
      assert (B : Rabs (R_sqrt.sqrt (FR p)) <= 2 * w).
      { replace (R_sqrt.sqrt (FR p)) with ((R_sqrt.sqrt (FR p) - w) + w) by ring. apply Rle_trans with (1 := Rabs_triang _ _). rewrite (Rabs_pos_eq w) by lra. lra. }
      assert (Q : near (PrimFloat.sqrt p) w (1 / 10000000000000 * w) 20001).
      { apply (near_op _ (R_sqrt.sqrt (FR p)) _ (u * w) (2 * w)); [intros _; split; [apply FR_sqrt|exact FS]|exact SC2|exact B|lra|lra|lra|rewrite Rabs_pos_eq; lra]. }
      split; [lra|intros _; exact Q].
    - split; [intros _|lra]. assert (W2 : w * w <= 1 / 100000000000000000000) by nra.
      assert (EM : Rmax (w * w) tiny <= 1 / 100000000000000000000) by (apply Rmax_lub; lra).
      assert (PU : FR p <= 11 / 10 * (1 / 100000000000000000000)). { pose proof (Rle_trans _ _ _ (Rle_abs _) PE). assert (u * Rmax (w * w) tiny <= u * (1 / 100000000000000000000)) by (apply Rmult_le_compat_l; lra). nra. }
      assert (SU : R_sqrt.sqrt (FR p) <= 12 / 100000000000). { replace (12 / 100000000000) with (R_sqrt.sqrt (12 / 100000000000 * (12 / 100000000000))) by (apply sqrt_square; lra). apply sqrt_le_1_alt. lra. }
      pose proof (sqrt_pos (FR p)) as SP.
      apply (near_op _ (R_sqrt.sqrt (FR p)) _ (13 / 100000000000) (2 / 10000000000)); [intros _; split; [apply FR_sqrt|exact FS]|apply Rabs_le; lra|rewrite Rabs_pos_eq; lra|lra|lra|lra|rewrite Rabs_pos_eq; lra]. }
  assert (DN : (Rabs z < 1 / 10000000000 -> near (structure_denominator p) (Rabs z + 0.00045) (4 / 10000000000) 2) /\ (1 / 10000000000 <= Rabs z -> near (structure_denominator p) (Rabs z + 0.00045) (1 / 1000000000000 * (Rabs z + 0.00045)) 20002)).
  { unfold structure_denominator. cbn [nltb NumF nadd nsqrt].
    assert (EQ : PrimFloat.ltb p (@n0 PrimFloat.float NumF) = false).
    { destruct (FR_ofZ 0 ltac:(reflexivity)) as [Z1 Z2]. change (@n0 PrimFloat.float NumF) with (F_ofZ 0). rewrite FR_ltb by assumption. rewrite Z1. now apply Raux.Rlt_bool_false. }
    rewrite EQ. pose proof (Rabs_pos z). destruct SN as [N1 N2]. split.
    - intros HL. specialize (N1 HL). apply (near_weaken _ _ (4 / 10000000000) (1 + 0.001)); [|lra|lra]. apply (near_add _ _ _ _ _ _ _ _ 2 _ N1 C); lra.
    - intros HL. specialize (N2 HL). apply (near_weaken _ _ (1 / 1000000000000 * (Rabs z + 0.00045)) (Rabs z + 0.001)); [|lra|lra].
      assert (N3 : near (PrimFloat.sqrt p) (Rabs z) (1 / 10000000000000 * Rabs z) (Rabs z)) by (destruct N2 as (A1 & A2 & _); split; [exact A1|split; [exact A2|rewrite Rabs_pos_eq; lra]]).
      apply (near_add _ _ _ _ _ _ _ _ (2 * (Rabs z + 0.001)) _ N3 C); try lra.
      assert (u * (2 * (Rabs z + 0.001)) <= 12 / 100000000000000000 * (2 * (Rabs z + 0.001))) by (apply Rmult_le_compat_r; lra). lra. }
  assert (EO : forall x d, 0 < x -> d = x -> 1 = d / x) by (intros x d Hx ->; field; lra).
  assert (ZN : near s z 0 20001). { apply near_exact; [exact F|]. fold z. lra. }
  pose proof (Rabs_pos z) as ZP.
  destruct (Rle_lt_dec (1 / 10000000000) (Rabs z)) as [HL|HL].
  - assert (ZE : Rabs z = z). { apply Rabs_pos_eq. destruct (Rlt_le_dec z 0); [exfalso; rewrite Rabs_left in HL by lra; lra|assumption]. }
    destruct DN as [_ DN]. specialize (DN HL). rewrite ZE in *.
    assert (ZN' : near s z 0 z) by (destruct ZN as (A1 & A2 & _); split; [exact A1|split; [exact A2|rewrite ZE; lra]]).
    assert (NN : near (nadd s nsim_c3) (z + 0.00045) (1 / 1000000000000 * (z + 0.00045)) (z + 0.001)).
    { apply (near_add _ _ _ _ _ _ _ _ (2 * (z + 0.001)) _ ZN' C); try lra.
      assert (u * (2 * (z + 0.001)) <= 12 / 100000000000000000 * (2 * (z + 0.001))) by (apply Rmult_le_compat_r; lra). lra. }
    rewrite (EO (z + 0.00045) (z + 0.00045)) at 1 by lra.
    apply (near_div _ _ _ _ _ _ _ _ (z + 0.00045) 1 (3 / 1000000000000) _ NN DN); try lra. rewrite Rabs_pos_eq; lra.
  - destruct DN as [DN _]. specialize (DN HL). assert (ZB := Rle_abs z). assert (ZB2 := Rle_abs (- z)). rewrite Rabs_Ropp in ZB2.
    assert (NN : near (nadd s nsim_c3) (Rabs z + 0.00045) (3 / 10000000000) 1).
    { assert (ZN' : near s (Rabs z) (2 / 10000000000) 0.5). { split; [exact F|]. fold z. split; [apply Rabs_le; lra|rewrite Rabs_Rabsolu; lra]. }
      apply (near_weaken _ _ (3 / 10000000000) (0.5 + 0.001)); [|lra|lra]. apply (near_add _ _ _ _ _ _ _ _ 1 _ ZN' C); lra. }
    rewrite (EO (Rabs z + 0.00045) (Rabs z + 0.00045)) at 1 by lra.
    apply (near_weaken _ _ (2 / 1000000) 1); [|lra|lra].
    apply (near_div _ _ _ _ _ _ _ _ 0.00045 1 (16 / 10000000) _ NN DN); try lra. rewrite Rabs_pos_eq; lra.
Qed.

Theorem self_near (A : mat PrimFloat.float) : moderate A -> (Z.of_nat (nrows A) <= 1000000)%Z -> (Z.of_nat (ncols A) <= 1000000)%Z ->
  exists p, measure_patch_similarity A A = Ret p /\ fin (ps_sim p) /\ Rabs (FR (ps_sim p) - 1) <= 3 / 1000000.
Proof.
  intros HA NR NC. assert (HA' := HA). destruct HA' as (HR & HC & _).
  destruct (measure_near A A (25 / 10000000) (fun _ _ => 1) HR HC eq_refl eq_refl NR NC ltac:(lra)) as (p & E & F & D & _).
  - intros r c Hr Hc. tb. pose proof (mu_near A r c HA) as M. pose proof (prod_near A A r c HA HA eq_refl eq_refl) as P.
    pose proof (var_near _ _ _ _ P (musq_near _ _ _ _ M M)) as V.
    assert (V0 : 0 <= sm A (fun i j => vals A i j * vals A i j) r c - sm A (vals A) r c * sm A (vals A) r c).
    { rewrite !smooth_wsum. exact (wvar_nonneg (fun p => vals A (clamped (nrows A) r (fst p)) (clamped (ncols A) c (snd p)))). }
    pose proof (structure_self _ _ V V0) as St. pose proof (intensity_self _ _ M) as I. unfold nsim_entry.
    assert (Q := near_mul _ _ _ _ _ _ _ _ (2 / 1000000) 2 (25 / 10000000) I St ltac:(lra) ltac:(lra) ltac:(lra) ltac:(lra) ltac:(lra)).
    rewrite !Rmult_1_l in Q. exact Q.
  - exists p. split; [exact E|]. split; [exact F|].
    assert (T1 : forall n, (0 < n)%nat -> mean (map (fun _ : nat => 1) (seq 0 n)) = 1).
    { intros n Hn. unfold mean. rewrite map_length, seq_length. assert (T : forall l : list nat, total (map (fun _ => 1) l) = INR (length l)).
      { induction l as [|i l IH]; [reflexivity|]. cbn [map total fold_right length]. fold (total (map (fun _ : nat => 1) l)). rewrite IH, S_INR. ring. }
      rewrite T, seq_length. field. apply not_0_INR. lia. }
    rewrite (T1 (ncols A) HC), (T1 (nrows A) HR) in D. lra.
Qed.
