(** The computed similarity of two patches of moderate values is at most 4 in magnitude, however flat they are (C94). *)
From Coq Require Import ZArith List Bool Reals Lra Lia Floats.
From Verif Require Import Base.Res Base.Num Base.NumR Base.NumF Base.Lists Base.Mat Model.Amatrix Model.Nsim
  Spec.SmoothSpec Spec.StatSpec Spec.RoundSpec Proofs.RealP Proofs.ConvP Proofs.NsimP Proofs.B64P Proofs.RoundP Proofs.ScoresP Proofs.BoundP Proofs.NsimRoundP Proofs.NsimRoundAllP Proofs.NsimWideP.
Import ListNotations.
Open Scope R_scope.

Lemma structure_any sr vx sd vy srd cv : near sr vx dv 20000 -> near sd vy dv 20000 -> near srd cv dv 20000 -> 0 <= vx <= 10000 -> 0 <= vy <= 10000 ->
  Rabs cv <= R_sqrt.sqrt (vx * vy) ->
  fin (ndiv (nadd srd nsim_c3) (structure_denominator (nmul sr sd))) /\ Rabs (FR (ndiv (nadd srd nsim_c3) (structure_denominator (nmul sr sd)))) <= 36 / 10.
Proof.
  intros H1 H2 H3 [X0 VX] [Y0 VY] HC. tb. pose proof c3_near as C. unfold dv, small18 in *.
  assert (V1 := near_value _ _ _ _ H1). assert (V2 := near_value _ _ _ _ H2).
  destruct H1 as (F1 & D1 & _). destruct H2 as (F2 & D2 & _). apply Raux.Rabs_le_inv in D1. apply Raux.Rabs_le_inv in D2.
  set (s := R_sqrt.sqrt (vx * vy)) in *. assert (S0 : 0 <= s) by apply sqrt_pos. assert (P0 : 0 <= vx * vy) by (apply Rmult_le_pos; assumption). assert (SS : s * s = vx * vy) by (apply sqrt_sqrt; exact P0).
  (* the numerator *)
  assert (S1 : s <= 10000). { replace 10000 with (R_sqrt.sqrt (10000 * 10000)) by (apply sqrt_square; lra). apply sqrt_le_1_alt. apply Rmult_le_compat; lra. }
  assert (NN : near (nadd srd nsim_c3) (cv + 0.00045) (1 / 10000000 + 1 / 1000000 * (s + 0.00045)) (s + 0.00045)).
  { assert (N3 : near srd cv (6 / 100000000000) s) by (destruct H3 as (A1 & A2 & _); split; [exact A1|split; [exact A2|exact HC]]).
    assert (C' : near nsim_c3 0.00045 (1 / 1000000000000000000) 0.00045) by (destruct C as (A1 & A2 & _); split; [exact A1|split; [exact A2|rewrite Rabs_pos_eq; lra]]).
    apply (near_add _ _ _ _ _ _ _ _ (2 * (s + 0.00045)) _ N3 C'); try lra.
    assert (u * (2 * (s + 0.00045)) <= 12 / 100000000000000000 * (2 * (s + 0.00045))) by (apply Rmult_le_compat_r; lra). lra. }
  assert (NB : Rabs (FR (nadd srd nsim_c3)) <= 1001 / 1000 * (s + 0.00045)) by (pose proof (near_value _ _ _ _ NN); lra).
  destruct NN as (FN & _ & _).
  (* the product *)
  assert (PB : Rabs (FR sr * FR sd) <= 401000000). { rewrite Rabs_mult. apply Rle_trans with (20001 * 20001); [apply Rmult_le_compat; try apply Rabs_pos; lra|lra]. }
  destruct (FR_mul sr sd F1 F2) as [E1 G1]. { apply (rnd_fmax _ 401000000); lra. } cbn [nmul NumF]. set (p := PrimFloat.mul sr sd) in *.
  assert (CB := near_value _ _ _ _ C). destruct C as (FC & DC & _). apply Raux.Rabs_le_inv in DC.
  assert (DEN : exists d, FR (structure_denominator p) = d /\ fin (structure_denominator p) /\ 44 / 100000 <= d /\
    (9 / 100000000000 <= vx -> 9 / 100000000000 <= vy -> 33 / 100 * s + 44 / 100000 <= d)).
  { unfold structure_denominator. cbn [nltb NumF nadd nsqrt]. destruct (FR_ofZ 0 ltac:(reflexivity)) as [Z1 Z2]. change (@n0 PrimFloat.float NumF) with (F_ofZ 0). rewrite FR_ltb, Z1 by assumption.
    assert (BIG : 9 / 100000000000 <= vx -> 9 / 100000000000 <= vy -> 11 / 100 * (vx * vy) <= FR p).
    { intros Q1 Q2. assert (A1 : vx / 3 <= FR sr) by lra. assert (A2 : vy / 3 <= FR sd) by lra. assert (A3 : vx / 3 * (vy / 3) <= FR sr * FR sd) by (apply Rmult_le_compat; lra).
      assert (A4 : 8 / 1000000000000000000000 <= vx * vy). { apply Rle_trans with (9 / 100000000000 * (9 / 100000000000)); [lra|]. apply Rmult_le_compat; lra. }
      pose proof (rnd_err (FR sr * FR sd) (FR sr * FR sd) ltac:(rewrite Rabs_pos_eq; lra) ltac:(lra)) as RE. rewrite <- E1 in RE. apply Raux.Rabs_le_inv in RE.
      assert (u * (FR sr * FR sd) <= 1 / 1000 * (FR sr * FR sd)) by (apply Rmult_le_compat_r; lra). lra. }
    destruct (Raux.Rlt_bool_spec (FR p) 0) as [HL|HL].
    - eexists. split; [reflexivity|]. split; [exact FC|]. split; [lra|]. intros Q1 Q2. specialize (BIG Q1 Q2). lra.
    - set (q := PrimFloat.sqrt p). assert (FQ : fin q) by (apply fin_sqrt; assumption). assert (EQ : FR q = rnd (R_sqrt.sqrt (FR p))) by apply FR_sqrt.
      assert (PU : FR p <= 500000000). { pose proof (rnd_err (FR sr * FR sd) 401000000 PB ltac:(lra)) as RE. rewrite <- E1 in RE. apply Raux.Rabs_le_inv in RE. apply Raux.Rabs_le_inv in PB. lra. }
      assert (SU : R_sqrt.sqrt (FR p) <= 100000000). { replace 100000000 with (R_sqrt.sqrt (100000000 * 100000000)) by (apply sqrt_square; lra). apply sqrt_le_1_alt. lra. }
      pose proof (sqrt_pos (FR p)) as SP.
      assert (Q0 : 0 <= FR q). { rewrite EQ. unfold rnd. apply Flocq.Core.Generic_fmt.round_ge_generic; [apply Flocq.IEEE754.BinarySingleNaN.fexp_correct; reflexivity|apply Flocq.Core.Generic_fmt.valid_rnd_N|apply Flocq.Core.Generic_fmt.generic_format_0|exact SP]. }
      assert (QU : FR q <= 200000000). { pose proof (rnd_err (R_sqrt.sqrt (FR p)) 100000000 ltac:(rewrite Rabs_pos_eq; lra) ltac:(lra)) as RE. rewrite <- EQ in RE. apply Raux.Rabs_le_inv in RE. lra. }
      assert (AB : Rabs (FR q + FR nsim_c3) <= FR q + 0.001) by (rewrite Rabs_pos_eq; lra).
      destruct (FR_add q nsim_c3 FQ FC) as [E2 G2]. { apply (rnd_fmax _ (FR q + 0.001) AB); lra. }
      pose proof (rnd_err (FR q + FR nsim_c3) (FR q + 0.001) AB ltac:(lra)) as RE. rewrite <- E2 in RE. apply Raux.Rabs_le_inv in RE.
      assert (UE : u * (FR q + 0.001) <= 1 / 1000000 * (FR q + 0.001)) by (apply Rmult_le_compat_r; lra).
      eexists. split; [reflexivity|]. split; [exact G2|]. split; [lra|]. intros Q1 Q2. specialize (BIG Q1 Q2).
      assert (A4 : 8 / 1000000000000000000000 <= vx * vy). { apply Rle_trans with (9 / 100000000000 * (9 / 100000000000)); [lra|]. apply Rmult_le_compat; lra. }
      assert (SL : 331 / 1000 * s <= R_sqrt.sqrt (FR p)).
      { replace (331 / 1000 * s) with (R_sqrt.sqrt (331 / 1000 * s * (331 / 1000 * s))) by (apply sqrt_square; lra). apply sqrt_le_1_alt. replace (331 / 1000 * s * (331 / 1000 * s)) with (109561 / 1000000 * (s * s)) by field. rewrite SS. lra. }
      assert (SL0 : 8 / 100000000000 <= s). { destruct (Rlt_le_dec s (8 / 100000000000)); [exfalso; nra|assumption]. }
      pose proof (rnd_err (R_sqrt.sqrt (FR p)) (R_sqrt.sqrt (FR p)) ltac:(rewrite Rabs_pos_eq; lra) ltac:(lra)) as RQ. rewrite <- EQ in RQ. apply Raux.Rabs_le_inv in RQ.
      assert (u * R_sqrt.sqrt (FR p) <= 1 / 1000 * R_sqrt.sqrt (FR p)) by (apply Rmult_le_compat_r; lra). lra. }
  destruct DEN as (d & ED & FD & DL & DB).
  assert (RAT : Rabs (FR (nadd srd nsim_c3)) <= (35 / 10) * d).
  { apply Rle_trans with (1 := NB). destruct (Rle_lt_dec (9 / 100000000000) vx) as [Q1|Q1]; [destruct (Rle_lt_dec (9 / 100000000000) vy) as [Q2|Q2]|].
    - specialize (DB Q1 Q2). lra.
    - assert (s * s <= 10000 * (9 / 100000000000)) by (rewrite SS; apply Rmult_le_compat; lra). assert (s <= 95 / 100000). { destruct (Rlt_le_dec (95 / 100000) s); [exfalso; nra|assumption]. } lra.
    - assert (s * s <= 9 / 100000000000 * 10000) by (rewrite SS; apply Rmult_le_compat; lra). assert (s <= 95 / 100000). { destruct (Rlt_le_dec (95 / 100000) s); [exfalso; nra|assumption]. } lra. }
  cbn [ndiv NumF]. set (x := nadd srd nsim_c3) in *. set (y := structure_denominator p) in *.
  assert (QB : Rabs (FR x / FR y) <= (35 / 10)).
  { rewrite ED. unfold Rdiv. rewrite Rabs_mult, (Rabs_pos_eq (/ d)) by (left; apply Rinv_0_lt_compat; lra). apply Rmult_le_reg_r with d; [lra|]. rewrite Rmult_assoc, Rinv_l, Rmult_1_r by lra. exact RAT. }
  destruct (FR_div x y FN ltac:(rewrite ED; lra)) as [E6 G6]. { apply (rnd_fmax _ (35 / 10) QB); lra. }
  split; [exact G6|]. rewrite E6. pose proof (rnd_err _ (35 / 10) QB ltac:(lra)) as RE. replace (rnd (FR x / FR y)) with (rnd (FR x / FR y) - FR x / FR y + FR x / FR y) by ring. apply Rle_trans with (1 := Rabs_triang _ _). lra.
Qed.

(** *** entries *)
Lemma entry_any (A B : mat PrimFloat.float) r c : moderate A -> moderate B -> nrows A = nrows B -> ncols A = ncols B ->
  let W := conv_elem nsim_window in
  let e := nsim_entry (W A r c) (W B r c) (W (sq_tab A A) r c) (W (sq_tab B B) r c) (W (sq_tab A B) r c) in
  fin e /\ Rabs (FR e) <= 37 / 10.
Proof.
  intros HA HB ER EC W e. tb.
  pose proof (mu_near A r c HA) as M1. pose proof (mu_near B r c HB) as M2. rewrite <- ER, <- EC in M2.
  pose proof (prod_near A A r c HA HA eq_refl eq_refl) as P1. pose proof (prod_near B B r c HB HB eq_refl eq_refl) as P2. rewrite <- ER, <- EC in P2.
  pose proof (prod_near A B r c HA HB ER EC) as P3.
  pose proof (var_near _ _ _ _ P1 (musq_near _ _ _ _ M1 M1)) as VA. pose proof (var_near _ _ _ _ P2 (musq_near _ _ _ _ M2 M2)) as VB. pose proof (var_near _ _ _ _ P3 (musq_near _ _ _ _ M1 M2)) as VC.
  pose proof (intensity_near _ _ _ _ M1 M2) as I.
  pose proof (structure_any _ _ _ _ _ _ VA VB VC) as St.
  assert (V1' : 0 <= sm A (fun i j => vals A i j * vals A i j) r c - sm A (vals A) r c * sm A (vals A) r c).
  { rewrite !smooth_wsum. exact (wvar_nonneg (fun p => vals A (clamped (nrows A) r (fst p)) (clamped (ncols A) c (snd p)))). }
  assert (V2' : 0 <= sm A (fun i j => vals B i j * vals B i j) r c - sm A (vals B) r c * sm A (vals B) r c).
  { rewrite !smooth_wsum. exact (wvar_nonneg (fun p => vals B (clamped (nrows A) r (fst p)) (clamped (ncols A) c (snd p)))). }
  assert (V1 : 0 <= sm A (fun i j => vals A i j * vals A i j) r c - sm A (vals A) r c * sm A (vals A) r c <= 10000).
  { split; [exact V1'|]. destruct P1 as (_ & _ & Q). apply Raux.Rabs_le_inv in Q. pose proof (Rle_0_sqr (sm A (vals A) r c)) as SQ. unfold Rsqr in SQ. lra. }
  assert (V2 : 0 <= sm A (fun i j => vals B i j * vals B i j) r c - sm A (vals B) r c * sm A (vals B) r c <= 10000).
  { split; [exact V2'|]. destruct P2 as (_ & _ & Q). apply Raux.Rabs_le_inv in Q. pose proof (Rle_0_sqr (sm A (vals B) r c)) as SQ. unfold Rsqr in SQ. lra. }
  specialize (St V1 V2). match type of St with (?P -> _) => assert (HC : P) end.
  { rewrite !smooth_wsum. exact (wcov_bound (fun p => vals A (clamped (nrows A) r (fst p)) (clamped (ncols A) c (snd p))) (fun p => vals B (clamped (nrows A) r (fst p)) (clamped (ncols A) c (snd p)))). }
  specialize (St HC). destruct St as [F2 B2]. assert (B1 := near_value _ _ _ _ I). destruct I as (F1 & _ & _). unfold di in *. unfold e, nsim_entry. fold W in F1, F2, B1, B2.
  set (x := ndiv _ _) in F1, B1. set (y := ndiv _ (structure_denominator _)) in F2, B2. cbn [nmul NumF] in *.
  assert (Z : Rabs (FR x * FR y) <= (365 / 100)). { rewrite Rabs_mult. apply Rle_trans with (1.003 * (36 / 10)); [apply Rmult_le_compat; try apply Rabs_pos; lra|lra]. }
  destruct (FR_mul x y F1 F2) as [E G]. { apply (rnd_fmax _ (365 / 100) Z); lra. }
  fold x y. split; [exact G|]. rewrite E. pose proof (rnd_err _ (365 / 100) Z ltac:(lra)) as RE. replace (rnd (FR x * FR y)) with (rnd (FR x * FR y) - FR x * FR y + FR x * FR y) by ring. apply Rle_trans with (1 := Rabs_triang _ _). lra.
Qed.


(** *** the mean of bounded numbers has their bound *)
Lemma mean_sharp k (l : list PrimFloat.float) : (-1000 <= k < 900)%Z -> l <> [] -> (Z.of_nat (length l) <= 2 ^ 31)%Z -> Forall (bd k) l ->
  bd k (ndiv (nsum l) (nofnat (length l))).
Proof.
  intros Hk Hl Hn H. destruct (FR_ofZ 0 ltac:(lia)) as [E0 F0].
  destruct (bd_fold k ltac:(lia) ltac:(lia) l (F_ofZ 0) 0 ltac:(lia) ltac:(lia) H F0) as [G B]; [rewrite E0, Rabs_R0; lra|]. rewrite Z.add_0_l in B.
  destruct (FR_ofZ (Z.of_nat (length l)) ltac:(lia)) as [E1 F1].
  assert (N1 : 1 <= IZR (Z.of_nat (length l))) by (apply IZR_le; destruct l; [congruence|cbn [length]; lia]).
  change (nsum l) with (fold_left PrimFloat.add l (F_ofZ 0)). change (nofnat (length l)) with (F_ofZ (Z.of_nat (length l))).
  set (s := fold_left PrimFloat.add l (F_ofZ 0)) in *. set (n := F_ofZ (Z.of_nat (length l))) in *. cbn [ndiv NumF].
  apply (bd_op k _ (FR s / FR n)); [lia| |apply FR_div; [exact G|rewrite E1; lra]].
  unfold Rdiv. rewrite Rabs_mult, E1, (Rabs_pos_eq (/ _)) by (left; apply Rinv_0_lt_compat; lra).
  apply Rmult_le_reg_r with (IZR (Z.of_nat (length l))); [lra|]. rewrite Rmult_assoc, Rinv_l, Rmult_1_r by lra. lra.
Qed.

(** *** the similarity *)
Lemma measure_any (A B : mat PrimFloat.float) : moderate A -> moderate B -> nrows A = nrows B -> ncols A = ncols B ->
  (Z.of_nat (nrows A) <= 1000000)%Z -> (Z.of_nat (ncols A) <= 1000000)%Z ->
  exists p, measure_patch_similarity A B = Ret p /\ (fin (ps_sim p) /\ Rabs (FR (ps_sim p)) <= 4) /\ Forall (fun x => fin x /\ Rabs (FR x) <= 4) (elems (ps_means p)).
Proof.
  intros HA HB ER EC NR NC. assert (HA' := HA). destruct HA' as (HR & HC & _).
  unfold measure_patch_similarity. rewrite nsim_map_spec by assumption. cbn [bind]. eexists. split; [reflexivity|]. cbn [ps_sim ps_means].
  set (S0 := tab (nrows A) (ncols A) _). unfold m_mean_rows. change (nrows S0) with (nrows A). change (ncols S0) with (ncols A).
  replace (Nat.eqb (ncols A) 0) with false by (symmetry; apply Nat.eqb_neq; lia).
  assert (EM : elems (tab (nrows A) 1 (fun r _ => vmean (row_list S0 r))) = map (fun r => vmean (row_list S0 r)) (seq 0 (nrows A))).
  { cbn [tab elems seq flat_map]. apply app_nil_r. }
  rewrite EM. change (nrows (tab (nrows A) 1 (fun r _ => vmean (row_list S0 r)))) with (nrows A).
  assert (NS : forall X n (f : nat -> X), (0 < n)%nat -> map f (seq 0 n) <> []) by (intros X [|n] f Hn; [lia|discriminate]).
  assert (MB : Forall (bd 2) (map (fun r => vmean (row_list S0 r)) (seq 0 (nrows A)))).
  { apply Forall_forall. intros x Hx. apply in_map_iff in Hx. destruct Hx as (r & <- & Hr). apply in_seq in Hr. unfold row_list. change (ncols S0) with (ncols A).
    unfold vmean. apply mean_sharp; [lia|now apply NS|rewrite map_length, seq_length; lia|].
    apply Forall_forall. intros x Hx. apply in_map_iff in Hx. destruct Hx as (c & <- & Hc). apply in_seq in Hc. unfold S0. rewrite at_tab by lia.
    destruct (entry_any A B r c HA HB ER EC) as [F E]. split; [exact F|]. change (Flocq.Core.Raux.bpow Flocq.Core.Zaux.radix2 2) with 4. apply Rle_trans with (1 := E). lra. }
  split.
  - pose proof (mean_sharp 2 _ ltac:(lia) (NS _ (nrows A) (fun r => vmean (row_list S0 r)) HR) ltac:(rewrite map_length, seq_length; lia) MB) as M. rewrite map_length, seq_length in M. exact M.
  - exact MB.
Qed.
