(** The similarity of two patches of moderate binary64 values is a finite number. *)
From Coq Require Import ZArith List Bool Reals Lra Lia Floats.
From Flocq Require Import Core.Core IEEE754.BinarySingleNaN IEEE754.PrimFloat.
From Verif Require Import Base.Res Base.Num Base.NumR Base.NumF Base.Lists Base.Mat Model.Amatrix Model.Nsim
  Spec.SmoothSpec Spec.StatSpec Spec.RoundSpec Proofs.RealP Proofs.ConvP Proofs.NsimP Proofs.B64P Proofs.RoundP Proofs.NsimFP Proofs.NsimRoundP Proofs.BoundP Proofs.VarP.
Import ListNotations.
Open Scope R_scope.

(** every cell finite and at most 2^k *)
Definition cells_bd (k : Z) (M : mat PrimFloat.float) : Prop := forall r c, (r < nrows M)%nat -> (c < ncols M)%nat -> bd k (at_ M r c).

Lemma FR_zero : FR (F_ofZ 0) = 0 /\ fin (F_ofZ 0). Proof. apply FR_ofZ. lia. Qed.
Lemma FR_one : FR (F_ofZ 1) = 1 /\ fin (F_ofZ 1). Proof. apply FR_ofZ. lia. Qed.
Lemma between_bd x : fin x -> PrimFloat.leb (F_ofZ 0) x = true -> PrimFloat.leb x (F_ofZ 1) = true -> bd 0 x.
Proof.
  intros F H1 H2. destruct FR_zero as [Z1 Z2]. destruct FR_one as [O1 O2]. rewrite FR_leb in H1, H2 by assumption. rewrite Z1 in H1. rewrite O1 in H2.
  revert H1; case Raux.Rle_bool_spec; [intros H1 _|discriminate].
  revert H2; case Raux.Rle_bool_spec; [intros H2 _|discriminate]. split; [exact F|]. change (bpow radix2 0) with 1. rewrite Rabs_pos_eq; assumption.
Qed.
Lemma weight_bd p : In p (filter_positions 3 3) -> bd 0 (wF p).
Proof.
  intros H. cbn in H. repeat (destruct H as [<-|H]; [apply between_bd; vm_compute; reflexivity|]). destruct H.
Qed.
Lemma conv_bd M k r c : (-1000 <= k < 900)%Z -> (0 < nrows M)%nat -> (0 < ncols M)%nat -> cells_bd k M -> bd (k + 4) (conv_elem nsim_window M r c).
Proof.
  intros K HR HC H. unfold conv_elem.
  assert (G : forall ps x, fold_left (fun s p => nadd s (nmul (at_ M (clamped (nrows M) r (snd p)) (clamped (ncols M) c (fst p))) (at_ nsim_window (2 - snd p) (2 - fst p)))) ps x =
    fold_left PrimFloat.add (map (fun p => PrimFloat.mul (at_ M (clamped (nrows M) r (snd p)) (clamped (ncols M) c (fst p))) (wF p)) ps) x).
  { induction ps as [|p ps IH]; intros x; [reflexivity|]. cbn [fold_left map]. rewrite IH. reflexivity. }
  rewrite G. change (bd (k + 4) (nsum (map (fun p => PrimFloat.mul (at_ M (clamped (nrows M) r (snd p)) (clamped (ncols M) c (fst p))) (wF p)) (filter_positions 3 3)))).
  apply bd_sum; [lia|lia|lia|cbn; lia|]. apply Forall_forall. intros x Hx. apply in_map_iff in Hx. destruct Hx as (p & <- & Hp).
  replace k with (k + 0)%Z by lia. apply bd_mul; [lia| |apply weight_bd, Hp]. apply H; unfold clamped; lia.
Qed.

Lemma c1_low : bpow radix2 (-14) <= FR nsim_c1 <= bpow radix2 0 /\ fin nsim_c1.
Proof.
  destruct c1_near as (F & H & _). apply Rabs_le_inv in H. unfold small18 in H. split; [|exact F]. change (bpow radix2 (-14)) with (/ IZR 16384). change (bpow radix2 0) with 1. lra.
Qed.
Lemma c3_low : bpow radix2 (-12) <= FR nsim_c3 <= bpow radix2 0 /\ fin nsim_c3.
Proof.
  destruct c3_near as (F & H & _). apply Rabs_le_inv in H. unfold small18 in H. split; [|exact F]. change (bpow radix2 (-12)) with (/ IZR 4096). change (bpow radix2 0) with 1. lra.
Qed.
Lemma rnd_nonneg z : 0 <= z -> 0 <= rnd z.
Proof. intros H. replace 0 with (rnd 0) by apply (rnd_Z 0 ltac:(lia)). apply ScoresP.rnd_le, H. Qed.
Lemma square_bd k x : (0 <= k < 400)%Z -> bd k x -> bd (k + k) (PrimFloat.mul x x) /\ 0 <= FR (PrimFloat.mul x x).
Proof.
  intros K B. pose proof (bd_mul k k x x ltac:(lia) B B) as M. split; [exact M|]. destruct B as [F B].
  destruct (FR_mul x x F F) as [E _].
  - apply Rle_lt_trans with (bpow radix2 (k + k)); [|unfold fmax; apply bpow_lt; change emax with 1024%Z; lia].
    apply rnd_bd; [lia|]. rewrite Rabs_mult, bpow_plus. apply Rmult_le_compat; try apply Rabs_pos; assumption.
  - rewrite E. apply rnd_nonneg, Rle_0_sqr.
Qed.
(** adding something non-negative does not go below a number *)
Lemma add_low k x y : (0 <= k < 900)%Z -> bd k x -> bd k y -> 0 <= FR x -> FR y <= FR (PrimFloat.add x y).
Proof.
  intros K [FX X] [FY Y] P. destruct (FR_add x y FX FY) as [E _].
  - apply Rle_lt_trans with (bpow radix2 (k + 1)); [|unfold fmax; apply bpow_lt; change emax with 1024%Z; lia].
    apply rnd_bd; [lia|]. apply Rle_trans with (1 := Rabs_triang _ _). rewrite <- bpow_double. lra.
  - rewrite E, <- (ScoresP.rnd_FR y) at 1. apply ScoresP.rnd_le. lra.
Qed.
Lemma c_bd c k : bpow radix2 (-14) <= FR c <= bpow radix2 0 -> fin c -> (0 <= k)%Z -> bd k c.
Proof.
  intros H F K. split; [exact F|]. pose proof (bpow_gt_0 radix2 (-14)). rewrite Rabs_pos_eq by lra. apply Rle_trans with (bpow radix2 0); [lra|apply bpow_le, K].
Qed.

Lemma entry_bd mr md cr2 cd2 crd : bd 16 mr -> bd 16 md -> bd 32 cr2 -> bd 32 cd2 -> bd 32 crd -> bd 100 (nsim_entry mr md cr2 cd2 crd).
Proof.
  intros H1 H2 H3 H4 H5. unfold nsim_entry. cbn [nmul nadd nsub ndiv nofZ NumF].
  destruct c1_low as [C1 C1f]. destruct c3_low as [C3 C3f].
  assert (C3' : bpow radix2 (-14) <= FR nsim_c3 <= bpow radix2 0).
  { split; [|lra]. apply Rle_trans with (bpow radix2 (-12)); [apply bpow_le; lia|lra]. }
  destruct (square_bd 16 mr ltac:(lia) H1) as [S1 P1]. destruct (square_bd 16 md ltac:(lia) H2) as [S2 P2]. cbn [Z.add Pos.add Pos.succ] in S1, S2.
  pose proof (bd_mul 16 16 mr md ltac:(lia) H1 H2) as M. cbn [Z.add Pos.add Pos.succ] in M.
  (* intensity *)
  assert (I : bd 49 (PrimFloat.div (PrimFloat.add (PrimFloat.mul (PrimFloat.mul mr md) (F_ofZ 2)) nsim_c1)
     (PrimFloat.add (PrimFloat.add (PrimFloat.mul mr mr) (PrimFloat.mul md md)) nsim_c1))).
  { replace 49%Z with (35 - (-14))%Z by lia. apply bd_div; [lia| |].
    - eapply bd_weaken; [apply (bd_add 33); [lia| |apply c_bd; [exact C1|exact C1f|lia]]|lia].
      replace 33%Z with (32 + 1)%Z by lia. apply bd_mul; [lia|exact M|]. apply bd_ofZ; lia.
    - apply Rle_trans with (FR nsim_c1); [lra|].
      apply (add_low 33); [lia|apply (bd_add 32); [lia|exact S1|exact S2]|apply c_bd; [exact C1|exact C1f|lia]|].
      apply Rle_trans with (FR (PrimFloat.mul md md)); [exact P2|]. apply (add_low 32); [lia|exact S1|exact S2|exact P1]. }
  (* structure *)
  pose proof (bd_sub 32 cr2 _ ltac:(lia) H3 S1) as V1. pose proof (bd_sub 32 cd2 _ ltac:(lia) H4 S2) as V2. pose proof (bd_sub 32 crd _ ltac:(lia) H5 M) as V3.
  cbn [Z.add Pos.add Pos.succ] in V1, V2, V3. pose proof (bd_mul 33 33 _ _ ltac:(lia) V1 V2) as D. cbn [Z.add Pos.add Pos.succ] in D.
  set (d := PrimFloat.mul _ (PrimFloat.sub cd2 _)) in *.
  assert (St : bd 46 (PrimFloat.div (PrimFloat.add (PrimFloat.sub crd (PrimFloat.mul mr md)) nsim_c3) (structure_denominator d))).
  { replace 46%Z with (34 - (-12))%Z by lia. apply bd_div; [lia|apply (bd_add 33); [lia|exact V3|apply c_bd; [exact C3'|exact C3f|lia]]|].
    unfold structure_denominator. destruct (nltb d n0) eqn:N; [exact (proj1 C3)|]. cbn [nadd nsqrt NumF].
    destruct (sqrt_finite d (bd_fin _ _ D) N) as (Fs & S0 & SB). apply Rle_trans with (FR nsim_c3); [exact (proj1 C3)|].
    apply (add_low 512); [lia|split; [exact Fs|rewrite Rabs_pos_eq by exact S0; exact SB]|apply c_bd; [exact C3'|exact C3f|lia]|exact S0]. }
  eapply bd_weaken; [apply (bd_mul 49 46); [lia|exact I|exact St]|lia].
Qed.

(** *** an entry of the similarity map is zero or not tiny *)
Lemma add_gap a c : bd 40 a -> fin c -> bpow radix2 (-14) <= FR c <= bpow radix2 0 ->
  FR (PrimFloat.add a c) = 0 \/ bpow radix2 (-67) <= Rabs (FR (PrimFloat.add a c)).
Proof.
  intros [FA A] FC C. assert (E : FR (PrimFloat.add a c) = rnd (FR a + FR c)).
  { apply FR_add; [exact FA|exact FC|]. apply Rle_lt_trans with (bpow radix2 41); [|unfold fmax; apply bpow_lt; reflexivity]. apply rnd_bd; [lia|].
    apply Rle_trans with (1 := Rabs_triang _ _). pose proof (bpow_gt_0 radix2 (-14)). rewrite (Rabs_pos_eq (FR c)) by lra. replace (bpow radix2 41) with (bpow radix2 40 + bpow radix2 40) by (rewrite bpow_double; reflexivity).
    assert (bpow radix2 0 <= bpow radix2 40) by (apply bpow_le; lia). lra. }
  rewrite E. destruct (Rlt_le_dec (Rabs (FR a)) (bpow radix2 (-15))) as [S|S].
  - right. apply rnd_abs_ge; [lia|]. apply Rle_trans with (bpow radix2 (-15)); [apply bpow_le; lia|].
    assert (D : bpow radix2 (-14) = bpow radix2 (-15) + bpow radix2 (-15)) by (rewrite bpow_double; reflexivity). apply Rabs_lt_inv in S. pose proof (bpow_gt_0 radix2 (-15)). rewrite Rabs_pos_eq by lra. lra.
  - destruct (grid a (-67) ltac:(lia) S) as (m & Em). destruct (grid c (-67) ltac:(lia)) as (k & Ek).
    { change (-67 + 52)%Z with (-15)%Z. apply Rle_trans with (bpow radix2 (-14)); [apply bpow_le; lia|]. apply Rle_trans with (FR c); [lra|apply Rle_abs]. }
    rewrite Em, Ek. replace (IZR m * bpow radix2 (-67) + IZR k * bpow radix2 (-67)) with (IZR (m + k) * bpow radix2 (-67)) by (rewrite plus_IZR; ring).
    destruct (Z.eq_dec (m + k) 0) as [Z0|Z0]; [left; rewrite Z0, Rmult_0_l; apply (rnd_Z 0 ltac:(lia))|right]. apply rnd_abs_ge; [lia|].
    rewrite Rabs_mult, (Rabs_pos_eq (bpow radix2 _)), <- abs_IZR by apply bpow_ge_0. rewrite <- (Rmult_1_l (bpow radix2 (-67))) at 1. apply Rmult_le_compat_r; [apply bpow_ge_0|]. apply (IZR_le 1). lia.
Qed.
Lemma div_gap j k a m x y : (-1074 <= j - k)%Z -> (-1074 <= a - m < 1024)%Z -> bd a x -> bpow radix2 m <= FR y <= bpow radix2 k -> FR x = 0 \/ bpow radix2 j <= Rabs (FR x) ->
  FR (PrimFloat.div x y) = 0 \/ bpow radix2 (j - k) <= Rabs (FR (PrimFloat.div x y)).
Proof.
  intros HJ HA [FX X] Y G. pose proof (bpow_gt_0 radix2 m) as P. assert (IP : 0 < / FR y) by (apply Rinv_0_lt_compat; lra).
  assert (E : FR (PrimFloat.div x y) = rnd (FR x / FR y)).
  { apply FR_div; [exact FX|lra|]. apply Rle_lt_trans with (bpow radix2 (a - m)); [|unfold fmax; apply bpow_lt; change emax with 1024%Z; lia]. apply rnd_bd; [lia|].
    unfold Rdiv. rewrite Rabs_mult, (Rabs_pos_eq (/ FR y)) by lra. unfold Z.sub. rewrite bpow_plus, bpow_opp. apply Rmult_le_compat; [apply Rabs_pos|lra|exact X|]. apply Rinv_le; lra. }
  rewrite E. destruct G as [G|G]; [left; rewrite G; unfold Rdiv; rewrite Rmult_0_l; apply (rnd_Z 0 ltac:(lia))|right]. apply rnd_abs_ge; [exact HJ|].
  unfold Rdiv. rewrite Rabs_mult, (Rabs_pos_eq (/ FR y)) by lra. unfold Z.sub. rewrite bpow_plus, bpow_opp. apply Rmult_le_compat; [apply bpow_ge_0|apply Rlt_le, Rinv_0_lt_compat, bpow_gt_0|exact G|]. apply Rinv_le; lra.
Qed.
Lemma mul_gap j k a b x y : (-1074 <= j + k)%Z -> (-1074 <= a + b < 1024)%Z -> bd a x -> bd b y -> FR x = 0 \/ bpow radix2 j <= Rabs (FR x) -> FR y = 0 \/ bpow radix2 k <= Rabs (FR y) ->
  FR (PrimFloat.mul x y) = 0 \/ bpow radix2 (j + k) <= Rabs (FR (PrimFloat.mul x y)).
Proof.
  intros HJ HA [FX X] [FY Y] G H. assert (E : FR (PrimFloat.mul x y) = rnd (FR x * FR y)).
  { apply FR_mul; [exact FX|exact FY|]. apply Rle_lt_trans with (bpow radix2 (a + b)); [|unfold fmax; apply bpow_lt; change emax with 1024%Z; lia]. apply rnd_bd; [lia|].
    rewrite Rabs_mult, bpow_plus. apply Rmult_le_compat; try apply Rabs_pos; assumption. }
  rewrite E. destruct G as [G|G]; [left; rewrite G, Rmult_0_l; apply (rnd_Z 0 ltac:(lia))|]. destruct H as [H|H]; [left; rewrite H, Rmult_0_r; apply (rnd_Z 0 ltac:(lia))|right].
  apply rnd_abs_ge; [exact HJ|]. rewrite Rabs_mult, bpow_plus. apply Rmult_le_compat; try apply bpow_ge_0; assumption.
Qed.
Lemma entry_moderate mr md cr2 cd2 crd : bd 16 mr -> bd 16 md -> bd 32 cr2 -> bd 32 cd2 -> bd 32 crd -> moderate (nsim_entry mr md cr2 cd2 crd).
Proof.
  intros H1 H2 H3 H4 H5. split; [apply entry_bd; assumption|]. unfold nsim_entry. cbn [nmul nadd nsub ndiv nofZ NumF].
  destruct c1_low as [C1 C1f]. destruct c3_low as [C3 C3f].
  assert (C3' : bpow radix2 (-14) <= FR nsim_c3 <= bpow radix2 0).
  { split; [|lra]. apply Rle_trans with (bpow radix2 (-12)); [apply bpow_le; lia|lra]. }
  destruct (square_bd 16 mr ltac:(lia) H1) as [S1 P1]. destruct (square_bd 16 md ltac:(lia) H2) as [S2 P2]. cbn [Z.add Pos.add Pos.succ] in S1, S2.
  pose proof (bd_mul 16 16 mr md ltac:(lia) H1 H2) as M. cbn [Z.add Pos.add Pos.succ] in M.
  assert (M2 : bd 33 (PrimFloat.mul (PrimFloat.mul mr md) (F_ofZ 2))) by (replace 33%Z with (32 + 1)%Z by lia; apply bd_mul; [lia|exact M|]; apply bd_ofZ; lia).
  assert (N1 : bd 34 (PrimFloat.add (PrimFloat.mul (PrimFloat.mul mr md) (F_ofZ 2)) nsim_c1)) by (apply (bd_add 33); [lia|exact M2|apply c_bd; [exact C1|exact C1f|lia]]).
  pose proof (bd_add 32 _ _ ltac:(lia) S1 S2) as D1. cbn [Z.add Pos.add Pos.succ] in D1.
  assert (D2 : bd 34 (PrimFloat.add (PrimFloat.add (PrimFloat.mul mr mr) (PrimFloat.mul md md)) nsim_c1)) by (apply (bd_add 33); [lia|exact D1|apply c_bd; [exact C1|exact C1f|lia]]).
  assert (DL : bpow radix2 (-14) <= FR (PrimFloat.add (PrimFloat.add (PrimFloat.mul mr mr) (PrimFloat.mul md md)) nsim_c1)).
  { apply Rle_trans with (FR nsim_c1); [lra|]. apply (add_low 33); [lia|exact D1|apply c_bd; [exact C1|exact C1f|lia]|].
    apply Rle_trans with (FR (PrimFloat.mul md md)); [exact P2|]. apply (add_low 32); [lia|exact S1|exact S2|exact P1]. }
  assert (DU : FR (PrimFloat.add (PrimFloat.add (PrimFloat.mul mr mr) (PrimFloat.mul md md)) nsim_c1) <= bpow radix2 34) by (apply Rle_trans with (1 := Rle_abs _); exact (proj2 D2)).
  pose proof (div_gap (-67) 34 34 (-14) _ _ ltac:(lia) ltac:(lia) N1 (conj DL DU) (add_gap _ _ (bd_weaken _ 40 _ M2 ltac:(lia)) C1f C1)) as I2.
  pose proof (bd_div 34 (-14) _ _ ltac:(lia) N1 DL) as I1.
  pose proof (bd_sub 32 cr2 _ ltac:(lia) H3 S1) as V1. pose proof (bd_sub 32 cd2 _ ltac:(lia) H4 S2) as V2. pose proof (bd_sub 32 crd _ ltac:(lia) H5 M) as V3.
  cbn [Z.add Pos.add Pos.succ] in V1, V2, V3. pose proof (bd_mul 33 33 _ _ ltac:(lia) V1 V2) as D. cbn [Z.add Pos.add Pos.succ] in D.
  set (d := PrimFloat.mul _ (PrimFloat.sub cd2 _)) in *.
  assert (SD : bpow radix2 (-14) <= FR (structure_denominator d) <= bpow radix2 34).
  { unfold structure_denominator. destruct (nltb d n0) eqn:N; [split; [exact (proj1 C3')|]; apply Rle_trans with (1 := proj2 C3), bpow_le; lia|]. cbn [nadd nsqrt NumF].
    assert (P0 : 0 <= FR d). { destruct FR_zero as [Z1 Z2]. change (PrimFloat.ltb d (F_ofZ 0) = false) in N. rewrite FR_ltb in N by (exact Z2 || exact (proj1 D)). rewrite Z1 in N. revert N. case Raux.Rlt_bool_spec; [discriminate|auto]. }
    destruct (sqrt_bd 33 d ltac:(lia) D P0) as [B Q].
    split; [apply Rle_trans with (FR nsim_c3); [exact (proj1 C3')|]; apply (add_low 33); [lia|exact B|apply c_bd; [exact C3'|exact C3f|lia]|exact Q]|].
    apply Rle_trans with (1 := Rle_abs _). apply (bd_add 33); [lia|exact B|apply c_bd; [exact C3'|exact C3f|lia]]. }
  assert (N2 : bd 34 (PrimFloat.add (PrimFloat.sub crd (PrimFloat.mul mr md)) nsim_c3)) by (apply (bd_add 33); [lia|exact V3|apply c_bd; [exact C3'|exact C3f|lia]]).
  pose proof (div_gap (-67) 34 34 (-14) _ _ ltac:(lia) ltac:(lia) N2 SD (add_gap _ _ (bd_weaken _ 40 _ V3 ltac:(lia)) C3f C3')) as T2.
  pose proof (bd_div 34 (-14) _ _ ltac:(lia) N2 (proj1 SD)) as T1.
  destruct (mul_gap (-67 - 34) (-67 - 34) (34 - -14) (34 - -14) _ _ ltac:(lia) ltac:(lia) I1 T1 I2 T2) as [G|G]; [left; exact G|right].
  apply Rle_trans with (2 := G). apply bpow_le. lia.
Qed.
(** the numbers of the result of a patch that are bounded *)
Definition finite_result (x : psr PrimFloat.float) : Prop :=
  bd 162 (ps_sim x) /\ Forall (bd 131) (elems (ps_means x)) /\ Forall (bd 43) (elems (ps_energy x)) /\ Forall (bd 110) (elems (ps_stddevs x)).
Lemma measure_bd (A B : mat PrimFloat.float) : (0 < nrows A)%nat -> (0 < ncols A)%nat -> nrows A = nrows B -> ncols A = ncols B ->
  (Z.of_nat (nrows A) <= 2 ^ 31)%Z -> (ncols A <= 64)%nat -> cells_bd 12 A -> cells_bd 12 B ->
  exists p, measure_patch_similarity A B = Ret p /\ finite_result p.
Proof.
  intros HR HC ER EC NR NC HA HB. unfold measure_patch_similarity. rewrite nsim_map_spec by assumption. cbn [bind]. eexists. split; [reflexivity|]. unfold finite_result. cbn [ps_sim ps_means ps_energy ps_stddevs].
  set (S0 := tab (nrows A) (ncols A) _). unfold m_mean_rows. change (nrows S0) with (nrows A). change (ncols S0) with (ncols A).
  replace (Nat.eqb (ncols A) 0) with false by (symmetry; apply Nat.eqb_neq; lia).
  assert (EM : elems (tab (nrows A) 1 (fun r _ => vmean (row_list S0 r))) = map (fun r => vmean (row_list S0 r)) (seq 0 (nrows A))).
  { cbn [tab elems seq flat_map]. apply app_nil_r. }
  rewrite EM. change (nrows (tab (nrows A) 1 (fun r _ => vmean (row_list S0 r)))) with (nrows A).
  assert (SQ : forall P Q : mat PrimFloat.float, nrows P = nrows A -> ncols P = ncols A -> nrows Q = nrows A -> ncols Q = ncols A -> cells_bd 12 P -> cells_bd 12 Q -> cells_bd 24 (sq_tab P Q)).
  { intros P Q P1 P2 Q1 Q2 HP HQ r c Hr Hc. unfold sq_tab in *. cbn [nrows ncols tab] in Hr, Hc. rewrite at_tab by lia. apply (bd_mul 12 12); [lia|apply HP; lia|apply HQ; lia]. }
  assert (NS : forall n, (0 < n)%nat -> seq 0 n <> []) by (intros [|n] Hn; [lia|discriminate]).
  assert (ENT : forall r, (r < nrows A)%nat -> Forall moderate (map (fun c => at_ S0 r c) (seq 0 (ncols A)))).
  { intros r Hr. apply Forall_forall. intros x Hx. apply in_map_iff in Hx. destruct Hx as (c & <- & Hc). apply in_seq in Hc. unfold S0. rewrite at_tab by lia.
    apply entry_moderate; [apply (conv_bd A 12)|apply (conv_bd B 12)|eapply bd_weaken; [apply (conv_bd (sq_tab A A) 24)|]|eapply bd_weaken; [apply (conv_bd (sq_tab B B) 24)|]|eapply bd_weaken; [apply (conv_bd (sq_tab A B) 24)|]];
        unfold sq_tab; cbn [nrows ncols tab]; try lia; try assumption; apply SQ; try assumption; congruence. }
  assert (F : Forall (bd 131) (map (fun r => vmean (row_list S0 r)) (seq 0 (nrows A)))).
  { apply Forall_forall. intros x Hx. apply in_map_iff in Hx. destruct Hx as (r & <- & Hr). apply in_seq in Hr. unfold vmean, row_list. rewrite map_length, seq_length.
    change (ncols S0) with (ncols A).
    pose proof (bd_mean 100 (map (fun c => at_ S0 r c) (seq 0 (ncols A))) ltac:(lia)) as M. rewrite map_length, seq_length in M. apply M; [|lia|].
    - destruct (ncols A); [lia|discriminate].
    - eapply Forall_impl; [|apply (ENT r); lia]. intros x [X _]. exact X. }
  assert (SD : Forall (bd 110) (elems (m_stddev_rows S0))).
  { unfold m_stddev_rows. change (nrows S0) with (nrows A). change (ncols S0) with (ncols A). replace (Nat.eqb (ncols A) 0) with false by (symmetry; apply Nat.eqb_neq; lia). cbn [tab elems seq flat_map]. rewrite app_nil_r.
    apply Forall_forall. intros x Hx. apply in_map_iff in Hx. destruct Hx as (r & <- & Hr). apply in_seq in Hr. unfold row_list. change (ncols S0) with (ncols A). apply deviation_finite; [rewrite map_length, seq_length; lia|apply ENT; lia]. }
  assert (EN : Forall (bd 43) (elems (m_mean_rows B))).
  { unfold m_mean_rows. replace (Nat.eqb (ncols B) 0) with false by (symmetry; apply Nat.eqb_neq; lia). cbn [tab elems seq flat_map]. rewrite app_nil_r. apply Forall_forall. intros x Hx.
    apply in_map_iff in Hx. destruct Hx as (r & <- & Hr). apply in_seq in Hr. unfold vmean, row_list. rewrite map_length, seq_length.
    pose proof (bd_mean 12 (map (fun c => at_ B r c) (seq 0 (ncols B))) ltac:(lia)) as M. rewrite map_length, seq_length in M. apply M; [|lia|].
    - rewrite <- EC. destruct (ncols A); [lia|discriminate].
    - apply Forall_forall. intros x Hx. apply in_map_iff in Hx. destruct Hx as (c & <- & Hc). apply in_seq in Hc. apply HB; lia. }
  split; [|split; [exact F|split; [exact EN|exact SD]]].
  pose proof (bd_mean 131 (map (fun r => vmean (row_list S0 r)) (seq 0 (nrows A))) ltac:(lia)) as M. rewrite map_length, seq_length in M.
  apply M; [destruct (nrows A); [lia|discriminate]|exact NR|exact F].
Qed.
