(** Patches whose similarity is changed by rounding (C93, C94). *)
From Coq Require Import ZArith List Bool Reals Lra Lia Floats.
From Interval Require Import Tactic.
From Verif Require Import Base.Res Base.Num Base.NumR Base.NumF Base.Lists Base.Mat Model.Amatrix Model.Nsim
  Spec.SmoothSpec Spec.StatSpec Spec.RoundSpec Proofs.RealP Proofs.ConvP Proofs.NsimP Proofs.B64P Proofs.RoundP Proofs.NsimRoundP Proofs.NsimRoundAllP.
Import ListNotations.
Open Scope R_scope.

Definition ints (nr nc : nat) (l : list Z) : mat PrimFloat.float := MkMat nr nc (map (fun z => nofZ z) l).
Lemma at_ints nr nc l i j : at_ (ints nr nc l) i j = nofZ (nth (j * nr + i) l 0%Z).
Proof. unfold at_, mget, ints. cbn [elems nrows]. rewrite <- (map_nth (fun z => nofZ z)). reflexivity. Qed.
Lemma vals_ints nr nc l i j : Forall (fun z => (Z.abs z <= 100)%Z) l -> vals (ints nr nc l) i j = IZR (nth (j * nr + i) l 0%Z).
Proof.
  intros H. unfold vals. rewrite at_ints. apply FR_ofZ. destruct (nth_in_or_default (j * nr + i) l 0%Z) as [N| ->]; [|reflexivity].
  rewrite Forall_forall in H. specialize (H _ N). lia.
Qed.
Lemma moderate_ints nr nc l : (0 < nr)%nat -> (0 < nc)%nat -> Forall (fun z => (Z.abs z <= 100)%Z) l -> moderate (ints nr nc l).
Proof.
  intros HR HC H. split; [exact HR|]. split; [exact HC|]. intros i j _ _. pose proof (vals_ints nr nc l i j H) as V. unfold vals in V. rewrite V. rewrite at_ints.
  assert (Hb : (Z.abs (nth (j * nr + i) l 0) <= 100)%Z). { destruct (nth_in_or_default (j * nr + i) l 0%Z) as [N| ->]; [|lia]. rewrite Forall_forall in H. exact (H _ N). }
  split; [apply FR_ofZ; lia|]. rewrite <- abs_IZR. now apply IZR_le.
Qed.

(** comparing a computed number with a rational *)
Lemma below_dec x m : PrimFloat.ltb x (PrimFloat.div (F_ofZ m) (F_ofZ 100)) = true -> fin x -> (1 <= m <= 1000)%Z -> FR x <= IZR m / 100 + 1 / 1000.
Proof.
  intros H F Hm. tb. pose proof (IZR_le _ _ (proj1 Hm)) as M1. pose proof (IZR_le _ _ (proj2 Hm)) as M2.
  assert (N : near (PrimFloat.div (F_ofZ m) (F_ofZ 100)) (IZR m / 100) (1 / 1000) 10).
  { apply (near_div _ (IZR m) 0 1000 _ 100 0 100 100 10 0); try lra; [apply near_ofZ; [lia|rewrite Rabs_pos_eq; lra]|apply (near_ofZ 100); [reflexivity|rewrite Rabs_pos_eq; lra]|rewrite Rabs_pos_eq; lra]. }
  destruct N as (FN & DN & _). rewrite FR_ltb in H by assumption.
  destruct (Raux.Rlt_bool_spec (FR x) (FR (PrimFloat.div (F_ofZ m) (F_ofZ 100)))) as [L|L]; [|discriminate].
  pose proof (Rle_trans _ _ _ (Rle_abs _) DN). lra.
Qed.
Lemma above_dec x m : PrimFloat.ltb (PrimFloat.div (F_ofZ m) (F_ofZ 100)) x = true -> fin x -> (1 <= m <= 1000)%Z -> IZR m / 100 - 1 / 1000 <= FR x.
Proof.
  intros H F Hm. tb. pose proof (IZR_le _ _ (proj1 Hm)) as M1. pose proof (IZR_le _ _ (proj2 Hm)) as M2.
  assert (N : near (PrimFloat.div (F_ofZ m) (F_ofZ 100)) (IZR m / 100) (1 / 1000) 10).
  { apply (near_div _ (IZR m) 0 1000 _ 100 0 100 100 10 0); try lra; [apply near_ofZ; [lia|rewrite Rabs_pos_eq; lra]|apply (near_ofZ 100); [reflexivity|rewrite Rabs_pos_eq; lra]|rewrite Rabs_pos_eq; lra]. }
  destruct N as (FN & DN & _). rewrite FR_ltb in H by assumption.
  destruct (Raux.Rlt_bool_spec (FR (PrimFloat.div (F_ofZ m) (F_ofZ 100))) (FR x)) as [L|L]; [|discriminate].
  pose proof (Rle_trans _ _ _ (Rle_abs (- (FR (PrimFloat.div (F_ofZ m) (F_ofZ 100)) - IZR m / 100))) ltac:(rewrite Rabs_Ropp; exact DN)). lra.
Qed.
Lemma fin_le1 x : PrimFloat.ltb x (F_ofZ 2) = true -> PrimFloat.ltb (F_ofZ 0) x = true -> fin x.
Proof.
  intros H1 H2. unfold fin. rewrite PrimFloat.ltb_equiv in *. destruct (FR_ofZ 2 ltac:(reflexivity)) as [_ F2]. unfold fin in F2.
  destruct (PrimFloat.Prim2B x) as [s|s| |s m e E]; try reflexivity; [destruct s|]; exfalso; revert H1 H2; vm_compute; discriminate.
Qed.

(** constant reference patch *)
Definition flat_ref : mat PrimFloat.float := ints 1 3 [50; 50; 50]%Z.
Definition rough_deg : mat PrimFloat.float := ints 1 3 [98; 8; 97]%Z.
Definition sim_of (A B : mat PrimFloat.float) : PrimFloat.float := match measure_patch_similarity A B with Ret p => ps_sim p | _ => F_ofZ 0 end.
Lemma flat_moderate : moderate flat_ref. Proof. apply moderate_ints; [lia|lia|]. repeat constructor; discriminate. Qed.
Lemma rough_moderate : moderate rough_deg. Proof. apply moderate_ints; [lia|lia|]. repeat constructor; discriminate. Qed.

Ltac smooth_num := unfold smooth; cbn [list_prod seq map app fold_right fst snd clamped Nat.min Nat.sub Nat.add weight]; unfold clamped; cbn [Nat.min Nat.sub Nat.add].

Definition x50 (i j : nat) : R := 50.
Definition y98 (i j : nat) : R := match j with 0%nat => 98 | 1%nat => 8 | _ => 97 end.
Lemma smooth_ext nr nc f g r c : (0 < nr)%nat -> (0 < nc)%nat -> (forall i j, (i < nr)%nat -> (j < nc)%nat -> f i j = g i j) -> smooth nr nc f r c = smooth nr nc g r c.
Proof. intros HR HC H. unfold smooth. f_equal. apply map_ext. intros p. rewrite H by (apply clamped_lt; assumption). reflexivity. Qed.
Lemma similarity_ext nr nc f g f' g' r c : (0 < nr)%nat -> (0 < nc)%nat -> (forall i j, (i < nr)%nat -> (j < nc)%nat -> f i j = f' i j /\ g i j = g' i j) ->
  similarity nr nc f g r c = similarity nr nc f' g' r c.
Proof.
  intros HR HC H. unfold similarity.
  assert (E : forall a b, (forall i j, (i < nr)%nat -> (j < nc)%nat -> a i j = b i j) -> smooth nr nc a r c = smooth nr nc b r c) by (intros; now apply smooth_ext).
  rewrite (E f f'), (E g g') by (intros; now apply H).
  rewrite (E (fun i j => f i j * f i j) (fun i j => f' i j * f' i j)), (E (fun i j => g i j * g i j) (fun i j => g' i j * g' i j)), (E (fun i j => f i j * g i j) (fun i j => f' i j * g' i j)); [reflexivity|..];
  intros i j Hi Hj; destruct (H i j Hi Hj) as [Q1 Q2]; rewrite ?Q1, ?Q2; reflexivity.
Qed.
Lemma patch_similarity_ext nr nc f g f' g' : (0 < nr)%nat -> (0 < nc)%nat -> (forall i j, (i < nr)%nat -> (j < nc)%nat -> f i j = f' i j /\ g i j = g' i j) ->
  patch_similarity nr nc f g = patch_similarity nr nc f' g'.
Proof. intros HR HC H. unfold patch_similarity. f_equal. apply map_ext. intros r. f_equal. apply map_ext. intros c. now apply similarity_ext. Qed.

Lemma flat_similarity nc g c : (0 < nc)%nat -> let m := smooth 1 nc g 0 c in similarity 1 nc x50 g 0 c = (100 * m + 0.0001) / (2500 + m * m + 0.0001).
Proof.
  intros Hc m. unfold similarity. fold m.
  assert (E1 : smooth 1 nc x50 0 c = 50) by (rewrite smooth_wsum; apply wsum_const).
  assert (E2 : smooth 1 nc (fun i j => x50 i j * x50 i j) 0 c = 2500). { rewrite smooth_wsum. unfold x50. rewrite wsum_const. ring. }
  assert (E3 : smooth 1 nc (fun i j => x50 i j * g i j) 0 c = 50 * m). { unfold m. rewrite !smooth_wsum. unfold x50. rewrite <- wsum_scale. reflexivity. }
  rewrite E1, E2, E3. replace (2500 - 50 * 50) with 0 by ring. rewrite Rmult_0_l, sqrt_0. field. pose proof (Rle_0_sqr m). unfold Rsqr in *. lra.
Qed.
Lemma flat_exact : 0.85 <= patch_similarity 1 3 x50 y98.
Proof.
  unfold patch_similarity, mean. cbn [seq map total fold_right length INR]. unfold mean. cbn [total fold_right length INR].
  rewrite !flat_similarity by lia. cbv zeta.
  assert (M0 : 88.42 <= smooth 1 3 y98 0 0 <= 88.43) by (smooth_num; unfold y98; lra).
  assert (M1 : 27.05 <= smooth 1 3 y98 0 1 <= 27.06) by (smooth_num; unfold y98; lra).
  assert (M2 : 87.52 <= smooth 1 3 y98 0 2 <= 87.53) by (smooth_num; unfold y98; lra).
  set (a := smooth 1 3 y98 0 0) in *. set (b := smooth 1 3 y98 0 1) in *. set (d := smooth 1 3 y98 0 2) in *. clearbody a b d.
  assert (Q1 : 0.856 <= (100 * a + 0.0001) / (2500 + a * a + 0.0001)) by interval.
  assert (Q2 : 0.836 <= (100 * b + 0.0001) / (2500 + b * b + 0.0001)) by interval.
  assert (Q3 : 0.860 <= (100 * d + 0.0001) / (2500 + d * d + 0.0001)) by interval.
  lra.
Qed.

Lemma flat_values i j : (i < 1)%nat -> (j < 3)%nat -> vals flat_ref i j = x50 i j /\ vals rough_deg i j = y98 i j.
Proof.
  intros Hi Hj. unfold flat_ref, rough_deg. rewrite !vals_ints by (repeat constructor; discriminate).
  destruct i as [|i]; [|lia]. destruct j as [|[|[|j]]]; [now split ..|lia].
Qed.
Lemma sim_value A B p : measure_patch_similarity A B = Ret p -> ps_sim p = sim_of A B.
Proof. unfold sim_of. now intros ->. Qed.
Lemma flat_sim : fin (sim_of flat_ref rough_deg) /\ FR (sim_of flat_ref rough_deg) <= 0.791.
Proof.
  assert (F : fin (sim_of flat_ref rough_deg)) by (apply fin_le1; vm_compute; reflexivity). split; [exact F|].
  pose proof (below_dec (sim_of flat_ref rough_deg) 79 ltac:(vm_compute; reflexivity) F ltac:(lia)). lra.
Qed.

(** the similarity is changed by more than 0.05 *)
Lemma round_witness : exists (A B : mat PrimFloat.float) p, moderate A /\ moderate B /\ nrows A = nrows B /\ ncols A = ncols B /\
  measure_patch_similarity A B = Ret p /\ fin (ps_sim p) /\ FR (ps_sim p) + 5 / 100 <= patch_similarity (nrows A) (ncols A) (vals A) (vals B).
Proof.
  assert (H : exists p, measure_patch_similarity flat_ref rough_deg = Ret p).
  { unfold measure_patch_similarity. rewrite nsim_map_spec by (try reflexivity; cbn; lia). eexists. reflexivity. }
  destruct H as [p H]. exists flat_ref, rough_deg, p. split; [exact flat_moderate|]. split; [exact rough_moderate|]. split; [reflexivity|]. split; [reflexivity|]. split; [exact H|].
  rewrite (sim_value _ _ _ H). destruct flat_sim as [F S0]. split; [exact F|].
  change (nrows flat_ref) with 1%nat. change (ncols flat_ref) with 3%nat.
  rewrite (patch_similarity_ext 1 3 _ _ x50 y98 ltac:(lia) ltac:(lia) flat_values). pose proof flat_exact. lra.
Qed.

(** nearly constant reference patch: similarity above 1 *)
Definition tilted_ref : mat PrimFloat.float := MkMat 1 2 [ndiv (nofZ (86 * 2 ^ 20 + 7)) (nofZ (2 ^ 20)); nofZ 86].
Definition slope_deg : mat PrimFloat.float := ints 1 2 [100; 65]%Z.
Lemma slope_moderate : moderate slope_deg. Proof. apply moderate_ints; [lia|lia|]. repeat constructor; discriminate. Qed.
Lemma tilted_moderate : moderate tilted_ref.
Proof.
  split; [cbn; lia|]. split; [cbn; lia|]. intros i j Hi Hj. cbn in Hi, Hj. tb.
  destruct i as [|i]; [|lia]. destruct j as [|[|j]]; [| |lia]; unfold at_, mget, tilted_ref; cbn [nrows elems nth Nat.mul Nat.add].
  - assert (N : near (PrimFloat.div (F_ofZ (86 * 2 ^ 20 + 7)) (F_ofZ (2 ^ 20))) (90177543 / 1048576) 1 99).
    { apply (near_weaken _ _ 1 90); [|lra|lra]. apply (near_div _ 90177543 0 90177543 _ 1048576 0 1048576 1048576 90 0); try lra;
      [apply (near_ofZ 90177543); [reflexivity|rewrite Rabs_pos_eq; lra]|apply (near_ofZ 1048576); [reflexivity|rewrite Rabs_pos_eq; lra]|rewrite Rabs_pos_eq; lra]. }
    split; [apply N|]. pose proof (near_value _ _ _ _ N). cbn [ndiv nofZ NumF]. lra.
  - destruct (FR_ofZ 86 ltac:(reflexivity)) as [E F]. split; [exact F|]. cbn [nofZ NumF]. rewrite E, Rabs_pos_eq; lra.
Qed.
Lemma above_one_witness : exists (A B : mat PrimFloat.float) p, moderate A /\ moderate B /\ nrows A = nrows B /\ ncols A = ncols B /\
  measure_patch_similarity A B = Ret p /\ fin (ps_sim p) /\ 103 / 100 <= FR (ps_sim p) + 1 / 1000.
Proof.
  assert (H : exists p, measure_patch_similarity tilted_ref slope_deg = Ret p).
  { unfold measure_patch_similarity. rewrite nsim_map_spec by (try reflexivity; cbn; lia). eexists. reflexivity. }
  destruct H as [p H]. exists tilted_ref, slope_deg, p. split; [exact tilted_moderate|]. split; [exact slope_moderate|]. split; [reflexivity|]. split; [reflexivity|]. split; [exact H|].
  rewrite (sim_value _ _ _ H).
  assert (F : fin (sim_of tilted_ref slope_deg)) by (apply fin_le1; vm_compute; reflexivity). split; [exact F|].
  pose proof (above_dec (sim_of tilted_ref slope_deg) 103 ltac:(vm_compute; reflexivity) F ltac:(lia)). lra.
Qed.

(** with local variances of at least 1/10000 the similarity is at most 1 + 4/1000000 *)
Lemma exact_at_most_one nr nc x y : (0 < nr)%nat -> (0 < nc)%nat -> -1 <= patch_similarity nr nc x y <= 1.
Proof.
  intros HR HC.
  assert (M : forall (l : list nat) f, l <> [] -> (forall i, In i l -> -1 <= f i <= 1) -> -1 <= mean (map f l) <= 1).
  { intros l f HL H. unfold mean. rewrite map_length. assert (L0 : 0 < INR (length l)) by (apply lt_0_INR; destruct l; [congruence|cbn; lia]).
    assert (T : - INR (length l) <= total (map f l) <= INR (length l)).
    2:{ split; apply Rmult_le_reg_r with (INR (length l)); try exact L0; unfold Rdiv; rewrite Rmult_assoc, Rinv_l by lra; lra. }
    clear L0 HL. induction l as [|i l IH]; [cbn; lra|]. cbn [map total fold_right length]. rewrite S_INR. pose proof (H i (or_introl eq_refl)). specialize (IH (fun k Hk => H k (or_intror Hk))). unfold total in IH. lra. }
  assert (NS : forall n, (0 < n)%nat -> seq 0 n <> []) by (intros [|n] Hn; [lia|discriminate]).
  unfold patch_similarity. apply M; [now apply NS|]. intros r _. apply M; [now apply NS|]. intros c _.
  pose proof (entry_bound (fun p => x (clamped nr r (fst p)) (clamped nc c (snd p))) (fun p => y (clamped nr r (fst p)) (clamped nc c (snd p)))) as B.
  pose proof (wvar_nonneg (fun p => x (clamped nr r (fst p)) (clamped nc c (snd p)))) as V1. pose proof (wvar_nonneg (fun p => y (clamped nr r (fst p)) (clamped nc c (snd p)))) as V2.
  unfold nsim_entry in B. cbn [nadd nsub nmul ndiv nofZ NumR] in B. rewrite c1_val, c3_val in B. rewrite structure_denominator_R in B by (apply Rmult_le_pos; assumption).
  unfold similarity. rewrite !smooth_wsum. rewrite (Rmult_comm 2). match type of B with Rabs ?z <= 1 => assert (B1 := Rle_abs z); assert (B2 := Rle_abs (- z)); rewrite Rabs_Ropp in B2; split; lra end.
Qed.
Theorem similarity_near_varied (A B : mat PrimFloat.float) : moderate A -> moderate B -> nrows A = nrows B -> ncols A = ncols B ->
  (Z.of_nat (nrows A) <= 1000000)%Z -> (Z.of_nat (ncols A) <= 1000000)%Z -> varied A -> varied B ->
  exists p, measure_patch_similarity A B = Ret p /\ fin (ps_sim p) /\
    Rabs (FR (ps_sim p) - patch_similarity (nrows A) (ncols A) (vals A) (vals B)) <= 4 / 1000000.
Proof.
  intros HA HB ER EC NR NC VA VB. apply similarity_near; try assumption. intros r c Hr Hc. split; [now apply VA|]. rewrite ER, EC. apply VB; [now rewrite <- ER|now rewrite <- EC].
Qed.
Theorem similarity_range_varied (A B : mat PrimFloat.float) : moderate A -> moderate B -> nrows A = nrows B -> ncols A = ncols B ->
  (Z.of_nat (nrows A) <= 1000000)%Z -> (Z.of_nat (ncols A) <= 1000000)%Z -> varied A -> varied B ->
  exists p, measure_patch_similarity A B = Ret p /\ fin (ps_sim p) /\ -1 - 4 / 1000000 <= FR (ps_sim p) <= 1 + 4 / 1000000.
Proof.
  intros HA HB ER EC NR NC VA VB. destruct (similarity_near_varied A B HA HB ER EC NR NC VA VB) as (p & E & F & D). exists p. split; [exact E|]. split; [exact F|].
  destruct HA as (HR & HC & _). pose proof (exact_at_most_one (nrows A) (ncols A) (vals A) (vals B) HR HC). pose proof (Rle_trans _ _ _ (Rle_abs _) D).
  pose proof (Rle_trans _ _ _ (Rle_abs (- _)) ltac:(rewrite Rabs_Ropp; exact D)). lra.
Qed.
Lemma above_one : exists (A B : mat PrimFloat.float) p, moderate A /\ moderate B /\ nrows A = nrows B /\ ncols A = ncols B /\
  measure_patch_similarity A B = Ret p /\ fin (ps_sim p) /\ 102 / 100 < FR (ps_sim p).
Proof. destruct above_one_witness as (A & B & p & H1 & H2 & H3 & H4 & H5 & H6 & H7). exists A, B, p. repeat (split; [assumption|]). lra. Qed.

(** patches that meet the condition *)
Definition step_ref : mat PrimFloat.float := ints 1 2 [0; 10]%Z.
Definition step_deg : mat PrimFloat.float := ints 1 2 [5; 30]%Z.
Lemma step_moderate : moderate step_ref /\ moderate step_deg.
Proof. split; (apply moderate_ints; [lia|lia|]; repeat constructor; discriminate). Qed.
Lemma step_varied r c : (r < 1)%nat -> (c < 2)%nat -> 1 / 10000 <= local_variance 1 2 (vals step_ref) r c /\ 1 / 10000 <= local_variance 1 2 (vals step_deg) r c.
Proof.
  intros Hr Hc. unfold local_variance, step_ref, step_deg.
  assert (E : forall l, Forall (fun z => (Z.abs z <= 100)%Z) l -> forall i j, vals (ints 1 2 l) i j = IZR (nth (j * 1 + i) l 0%Z)) by (intros; now apply vals_ints).
  destruct r as [|r]; [|lia]. destruct c as [|[|c]]; [| |lia]; smooth_num; rewrite !E by (repeat constructor; discriminate); cbn [nth Nat.mul Nat.add]; lra.
Qed.
Lemma step_both : varied step_ref /\ varied step_deg.
Proof. split; intros r c Hr Hc; now apply (step_varied r c). Qed.
