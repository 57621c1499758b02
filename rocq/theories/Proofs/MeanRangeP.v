(** The mean of numbers and their range, exactly and in binary64 (C119). *)
From Coq Require Import ZArith List Bool Reals Lra Lia Floats Psatz.
From Flocq Require Import Core.Core.
From Verif Require Import Base.Res Base.Num Base.NumR Base.NumF Base.Mat Model.Amatrix Model.Nsim Model.FilterBank Model.Mappers Model.Visqol Model.Manager
  Spec.AggSpec Spec.MeanRangeSpec Spec.ManagerSpec Proofs.B64P Proofs.ScoresP Proofs.RoundP Proofs.BoundP Proofs.FinitePrepP Proofs.NsimAnyP Proofs.AggCasesP Proofs.AggCases2P Proofs.ToyRunP.
Import ListNotations.
Open Scope R_scope.

Definition tot (l : list R) : R := fold_right Rplus 0 l.
Lemma tot_above : forall l, l <> [] -> exists x, In x l /\ tot l <= IZR (Z.of_nat (length l)) * x.
Proof.
  induction l as [|x l IH]; intros H; [congruence|]. destruct l as [|y l].
  - exists x. split; [left; reflexivity|]. cbn. lra.
  - destruct (IH ltac:(discriminate)) as (z & Hz & B). set (l' := y :: l) in *. change (tot (x :: l')) with (x + tot l').
    cbn [length]. rewrite Nat2Z.inj_succ, succ_IZR. assert (L : 0 <= IZR (Z.of_nat (length l'))) by (apply IZR_le; lia).
    destruct (Rle_dec x z) as [C|C]; [exists z; split; [right; exact Hz|nra]|exists x; split; [left; reflexivity|nra]].
Qed.
Lemma tot_below : forall l, l <> [] -> exists x, In x l /\ IZR (Z.of_nat (length l)) * x <= tot l.
Proof.
  induction l as [|x l IH]; intros H; [congruence|]. destruct l as [|y l].
  - exists x. split; [left; reflexivity|]. cbn. lra.
  - destruct (IH ltac:(discriminate)) as (z & Hz & B). set (l' := y :: l) in *. change (tot (x :: l')) with (x + tot l').
    cbn [length]. rewrite Nat2Z.inj_succ, succ_IZR. assert (L : 0 <= IZR (Z.of_nat (length l'))) by (apply IZR_le; lia).
    destruct (Rle_dec z x) as [C|C]; [exists z; split; [right; exact Hz|nra]|exists x; split; [left; reflexivity|nra]].
Qed.
Lemma close_in_range d v l : l <> [] -> Rabs (v - tot l / IZR (Z.of_nat (length l))) <= d -> within_range d v l.
Proof.
  intros H E. apply Rabs_le_inv in E. assert (L : 0 < IZR (Z.of_nat (length l))) by (apply IZR_lt; destruct l; [congruence|cbn [length]; lia]).
  destruct (tot_above l H) as (x & Hx & A). destruct (tot_below l H) as (y & Hy & B). split.
  - exists x. split; [exact Hx|]. assert (tot l / IZR (Z.of_nat (length l)) <= x); [|lra].
    apply Rmult_le_reg_r with (1 := L). unfold Rdiv. rewrite Rmult_assoc, Rinv_l by lra. lra.
  - exists y. split; [exact Hy|]. assert (y <= tot l / IZR (Z.of_nat (length l))); [|lra].
    apply Rmult_le_reg_r with (1 := L). unfold Rdiv. rewrite Rmult_assoc, Rinv_l by lra. lra.
Qed.
Lemma fold_tot : forall l x, fold_left Rplus l x = x + tot l.
Proof. induction l as [|y l IH]; intros x; cbn [fold_left]; [cbn; lra|]. rewrite IH. change (tot (y :: l)) with (y + tot l). lra. Qed.
Lemma average_range (l : list R) : l <> [] -> within_range 0 (average l) l.
Proof.
  intros H. apply close_in_range; [exact H|]. unfold average. change (@fold_left R R nadd l n0) with (fold_left Rplus l 0). rewrite fold_tot, Rplus_0_l.
  cbn [ndiv nofZ NumR]. rewrite Rminus_diag_eq, Rabs_R0 by reflexivity. lra.
Qed.

(** *** binary64 *)
Lemma fold_dist : forall (l : list PrimFloat.float) x m, (0 <= m)%Z -> (m + Z.of_nat (length l) <= 2 ^ 30)%Z -> Forall (bd 2) l -> fin x -> Rabs (FR x) <= IZR m * bpow radix2 2 ->
  Rabs (FR (fold_left PrimFloat.add l x) - (FR x + tot (map FR l))) <= IZR (Z.of_nat (length l)) * (u * (4 * IZR (m + Z.of_nat (length l)))).
Proof.
  induction l as [|y l IH]; intros x m Hm HN HF Fx Hx.
  - cbn [fold_left map tot fold_right length Z.of_nat]. rewrite Rplus_0_r, Rminus_diag_eq, Rabs_R0 by reflexivity. lra.
  - inversion HF as [|? ? [Fy Hy] F2]; subst. cbn [fold_left length map] in *. change (tot (FR y :: map FR l)) with (FR y + tot (map FR l)).
    destruct (bd_fold 2 ltac:(lia) ltac:(lia) [y] x m Hm ltac:(cbn; lia) ltac:(constructor; [split; assumption|constructor]) Fx Hx) as [G B]. cbn [fold_left length] in G, B. change (Z.of_nat 1) with 1%Z in B.
    change (bpow radix2 2) with 4 in *.
    assert (M1 : 1 <= IZR (m + 1)) by (apply IZR_le; lia). assert (M2 : IZR (m + 1) <= IZR (2 ^ 30)) by (apply IZR_le; lia). change (IZR (2 ^ 30)) with 1073741824 in M2.
    assert (S1 : Rabs (FR x + FR y) <= 4 * IZR (m + 1)) by (apply Rle_trans with (1 := Rabs_triang _ _); rewrite plus_IZR; lra).
    pose proof tiny_small. pose proof big_large.
    destruct (FR_add x y Fx Fy) as [E F]; [apply (rnd_fmax _ _ S1); lra|]. pose proof (rnd_err _ _ S1 ltac:(lra)) as R1.
    specialize (IH (PrimFloat.add x y) (m + 1)%Z ltac:(lia) ltac:(lia) F2 G B). rewrite E in IH. replace (m + 1 + Z.of_nat (length l))%Z with (m + Z.of_nat (S (length l)))%Z in IH by lia.
    assert (W : IZR (m + 1) <= IZR (m + Z.of_nat (S (length l)))) by (apply IZR_le; lia).
    set (f := FR (fold_left PrimFloat.add l (PrimFloat.add x y))) in *. set (q := tot (map FR l)) in *.
    replace (f - (FR x + (FR y + q))) with ((f - (rnd (FR x + FR y) + q)) + (rnd (FR x + FR y) - (FR x + FR y))) by ring.
    apply Rle_trans with (1 := Rabs_triang _ _). set (K := IZR (m + Z.of_nat (S (length l)))) in *. replace (Z.of_nat (S (length l))) with (Z.of_nat (length l) + 1)%Z by lia. rewrite plus_IZR.
    pose proof u_pos. assert (u * (4 * IZR (m + 1)) <= u * (4 * K)) by nra. lra.
Qed.
Lemma average_near (l : list PrimFloat.float) : l <> [] -> (Z.of_nat (length l) <= 1000000)%Z -> Forall (bd 2) l ->
  fin (average l) /\ Rabs (FR (average l) - tot (map FR l) / IZR (Z.of_nat (length l))) <= 1 / 1000000000.
Proof.
  intros H HN HF. destruct (FR_ofZ 0 ltac:(lia)) as [E0 F0]. pose proof (fold_dist l (F_ofZ 0) 0 ltac:(lia) ltac:(lia) HF F0) as D.
  destruct (bd_fold 2 ltac:(lia) ltac:(lia) l (F_ofZ 0) 0 ltac:(lia) ltac:(lia) HF F0) as [G B]; [rewrite E0, Rabs_R0; lra|].
  rewrite E0 in D. rewrite Rabs_R0, Rplus_0_l, Z.add_0_l in D. specialize (D ltac:(lra)). rewrite Z.add_0_l in B. change (bpow radix2 2) with 4 in B.
  destruct (FR_ofZ (Z.of_nat (length l)) ltac:(lia)) as [E1 F1].
  assert (N1 : 1 <= IZR (Z.of_nat (length l)) <= 1000000) by (split; apply IZR_le; [destruct l; [congruence|cbn [length]; lia]|lia]).
  unfold average. change (fold_left nadd l n0) with (fold_left PrimFloat.add l (F_ofZ 0)). change (nofZ (Z.of_nat (length l))) with (F_ofZ (Z.of_nat (length l))). cbn [ndiv NumF].
  set (s := fold_left PrimFloat.add l (F_ofZ 0)) in *. set (n := F_ofZ (Z.of_nat (length l))) in *. set (r := IZR (Z.of_nat (length l))) in *. set (t := tot (map FR l)) in *. clearbody s n r t.
  assert (Q : Rabs (FR s / FR n) <= 4).
  { rewrite E1. unfold Rdiv. rewrite Rabs_mult, (Rabs_pos_eq (/ r)) by (left; apply Rinv_0_lt_compat; lra). apply Rmult_le_reg_r with r; [lra|]. rewrite Rmult_assoc, Rinv_l by lra. lra. }
  pose proof tiny_small. pose proof big_large. pose proof u_pos. pose proof u_small.
  destruct (FR_div s n G ltac:(lra) (rnd_fmax _ _ Q ltac:(lra) ltac:(lra))) as [E F]. split; [exact F|]. pose proof (rnd_err _ _ Q ltac:(lra)) as R1. rewrite E, E1 in *.
  assert (A : Rabs (FR s / r - t / r) <= u * (4 * r)).
  { replace (FR s / r - t / r) with ((FR s - t) * / r) by (unfold Rdiv; ring). rewrite Rabs_mult, (Rabs_pos_eq (/ r)) by (left; apply Rinv_0_lt_compat; lra).
    apply Rmult_le_reg_r with r; [lra|]. rewrite Rmult_assoc, Rinv_l by lra. lra. }
  replace (rnd (FR s / r) - t / r) with ((rnd (FR s / r) - FR s / r) + (FR s / r - t / r)) by ring. apply Rle_trans with (1 := Rabs_triang _ _).
  assert (u * (4 * r) <= 12 / 100000000000000000 * 4000000) by nra. lra.
Qed.
Lemma average_range_F (l : list PrimFloat.float) : l <> [] -> (Z.of_nat (length l) <= 1000000)%Z -> Forall (fun x => fin x /\ Rabs (FR x) <= 4) l ->
  within_range (1 / 1000000000) (FR (average l)) (map FR l).
Proof.
  intros H HN HF. destruct (average_near l H HN HF) as [_ D]. apply close_in_range; [destruct l; [congruence|discriminate]|]. rewrite map_length. exact D.
Qed.

(** *** results *)
Lemma run_range {L : Libm R} w (m : manager R) ref deg m' deg' msg : reachable m ->
  (Z.of_nat (length (au_data ref)) + 1 < 2 ^ 31)%Z -> (Z.of_nat (length (au_data deg')) + 1 < 2 ^ 31)%Z ->
  run w m ref deg = (m', deg', Ret msg) ->
  within_range 0 (ms_vnsim msg) (ms_fvnsim msg) /\
  forall b, (b < length (ms_fvnsim msg))%nat -> within_range 0 (nth b (ms_fvnsim msg) 0) (map (fun p => nth b (pm_means p) 0) (ms_patches msg)).
Proof.
  intros Hm H1 H2 E. destruct (message_means w m ref deg m' deg' msg Hm H1 H2 E) as (LB & _ & _ & _ & _ & NP & _ & EV & EB). split.
  - rewrite EV. apply average_range. intros C. rewrite C in LB. destruct (st_speech (mg_settings m)); discriminate LB.
  - intros b Hb. rewrite LB in Hb. change 0 with (@n0 R _). rewrite (EB b Hb). apply average_range. destruct (ms_patches msg); [congruence|discriminate].
Qed.
Lemma run_range_F {L : Libm PrimFloat.float} w (m : manager PrimFloat.float) ref deg m' deg' msg : reachable m ->
  (Z.of_nat (length (au_data ref)) + 1 < 2 ^ 31)%Z -> (Z.of_nat (length (au_data deg')) + 1 < 2 ^ 31)%Z ->
  run w m ref deg = (m', deg', Ret msg) -> (Z.of_nat (length (ms_patches msg)) <= 1000000)%Z ->
  Forall (fun p => Forall (fun x => fin x /\ Rabs (FR x) <= 4) (pm_means p)) (ms_patches msg) ->
  within_range (1 / 1000000000) (FR (ms_vnsim msg)) (map FR (ms_fvnsim msg)) /\
  forall b, (b < length (ms_fvnsim msg))%nat -> within_range (1 / 1000000000) (FR (nth b (ms_fvnsim msg) n0)) (map (fun p => FR (nth b (pm_means p) n0)) (ms_patches msg)).
Proof.
  intros Hm H1 H2 E HP HF. destruct (message_means w m ref deg m' deg' msg Hm H1 H2 E) as (LB & _ & _ & _ & _ & NP & LP & EV & EB).
  assert (FB : forall b, (b < length (ms_fvnsim msg))%nat -> Forall (bd 2) (map (fun p => nth b (pm_means p) n0) (ms_patches msg))).
  { intros b Hb. rewrite LB in Hb. apply Forall_forall. intros x Hx. apply in_map_iff in Hx. destruct Hx as (p & <- & Hp). rewrite Forall_forall in HF. specialize (HF p Hp).
    rewrite Forall_forall in HF. apply HF, nth_In. rewrite (LP p Hp). exact Hb. }
  assert (NE : forall b, map (fun p => nth b (pm_means p) n0) (ms_patches msg) <> []) by (intros b; destruct (ms_patches msg); [congruence|discriminate]).
  split.
  - rewrite EV. apply average_range_F; [|rewrite LB; destruct (st_speech (mg_settings m)); lia|].
    { intros C. rewrite C in LB. destruct (st_speech (mg_settings m)); discriminate LB. }
    apply Forall_forall. intros x Hx. destruct (In_nth _ _ n0 Hx) as (b & Hb & <-). rewrite (EB b ltac:(rewrite <- LB; exact Hb)).
    exact (mean_sharp 2 _ ltac:(lia) (NE b) ltac:(rewrite map_length; lia) (FB b Hb)).
  - intros b Hb. rewrite (EB b ltac:(rewrite <- LB; exact Hb)). rewrite <- (map_map (fun p => nth b (pm_means p) n0) FR).
    apply average_range_F; [apply NE|rewrite map_length; exact HP|exact (FB b Hb)].
Qed.

(** *** cases *)
Lemma small_fin x : PrimFloat.leb (F_ofZ (-4)) x && PrimFloat.leb x (F_ofZ 4) = true -> fin x /\ Rabs (FR x) <= 4.
Proof.
  intros H. apply andb_prop in H. destruct H as [H1 H2]. destruct (FR_ofZ (-4) ltac:(lia)) as [_ F1]. destruct (FR_ofZ 4 ltac:(lia)) as [_ F2].
  pose proof (leb_fin _ _ x F1 F2 H1 H2) as F. split; [exact F|]. pose proof (leb_rg (-4) 4 x ltac:(lia) ltac:(lia) F H1 H2) as G. unfold rg in G. apply Rabs_le. lra.
Qed.
Lemma toy_bounded : exists m d x, run (L:=run_libm) run_world run_manager (run_audio 1) (run_audio 2) = (m, d, Ret x) /\
  (Z.of_nat (length (ms_patches x)) <= 1000000)%Z /\ (Z.of_nat (length (au_data d)) + 1 < 2 ^ 31)%Z /\
  Forall (fun p => Forall (fun x => fin x /\ Rabs (FR x) <= 4) (pm_means p)) (ms_patches x).
Proof.
  destruct toy_full as (m & d & x & E & L & _ & _ & B & D). exists m, d, x. split; [exact E|]. rewrite L, D. split; [cbn; lia|]. split; [cbn; lia|].
  apply Forall_forall. intros p Hp. rewrite forallb_forall in B. specialize (B p Hp). rewrite forallb_forall in B. apply Forall_forall. intros v Hv. apply small_fin, B, Hv.
Qed.

(** one patch of 20 frames whose 21 bands all have the similarity 0.8 *)
Definition level_patch : psr PrimFloat.float :=
  MkPsr (MkMat 21 1 (repeat 0.8%float 21)) (MkMat 21 1 (repeat 0%float 21)) (MkMat 21 1 (repeat 0%float 21)) 0.8%float 0%float 0.4%float 0%float 0.4%float.
Lemma level_above : exists r, summarise (L:=run_libm) (fun x => x) (MSpeech true) 0.02%float [] [level_patch] = Ret r /\
  sr_fvnsim r = repeat 0.8%float 21 /\ PrimFloat.ltb 0.8%float (sr_vnsim r) = true.
Proof. eexists. split; [vm_compute; reflexivity|split; reflexivity]. Qed.
Lemma level_refutes : exists (L : Libm PrimFloat.float) (p : psr PrimFloat.float) (r : sim_result PrimFloat.float),
  summarise (fun x => x) (MSpeech true) 0.02%float [] [p] = Ret r /\ length (sr_fvnsim r) = 21%nat /\
  Forall (fun x => PrimFloat.ltb x (sr_vnsim r) = true) (sr_fvnsim r).
Proof.
  destruct level_above as (r & E & F & A). exists run_libm, level_patch, r. rewrite F. split; [exact E|]. split; [reflexivity|].
  apply Forall_forall. intros x Hx. apply repeat_spec in Hx. subst x. exact A.
Qed.
