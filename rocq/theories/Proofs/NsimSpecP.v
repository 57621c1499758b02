(** The similarity map in terms of the spec, and symmetry for the two number types. *)
From Coq Require Import ZArith List Bool Reals Lra Lia Arith.
From Verif Require Import Base.Res Base.Num Base.NumR Base.NumF Base.Lists Base.Mat Model.Amatrix Model.Nsim
  Spec.SmoothSpec Spec.StatSpec Proofs.RealP Proofs.ConvP Proofs.FloatP Proofs.NsimP Proofs.StatP.
Import ListNotations.
Open Scope R_scope.

Lemma measure_formula (A B : mat R) :
  (0 < nrows A)%nat -> (0 < ncols A)%nat -> nrows A = nrows B -> ncols A = ncols B ->
  let nr := nrows A in let nc := ncols A in
  let sim r := map (fun c => similarity nr nc (at_ A) (at_ B) r c) (seq 0 nc) in
  exists p, measure_patch_similarity A B = Ret p /\
    (nrows (ps_means p) = nr /\ ncols (ps_means p) = 1%nat /\ nrows (ps_stddevs p) = nr /\
     ncols (ps_stddevs p) = 1%nat /\ nrows (ps_energy p) = nr /\ ncols (ps_energy p) = 1%nat) /\
    (forall r, (r < nr)%nat ->
       at_ (ps_means p) r 0 = mean (sim r) /\
       at_ (ps_stddevs p) r 0 = stddev (sim r) /\
       at_ (ps_energy p) r 0 = mean (map (fun c => at_ B r c) (seq 0 nc))) /\
    ps_sim p = mean (map (fun r => mean (sim r)) (seq 0 nr)).
Proof.
  intros HR HC ER EC nr nc sim. destruct (nsim_map_R A B HR HC ER EC) as (S & E & W & R1 & C1 & G).
  assert (GS : forall r c, (r < nr)%nat -> (c < nc)%nat -> at_ S r c = similarity nr nc (at_ A) (at_ B) r c).
  { intros r c Hr Hc. rewrite (G r c Hr Hc). unfold similarity. rewrite !smooth_wsum. cbv beta.
    unfold nsim_entry. cbn [nmul nadd nsub ndiv NumR].
    pose proof (wvar_nonneg (fun p => at_ A (clamped nr r (fst p)) (clamped nc c (snd p)))) as VA.
    pose proof (wvar_nonneg (fun p => at_ B (clamped nr r (fst p)) (clamped nc c (snd p)))) as VB.
    cbv beta in VA, VB.
    replace (@nsim_c1 R NumR) with 0.0001.
    2:{ unfold nsim_c1, nsq, ndec. cbn. lra. }
    replace (@nofZ R NumR 2) with 2 by reflexivity.
    unfold structure_denominator.
    replace (@nsim_c3 R NumR) with 0.00045.
    2:{ unfold nsim_c3, nsq, ndec. cbn. lra. }
    match goal with |- context [nltb ?x n0] => assert (H0 : 0 <= x) by (apply Rmult_le_pos; assumption) end.
    cbn [nltb NumR nsqrt nadd]. change (@n0 R NumR) with 0.
    match goal with |- context [Rltb ?x 0] => destruct (Rltb_spec x 0) as [Hlt|Hge] end.
    - exfalso. apply Rlt_not_le in Hlt. apply Hlt. exact H0.
    - rewrite (Rmult_comm _ 2). reflexivity. }
  assert (RL : forall r, (r < nr)%nat -> row_list S r = sim r).
  { intros r Hr. unfold row_list, sim. rewrite C1. apply map_ext_in. intros c Hc. apply in_seq in Hc.
    rewrite <- GS by lia. reflexivity. }
  destruct (measure_R A B S E ltac:(lia)) as (p & Ep & _ & M1 & M2 & _ & D1 & D2 & GM & GD & GSim).
  exists p. split; [exact Ep|]. rewrite R1 in *.
  assert (EE : ps_energy p = m_mean_rows B).
  { unfold measure_patch_similarity in Ep. rewrite E in Ep. cbn [bind] in Ep. injection Ep as <-. reflexivity. }
  split.
  { rewrite EE. unfold m_mean_rows. cbn [nrows ncols tab].
    replace (Nat.eqb (ncols B) 0) with false by (symmetry; apply Nat.eqb_neq; lia). auto 7. }
  split.
  - intros r Hr. rewrite GM, GD, RL, vmean_mean, vvar_variance by exact Hr.
    split; [reflexivity|]. split; [reflexivity|]. rewrite EE. unfold m_mean_rows.
    replace (Nat.eqb (ncols B) 0) with false by (symmetry; apply Nat.eqb_neq; lia).
    rewrite at_tab by lia. rewrite vmean_mean. unfold row_list. rewrite <- EC. reflexivity.
  - rewrite GSim, vmean_mean. f_equal. apply map_ext_in. intros r Hr. apply in_seq in Hr.
    rewrite RL by lia. apply vmean_mean.
Qed.

Lemma sym_generic {T} {N : Num T} :
  (forall a b : T, nmul a b = nmul b a) -> (forall a b : T, nadd a b = nadd b a) ->
  forall A B : mat T,
  (0 < nrows A)%nat -> (0 < ncols A)%nat -> nrows A = nrows B -> ncols A = ncols B ->
  exists pa pb, measure_patch_similarity A B = Ret pa /\ measure_patch_similarity B A = Ret pb /\
    ps_sim pa = ps_sim pb /\ ps_means pa = ps_means pb /\ ps_stddevs pa = ps_stddevs pb.
Proof.
  intros MC AC A B HR HC ER EC.
  assert (EA : exists pa, measure_patch_similarity A B = Ret pa).
  { unfold measure_patch_similarity. rewrite nsim_map_spec by assumption. eexists. reflexivity. }
  assert (EB : exists pb, measure_patch_similarity B A = Ret pb).
  { unfold measure_patch_similarity. rewrite nsim_map_spec by lia. eexists. reflexivity. }
  destruct EA as (pa & EA), EB as (pb & EB). exists pa, pb. split; [exact EA|]. split; [exact EB|].
  exact (measure_sym AC MC A B pa pb HR HC ER EC EA EB).
Qed.
