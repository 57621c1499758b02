(** A spectrogram matched with itself in binary64 (C106). *)
From Coq Require Import ZArith List Bool Reals Lra Lia Floats.
From Coq Require Import ZifyBool ZifyNat Sorting.Sorted.
From Verif Require Import Base.Res Base.Num Base.NumR Base.NumF Base.Lists Base.Mat Model.Amatrix Model.Nsim Model.Selector Model.PatchCreator Model.Spectrogram
  Spec.SmoothSpec Spec.StatSpec Spec.RoundSpec Spec.AggSpec Spec.MatchSpec Proofs.RealP Proofs.ConvP Proofs.NsimP Proofs.B64P Proofs.RoundP Proofs.ScoresP Proofs.OptimalP Proofs.MatchP Proofs.MatchAllP Proofs.MatchCasesP Proofs.PatchCreatorP Proofs.ShapeP Proofs.AggregateP
  Proofs.BoundP Proofs.FinitePrepP Proofs.FiniteNsimP Proofs.ScoresBigP Proofs.FiniteRunP Proofs.IdentityP Proofs.NsimRoundP Proofs.NsimRoundAllP Proofs.NsimWideP Proofs.SelfScoreP.
Import ListNotations.
Open Scope R_scope.

Section Generic.
  Context {T : Type} {N : Num T} {L : Libm T}.
  Lemma raise_same thr is : forall A X Y : mat T, raise_frames thr (A, A) is = Ret (X, Y) -> X = Y.
  Proof.
    induction is as [|i t IH]; intros A X Y H; cbn [raise_frames] in H; [injection H as <- <-; reflexivity|].
    apply bind_ret in H. destruct H as ([A' B'] & E & H). unfold raise_frame in E. apply bind_ret in E. destruct E as (ma & _ & E).
    apply bind_ret in E. destruct E as (mb & _ & E). apply bind_ret in E. destruct E as (P & E1 & E). apply bind_ret in E. destruct E as (Q & E2 & E).
    rewrite E1 in E2. injection E2 as <-. injection E as <- <-. exact (IH _ _ _ H).
  Qed.
  Lemma prepare_equal (A X Y : mat T) : prepare_spectrograms A A = Ret (X, Y) -> X = Y.
  Proof.
    unfold prepare_spectrograms. intros H. apply bind_ret in H. destruct H as ([P Q] & E & H). unfold raise_floor_per_frame in E. apply raise_same in E. subst Q.
    apply bind_ret in H. destruct H as (ra & E1 & H). apply bind_ret in H. destruct H as (rb & E2 & H). injection H as <- <-. reflexivity.
  Qed.
  Lemma patch_is_frames (X : mat T) p idx refs i : (1 <= p)%nat -> patch_starts p (Z.of_nat (ncols X)) idx -> (Z.of_nat (ncols X) < two64)%Z ->
    create_patches (Z.of_nat p) X idx = Ret refs -> (i < length idx)%nat -> ref_at refs i = frames_at n0 X (idx_at idx i) p.
  Proof.
    intros Hp PS HB ER Hi. destruct PS as (_ & _ & PI).
    destruct (create_patches_spec (Z.of_nat p) X idx) as (ps & EP & LP & HP); [lia| |].
    { intros s Hs. destruct (PI s Hs). lia. }
    rewrite ER in EP. injection EP as <-. destruct (HP i Hi) as (W & N1 & C1 & V). fold (ref_at refs i) in W, N1, C1, V. rewrite Nat2Z.id in C1, V.
    assert (HI : In (idx_at idx i) idx) by (apply nth_In; exact Hi). destruct (PI _ HI) as [I1 I2].
    apply (mat_ext n0); [exact W|apply tab_wf|unfold frames_at; rewrite tab_nrows; exact N1|unfold frames_at; rewrite tab_ncols; exact C1|].
    intros r c Hr Hc. rewrite N1 in Hr. rewrite C1 in Hc. change (mget n0 (ref_at refs i) r c) with (at_ (ref_at refs i) r c). rewrite V by assumption. unfold frames_at. rewrite mget_tab by assumption. cbv zeta.
    replace ((0 <=? idx_at idx i + Z.of_nat c) && (idx_at idx i + Z.of_nat c <? Z.of_nat (ncols X)))%Z with true by lia.
    unfold at_. f_equal. unfold idx_at. unfold idx_at in I1. lia.
  Qed.
End Generic.

Lemma wide_of (A : mat PrimFloat.float) : wf A -> all_rg 0 4045 A -> (0 < nrows A)%nat -> (0 < ncols A)%nat -> wide A.
Proof.
  intros W H HR HC. split; [exact HR|]. split; [exact HC|]. intros r c Hr Hc. destruct (at_rg 0 4045 A r c W Hr Hc H) as [F B]. split; [exact F|]. apply Rabs_le. lra.
Qed.
Lemma frames_wide (A : mat PrimFloat.float) o p : wf A -> all_rg 0 4045 A -> (0 < nrows A)%nat -> (0 < p)%nat -> wide (frames_at n0 A o p).
Proof.
  intros W H HR HC. unfold frames_at. split; [exact HR|]. split; [exact HC|]. intros r c Hr Hc. cbn [nrows ncols tab] in Hr, Hc. rewrite at_tab by assumption.
  destruct (_ && _) eqn:E; [|apply (upto_zero 4100); lra].
  change (mget n0 A r (Z.to_nat (o + Z.of_nat c))) with (at_ A r (Z.to_nat (o + Z.of_nat c))).
  destruct (at_rg 0 4045 A r (Z.to_nat (o + Z.of_nat c)) W Hr ltac:(lia) H) as [F B]. split; [exact F|]. apply Rabs_le. lra.
Qed.

Lemma score_total_n (s : nat -> nat -> R) off v n : (forall i, (i < n)%nat -> skipped off (S i) = false) -> (forall i, (i <= n)%nat -> v <= s i (off i)) -> INR (S n) * v <= score s off n.
Proof.
  induction n as [|n IH]; intros NS H; cbn [score]; [change (INR 1) with 1; specialize (H 0%nat (le_n _)); lra|]. rewrite NS by lia. rewrite S_INR. cbn [nadd NumR].
  specialize (IH ltac:(intros; apply NS; lia) ltac:(intros; apply H; lia)). specialize (H (S n) (le_n _)). lra.
Qed.

Lemma self_matching p (A : mat PrimFloat.float) idx refs fd radius : wf A -> all_rg 0 4045 A -> (2 <= p <= 1000)%nat -> (1 <= nrows A <= 1000)%nat -> (Z.of_nat (ncols A) < 2 ^ 29)%Z ->
  patch_starts p (Z.of_nat (ncols A)) idx -> (20 * Z.of_nat (length idx) <= Z.of_nat (ncols A))%Z -> create_patches (Z.of_nat p) A idx = Ret refs ->
  (1 <= radius)%Z -> (Z.of_nat (ncols A) + radius * Z.of_nat p <= 2 ^ 31)%Z -> (Z.of_nat (ncols A) <= radius * Z.of_nat p)%Z ->
  exists l, find_most_optimal_deg_patches measure_patch_similarity refs idx A fd radius = Ret l /\ (1 <= length l <= length idx)%nat /\ Forall sound_result l /\
    INR (length l) * (1 - 56 / 100000) <= total (map (fun x => FR (ps_sim x)) l).
Proof.
  intros WA RA Hp Hn HA HS HX HC Hr Hb Hcov.
  assert (N1 : (1 <= Z.of_nat (ncols A))%Z). { destruct HS as (_ & H0 & HI). destruct idx as [|i idx]; [discriminate|]. destruct (HI i (or_introl eq_refl)). lia. }
  assert (PF : forall i, (i < length idx)%nat -> ref_at refs i = frames_at n0 A (idx_at idx i) p).
  { intros i Hi. apply (patch_is_frames A p idx refs i); [lia|exact HS|unfold two64; lia|exact HC|exact Hi]. }
  assert (FW : forall o, wide (frames_at n0 A o p)) by (intros o; apply frames_wide; (assumption || lia)).
  assert (M : forall i s, (i < length idx)%nat -> exists x, measure_patch_similarity (nth i refs (MkMat 0 0 [])) (frames_at n0 A (Z.of_nat s) p) = Ret x /\ sound_result x).
  { intros i s Hi. fold (ref_at refs i). rewrite PF by exact Hi. apply measure_sound; [apply FW|apply FW|reflexivity|reflexivity| |]; cbn [frames_at nrows ncols tab]; lia. }
  set (RES i s := result_of (measure_patch_similarity (nth i refs (MkMat 0 0 [])) (frames_at n0 A (Z.of_nat s) p))).
  assert (MR : forall i s, (i < length idx)%nat -> sound_result (RES i s)).
  { intros i s Hi. unfold RES. destruct (M i s Hi) as (x & -> & H). exact H. }
  destruct (optimal_reports scoresBig counts_exact_F measure_patch_similarity p A A idx refs fd radius) as (l & off & E & El & Em & Ex & Eo); try assumption; try reflexivity; try lia.
  { intros i s Hi _. destruct (M i s Hi) as (x & EM & SR). rewrite EM. cbn [result_of]. split; [reflexivity|]. apply scores_bd. destruct SR as (_ & (F & B) & _). split; [exact F|].
    apply Rle_trans with (1 := B). apply Rle_trans with (Raux.bpow Zaux.radix2 20); [cbn [Raux.bpow Z.pow_pos Zaux.radix2 Zaux.radix_val Pos.iter]; cbn; lra|apply Raux.bpow_le; lia]. }
  fold RES in Ex, Eo. cbv beta in Eo.
  exists l. split; [exact E|]. split; [exact El|].
  assert (SL : Forall sound_result l).
  { apply Forall_forall. intros x Hx. apply In_nth_error in Hx. destruct Hx as (i & Ei). assert (Hi : (i < length l)%nat) by (apply nth_error_Some; congruence).
    destruct (Ex i Hi) as (y & E1 & ->). rewrite E1 in Ei. injection Ei as <-. apply with_times_sound, MR. lia. }
  split; [exact SL|].
  rewrite (reported_total RES off (fun i => nth i idx 0%Z) fd (nmul fd (nofZ (Z.of_nat p)))); [|lia|intros i Hi; destruct (Ex i Hi) as (y & E1 & ->); exact E1].
  set (self := fun i => Z.to_nat (idx_at idx i)).
  assert (IB : forall i, (i < length idx)%nat -> (0 <= idx_at idx i < Z.of_nat (ncols A))%Z).
  { intros i Hi. destruct (proj2 (proj2 HS) (idx_at idx i)); [apply nth_In; exact Hi|]. lia. }
  pose proof (sorted_step idx (proj1 HS)) as ST.
  assert (SM : matching (radius * Z.of_nat p) (Z.of_nat (ncols A)) idx (length l) self).
  { split.
    - intros i Hi. specialize (IB i ltac:(lia)). unfold self. unfold idx_at in *. rewrite Z2Nat.id by lia. lia.
    - intros i Hi. pose proof (ST i ltac:(lia)). pose proof (IB i ltac:(lia)). unfold self. lia. }
  specialize (Eo self SM).
  set (n := (length l - 1)%nat) in *. assert (Ln : length l = S n) by (unfold n; lia). set (K := INR (length l)).
  assert (K1 : 1 <= K <= 27000000). { unfold K. rewrite INR_IZR_INZ. split; apply IZR_le; lia. }
  assert (UP : forall o i, (i <= n)%nat -> upto 9000 (ps_sim (RES i (o i : nat)))) by (intros o i Hi; apply (MR i (o i)); lia).
  pose proof (score_near (fun i s => ps_sim (RES i s)) off 9000 K ltac:(lra) ltac:(lra) n ltac:(unfold K; rewrite Ln; lra) (UP off)) as Q1.
  pose proof (score_near (fun i s => ps_sim (RES i s)) self 9000 K ltac:(lra) ltac:(lra) n ltac:(unfold K; rewrite Ln; lra) (UP self)) as Q2.
  destruct Q1 as (_ & Q1 & _). destruct Q2 as (_ & Q2 & _).
  cbn [val scoresBig] in Eo. apply Rmult_le_reg_r in Eo; [|exact sc_pos0].
  assert (Eo' : FR (score (fun i s => ps_sim (RES i s)) self n) <= FR (score (fun i s => ps_sim (RES i s)) off n)) by exact Eo. clear Eo.
  assert (SS : INR (S n) * (1 - 50 / 100000) <= score (fun i s => FR (ps_sim (RES i s))) self n).
  { apply score_total_n.
    - intros i Hi. cbn [skipped]. pose proof (ST i ltac:(lia)). pose proof (IB i ltac:(lia)). unfold self. lia.
    - intros i Hi. unfold RES. fold (ref_at refs i). rewrite PF by lia. unfold self. rewrite Z2Nat.id by (apply IB; lia).
      destruct (self_wide (frames_at n0 A (idx_at idx i) p) (FW _)) as (x & EM & FS & BS); [cbn [frames_at nrows tab]; lia|cbn [frames_at ncols tab]; lia|].
      rewrite EM. cbn [result_of]. apply Raux.Rabs_le_inv in BS. lra. }
  apply Raux.Rabs_le_inv in Q1. apply Raux.Rabs_le_inv in Q2.
  set (e := u * (1.01 * K * 9000)) in *.
  assert (EE : 0 <= e <= 3 / 100000). { unfold e. tb. split; [apply Rmult_le_pos; lra|]. apply Rle_trans with (12 / 100000000000000000 * (1.01 * 27000000 * 9000)); [apply Rmult_le_compat; lra|lra]. }
  assert (NE : INR n * e <= INR (S n) * (3 / 100000)). { pose proof (pos_INR n). rewrite S_INR. apply Rmult_le_compat; lra. }
  unfold K. rewrite Ln. pose proof (pos_INR (S n)). set (a := INR n * e) in *. set (b := INR (S n)) in *. clearbody a b. lra.
Qed.
