(** C92: a wider search that finds less, and recordings to which the theorems apply. *)
From Coq Require Import ZArith List Bool Sorted Reals Lra Lia Floats String.
From Coq Require Import ZifyBool ZifyNat.
From Verif Require Import Base.Res Base.Num Base.NumR Base.NumF Base.Lists Base.Mat Model.Amatrix Model.MiscMath Model.Fft Model.Window
  Model.FilterBank Model.Spectrogram Model.Nsim Model.PatchCreator Model.Selector Model.Mappers Model.Visqol Model.Manager
  Spec.MatchSpec Spec.ManagerSpec Spec.AudioSpec Spec.TotalSpec Spec.IdentitySpec Spec.LoudSpec Spec.PolaritySpec Spec.LevelSpec Spec.WiderSpec
  Proofs.DftP Proofs.ConvP Proofs.BankP Proofs.PrepareP Proofs.WindowP Proofs.ShapeP Proofs.AggregateP Proofs.TotalP Proofs.TotalCasesP Proofs.PolarityCasesP Proofs.LevelP Proofs.LevelRunP Proofs.LevelCasesP Proofs.LevelBothP Proofs.NsimP Proofs.NsimOneP Proofs.OneRunP.
Import ListNotations.
Open Scope Z_scope.

Definition narrow_ref : mat PrimFloat.float := MkMat 1 10 (map nofZ [0; 9; 0; 0; 0; 0; 0; 0; 5; 8]).
Definition narrow_deg : mat PrimFloat.float := MkMat 1 14 (map nofZ [9; 6; 1; 0; 1; 1; 4; 9; 6; 6; 5; 5; 9; 1]).

Lemma narrow_starts : patch_starts 2 10 [0; 8].
Proof. split; [repeat constructor|]. split; [reflexivity|]. intros s [<-|[<-|[]]]; lia. Qed.

Lemma wider_is_worse : patch_starts 2 (Z.of_nat (ncols narrow_ref)) [0; 8] /\ exists refs a b a' b',
  create_patches 2 narrow_ref [0; 8] = Ret refs /\
  find_most_optimal_deg_patches measure_patch_similarity refs [0; 8] narrow_deg (nofZ 1) 1 = Ret [a; b] /\
  find_most_optimal_deg_patches measure_patch_similarity refs [0; 8] narrow_deg (nofZ 1) 2 = Ret [a'; b'] /\
  nltb (nadd (ndec 2 1) (nadd (ps_sim a') (ps_sim b'))) (nadd (ps_sim a) (ps_sim b)) = true.
Proof.
  split; [exact narrow_starts|]. eexists. eexists. eexists. eexists. eexists.
  split; [vm_compute; reflexivity|]. split; [vm_compute; reflexivity|]. split; [vm_compute; reflexivity|]. vm_compute. reflexivity.
Qed.

(** a radius of 61 instead of 60 *)
Definition wide_manager : manager R := fst (init total_world manager_new (MkInit "model"%string false false 61 false true true)).
Lemma wide_reached : reachable wide_manager. Proof. apply r_init, r_new. Qed.
Lemma wide_returns g : exists msg, snd (run total_world wide_manager (louder g spike) (louder g (constant 50 1))) = Ret msg.
Proof.
  assert (LI : List.length (au_data (louder g (constant 50 1))) = 50%nat) by (unfold louder; cbn [au_data]; rewrite map_length; reflexivity).
  assert (PI : mg_init wide_manager = true) by reflexivity.
  refine (run_returns_at total_world wide_manager (louder g spike) (louder g (constant 50 1)) ideal_keeps_length PI wide_reached _ _ _ _ _ _ _ _ _ _); rewrite ?spike_length, ?LI;
    try (vm_compute; (reflexivity || discriminate || (split; (reflexivity || discriminate)))).
Qed.
Lemma wide_long g : long_enough (mg_settings wide_manager) (louder g spike).
Proof. unfold long_enough. rewrite spike_length. vm_compute. repeat split; discriminate. Qed.

Open Scope R_scope.
Lemma wide_example : same_but_radius plain_manager wide_manager /\ (st_radius (mg_settings plain_manager) < st_radius (mg_settings wide_manager))%Z /\
  exists g msg msg' win R1 D1 A B, 0 < g /\ let ref := louder g spike in let deg := louder g (constant 50 1) in
  let d' := snd (fst (run total_world plain_manager ref deg)) in
  long_enough (mg_settings plain_manager) ref /\ long_enough (mg_settings wide_manager) ref /\
  (window_samples 50 < Z.of_nat (List.length (au_data d')))%Z /\ (frames_in 50 (List.length (au_data d')) < 2 ^ 31)%Z /\
  make_window 50 = Ret win /\ snd (build false (mg_bank plain_manager) ref win) = Ret R1 /\ snd (build false (mg_bank plain_manager) d' win) = Ret D1 /\
  prepare_spectrograms (sp_data R1) (sp_data D1) = Ret (A, B) /\ always_positive 30 A B /\
  snd (run total_world plain_manager ref deg) = Ret msg /\ snd (run total_world wide_manager ref deg) = Ret msg'.
Proof.
  split; [repeat split|]. split; [reflexivity|].
  destruct deg_level as (v & V0 & EV). set (k := mg_bank plain_manager).
  destruct (cells_bound false 32 kMinimumFreq 50 ltac:(lia)) as (K & K0 & HK). { unfold kMinimumFreq. cbn [nofZ NumR]. lra. }
  pose proof audible_pos as AP. assert (Q0 : 0 < K * (1 + v)) by nra.
  set (g := audible / (K * (1 + v))). assert (G0 : 0 < g) by (apply Rdiv_lt_0_compat; assumption).
  assert (G1 : K * (g * (1 + v)) = audible) by (unfold g; field; split; lra). clearbody g.
  destruct (spike_returns g) as (msg & EM). destruct (wide_returns g) as (msg' & EM').
  destruct (build_ret false k (louder g spike) win50 1 hop50 ltac:(lia) ltac:(rewrite spike_length; cbn; lia)) as (R1 & B1 & WR & NR & CR & _).
  assert (LD : List.length (au_data (louder g (constant 50 v))) = 50%nat) by (unfold louder; cbn [au_data]; rewrite map_length; apply constant_length).
  destruct (build_ret false k (louder g (constant 50 v)) win50 1 hop50 ltac:(lia) ltac:(rewrite LD; cbn; lia)) as (D1 & B2 & WD & ND & CD & _).
  rewrite spike_length in CR. rewrite LD in CD. change (1 + (50 - w_size win50) / Z.to_nat 1)%nat with 47%nat in CR, CD. change (bk_bands k) with 32%nat in NR, ND.
  destruct (prepare_spec (sp_data R1) (sp_data D1) WR WD ltac:(lia) ltac:(lia) ltac:(lia) ltac:(lia)) as (A & B & fl & low & EP & WA & WB & [SX1 SX2] & [SY1 SY2] & _).
  exists g, msg, msg', win50, R1, D1, A, B. split; [exact G0|]. cbv zeta. rewrite EV by exact G0. rewrite LD.
  split; [apply spike_long|]. split; [apply wide_long|]. split; [reflexivity|]. split; [reflexivity|]. split; [exact window50|]. split; [exact B1|]. split; [exact B2|].
  split; [exact EP|]. split; [|split; assumption].
  assert (W1 : within (g * (1 + v)) (louder g spike)) by (intros x Hx; pose proof (spike_within g G0 x Hx) as SW; cbv beta in SW; nra).
  assert (W2 : within (g * (1 + v)) (louder g (constant 50 v))).
  { intros x Hx. rewrite constant_louder in Hx. apply repeat_spec in Hx. subst x. rewrite Rabs_pos_eq by nra. nra. }
  pose proof (HK k (louder g spike) win50 1%Z R1 _ eq_refl eq_refl eq_refl hop50 ltac:(lia) ltac:(rewrite spike_length; cbn; lia) W1 ltac:(nra) B1) as Q1.
  pose proof (HK k (louder g (constant 50 v)) win50 1%Z D1 _ eq_refl eq_refl eq_refl hop50 ltac:(lia) ltac:(rewrite LD; cbn; lia) W2 ltac:(nra) B2) as Q2.
  rewrite G1 in Q1, Q2.
  destruct (prepare_quiet (sp_data R1) (sp_data D1) A B WR WD ltac:(lia) ltac:(lia) ltac:(lia) ltac:(lia) Q1 Q2 EP) as [Z1 Z2].
  intros o s Ho1 Ho2 Hs.
  assert (EF : frames_at 0 A o 30 = frames_at 0 B (Z.of_nat s) 30).
  { unfold frames_at. replace (nrows A) with (nrows B) by lia. apply (tab_ext 0). intros r c Hr Hc.
    cbv zeta. transitivity 0; [|symmetry].
    - destruct (_ && _)%bool eqn:E; [|reflexivity]. apply Z1; lia.
    - destruct (_ && _)%bool eqn:E; [|reflexivity]. apply Z2; lia. }
  rewrite EF. set (P := frames_at 0 B (Z.of_nat s) 30).
  assert (WP : wf P) by apply tab_wf. assert (RP : nrows P = 32%nat) by (unfold P, frames_at; rewrite tab_nrows; lia). assert (CP : ncols P = 30%nat) by (unfold P, frames_at; apply tab_ncols).
  destruct (measure_self P ltac:(lia) ltac:(lia)) as (q & EQ & E1 & _). rewrite EQ. cbn [result_of]. rewrite E1. lra.
Qed.
