(** C90: one pair of recordings at two levels. *)
From Coq Require Import ZArith List Bool Reals Lra Lia.
From Coq Require Import ZifyBool ZifyNat.
From Verif Require Import Base.Res Base.Num Base.NumR Base.Lists Base.Mat Model.Amatrix Model.MiscMath Model.Fft Model.Window Model.Erb
  Model.FilterBank Model.Spectrogram Model.Nsim Model.Alignment Model.Selector Model.PatchCreator Model.MiscAudio Model.Mappers
  Model.Visqol Model.Manager Spec.FftSpec Spec.StatSpec Spec.AudioSpec Spec.LoudSpec Spec.MatchSpec Spec.ManagerSpec Spec.TotalSpec Spec.IdentitySpec Spec.PolaritySpec Spec.LevelSpec
  Proofs.RealP Proofs.DftP Proofs.ShapeP Proofs.WindowP Proofs.BankP Proofs.PrepareP Proofs.MiscAudioP Proofs.ConvP
  Proofs.ApiP Proofs.TotalP Proofs.TotalCasesP Proofs.IdentityP Proofs.LoudP Proofs.LevelP Proofs.LevelRunP Proofs.LevelScaleP Proofs.NsimOneP Proofs.OneRunP Proofs.CellsP Proofs.PolarityCasesP.
Import ListNotations.
Open Scope R_scope.

Definition spike : audio R := MkAudio (repeat 0 49 ++ [1]) 50.
Definition win50 : window R := MkWin 4 kOverlap.
Lemma window50 : make_window 50 = Ret win50.
Proof. rewrite make_window_R by lia. reflexivity. Qed.
Lemma hop50 : hop_size win50 = Some 1%Z.
Proof. unfold win50. rewrite hop_size_R. reflexivity. Qed.
Lemma plain_reached : reachable plain_manager. Proof. apply r_init, r_new. Qed.
Lemma spike_energy g : 0 < g -> 0 < energy (au_data (louder g spike)).
Proof.
  intros Hg. assert (I : In (g * 1) (au_data (louder g spike))) by (unfold louder; cbn [au_data]; apply in_map; apply in_or_app; right; now left).
  pose proof (sample_energy _ _ I). nra.
Qed.
Lemma spike_energy1 : 0 < energy (au_data spike).
Proof. assert (I : In 1 (au_data spike)) by (apply in_or_app; right; now left). pose proof (sample_energy _ _ I). lra. Qed.
Lemma spike_length g : length (au_data (louder g spike)) = 50%nat. Proof. unfold louder. cbn [au_data]. rewrite map_length. reflexivity. Qed.
Lemma constant_length n c : length (au_data (constant n c)) = n. Proof. apply repeat_length. Qed.

Lemma spike_returns g : exists msg, snd (run total_world plain_manager (louder g spike) (louder g (constant 50 1))) = Ret msg.
Proof.
  assert (LI : length (au_data (louder g (constant 50 1))) = 50%nat) by (unfold louder; cbn [au_data]; rewrite map_length; reflexivity).
  assert (PI : mg_init plain_manager = true) by reflexivity.
  refine (run_returns_at total_world plain_manager (louder g spike) (louder g (constant 50 1)) ideal_keeps_length PI plain_reached _ _ _ _ _ _ _ _ _ _); rewrite ?spike_length, ?LI;
    try (vm_compute; (reflexivity || discriminate || (split; (reflexivity || discriminate)))).
Qed.
Lemma spike_long g : long_enough (mg_settings plain_manager) (louder g spike).
Proof. unfold long_enough. rewrite spike_length. vm_compute. repeat split; discriminate. Qed.

(** what the two recordings become *)
Lemma constant_scaled (ref : audio R) n : exists v, 0 < v /\ scale_to_match_spl ref (constant n 1) = constant n v.
Proof.
  unfold scale_to_match_spl. rewrite scale_factor_R. set (f := exp _). exists (1 * f). split; [unfold f; pose proof (exp_pos ((spl (au_data ref) - spl (au_data (constant n 1))) / 20 * ln 10)); lra|].
  unfold constant. cbn [au_data au_sr]. f_equal. clearbody f. induction n as [|n IH]; [reflexivity|]. cbn [repeat map]. f_equal. exact IH.
Qed.
Lemma deg_level : exists v, 0 < v /\ forall g, 0 < g ->
  snd (fst (run total_world plain_manager (louder g spike) (louder g (constant 50 1)))) = louder g (constant 50 v).
Proof.
  destruct (constant_scaled spike 50) as (v & V0 & EV). exists v. split; [exact V0|]. intros g Hg.
  destruct (spike_returns g) as (msg & EM). destruct (run_parts _ _ _ _ _ EM) as (d & lag & win & k' & r & _ & _ & _ & _ & E5 & _ & E7).
  injection E7 as <- _. rewrite E5. rewrite scale_louder by (exact Hg || exact spike_energy1). rewrite (level_sc g Hg). now rewrite EV.
Qed.

(** a constant recording has the same frame everywhere *)
Lemma constant_cells (k : bank R) v S : 0 <= bk_min k -> 0 < v -> snd (build false k (constant 50 v) win50) = Ret S ->
  ncols (sp_data S) = 47%nat /\ forall b c, (b < nrows (sp_data S))%nat -> (c < 47)%nat -> 0 < at_ (sp_data S) b c /\ at_ (sp_data S) b c = at_ (sp_data S) b 0.
Proof.
  intros Hl Hv ES. assert (LW : (w_size win50 < length (au_data (constant 50 v)))%nat) by (rewrite constant_length; cbn; lia).
  destruct (build_ret false k (constant 50 v) win50 1 hop50 ltac:(lia) LW) as (S' & ES' & _ & N & C & _ & _ & _ & V). rewrite ES in ES'. injection ES' as <-.
  rewrite constant_length in *. change (1 + (50 - w_size win50) / Z.to_nat 1)%nat with 47%nat in *. split; [exact C|]. intros b c Hb Hc. split.
  - apply (cell_positive false k (constant 50 v) win50 1 S b c 1); [reflexivity|exact Hl|exact hop50|lia|rewrite constant_length; exact LW|exact ES|exact Hb|lia|lia|cbn; lia|].
    unfold constant. cbn [au_data]. change (Z.to_nat 1) with 1%nat. rewrite nth_repeat_lt by lia. lra.
  - rewrite N in Hb. destruct (V b c (erb_channel 0 0) Hb Hc) as (f & y & F1 & F2 & _ & F4). destruct (V b 0%nat (erb_channel 0 0) Hb ltac:(lia)) as (f' & y' & F1' & F2' & _ & F4').
    assert (E : frame win50 (au_data (constant 50 v)) (c * Z.to_nat 1) = frame win50 (au_data (constant 50 v)) (0 * Z.to_nat 1)).
    { unfold frame, constant. cbn [au_data]. apply (list_ext _ _ 0); [rewrite !firstn_length, !skipn_length, !repeat_length; change (Z.to_nat 1) with 1%nat; cbn [w_size win50]; lia|].
      intros i Hi. rewrite firstn_length in Hi. cbn [w_size win50] in Hi. rewrite !nth_firstn by (cbn [w_size win50]; lia). rewrite !nth_skipn. change (Z.to_nat 1) with 1%nat. rewrite !nth_repeat_lt by lia. reflexivity. }
    rewrite E, F1' in F1. injection F1 as <-. rewrite F2' in F2. injection F2 as <-. now rewrite F4, F4'.
Qed.
Lemma spike_cells (k : bank R) g S : 0 <= bk_min k -> snd (build false k (louder g spike) win50) = Ret S ->
  ncols (sp_data S) = 47%nat /\ forall b c, (b < nrows (sp_data S))%nat -> (c < 46)%nat -> at_ (sp_data S) b c = 0.
Proof.
  intros Hl ES. assert (LW : (w_size win50 < length (au_data (louder g spike)))%nat) by (rewrite spike_length; cbn; lia).
  destruct (build_ret false k (louder g spike) win50 1 hop50 ltac:(lia) LW) as (S' & ES' & _ & N & C & _). rewrite ES in ES'. injection ES' as <-.
  rewrite spike_length in *. change (1 + (50 - w_size win50) / Z.to_nat 1)%nat with 47%nat in *. split; [exact C|]. intros b c Hb Hc.
  apply (cell_silent false k (louder g spike) win50 1 S b c); [reflexivity|exact Hl|exact hop50|lia|rewrite spike_length; exact LW|exact ES|exact Hb|lia|].
  intros i Hi. cbn [w_size win50] in Hi. change (Z.to_nat 1) with 1%nat. unfold louder, spike. cbn [au_data]. rewrite sc_nth.
  rewrite app_nth1 by (rewrite repeat_length; lia). rewrite nth_repeat_lt by lia. lra.
Qed.

Lemma level_above x : audible < x -> -45 < level x.
Proof.
  intros H. pose proof ln10_pos as P. assert (0 < audible) by apply exp_pos. unfold level. destruct (Req_EM_T x 0) as [E|_]; [lra|]. rewrite Rabs_pos_eq by lra.
  assert (- 4.5 * ln 10 < ln x). { rewrite <- (ln_exp (-4.5 * ln 10)). fold audible. apply ln_increasing; lra. }
  apply Rmult_lt_reg_r with (ln 10); [exact P|]. unfold Rdiv. rewrite Rmult_assoc, (Rmult_assoc (ln x)), Rinv_l by lra. lra.
Qed.

Lemma level_matters : exists quiet loud, 0 < quiet /\ quiet < loud /\ forall g, 0 < g ->
  exists msg, snd (run total_world plain_manager (louder g spike) (louder g (constant 50 1))) = Ret msg /\
    (g <= quiet -> no_difference 32 msg) /\ (loud <= g -> ~ no_difference 32 msg).
Proof.
  destruct deg_level as (v & V0 & EV).
  destruct (quiet_perfect false 50 50 ltac:(lia)) as (eps & E0 & HQ). set (k := mg_bank plain_manager).
  assert (Kmin : 0 <= bk_min k) by (unfold k; cbn; lra).
  assert (Kb : bk_bands k = 32%nat) by reflexivity.
  destruct (build_ret false k (constant 50 v) win50 1 hop50 ltac:(lia) ltac:(rewrite constant_length; cbn; lia)) as (S0 & ES0 & _ & N0 & _). rewrite Kb in N0.
  destruct (constant_cells k v S0 Kmin V0 ES0) as [C0 P0].
  set (x0 := at_ (sp_data S0) 0 0). assert (X0 : 0 < x0) by (apply P0; lia). pose proof audible_pos as AP.
  set (loud := Rmax ((audible + 1) / x0) (eps + 1)). assert (L1 : (audible + 1) / x0 <= loud) by apply Rmax_l. assert (L2 : eps + 1 <= loud) by apply Rmax_r.
  assert (L3 : audible + 1 <= loud * x0).
  { apply Rmult_le_compat_r with (r := x0) in L1; [|lra]. unfold Rdiv in L1. rewrite Rmult_assoc, Rinv_l, Rmult_1_r in L1 by lra. exact L1. }
  clearbody loud. exists eps, loud. split; [exact E0|]. split; [lra|]. intros g Hg. destruct (spike_returns g) as (msg & EM). exists msg. split; [exact EM|]. split.
  - intros Hle. apply (HQ total_world plain_manager (louder g spike) (louder g (constant 50 1)) msg); try reflexivity; try assumption.
    + exact plain_reached.
    + apply spike_long.
    + intros x Hx. unfold louder, spike in Hx. cbn [au_data] in Hx. apply in_map_iff in Hx. destruct Hx as (y & <- & Hy). apply in_app_or in Hy.
      rewrite Rabs_mult, (Rabs_pos_eq g) by lra. destruct Hy as [Hy|[<-|[]]]; [apply repeat_spec in Hy; subst y; rewrite Rabs_R0|rewrite Rabs_R1]; lra.
    + apply spike_energy, Hg.
    + rewrite EV by exact Hg. rewrite spike_length. unfold louder. cbn [au_data]. rewrite map_length, constant_length. lia.
    + rewrite EV by exact Hg. unfold louder. cbn [au_data]. rewrite map_length, constant_length. vm_compute. discriminate.
  - intros Hge HN. 
    assert (LD : length (au_data (louder g (constant 50 v))) = 50%nat) by (unfold louder; cbn [au_data]; rewrite map_length; apply constant_length).
    destruct (run_patches total_world plain_manager (louder g spike) (louder g (constant 50 1)) msg plain_reached eq_refl (spike_long g)) as
      (win & R1 & D1 & A & B & idx & off & W1 & B1 & B2 & EP & PS & NE & HP).
    + rewrite EV, LD by exact Hg. vm_compute. reflexivity.
    + rewrite EV, LD by exact Hg. vm_compute. reflexivity.
    + exact EM.
    + change (au_sr (louder g spike)) with 50%Z in W1. rewrite window50 in W1. injection W1 as <-. rewrite EV in B2 by exact Hg. fold k in B1, B2.
      change (st_speech (mg_settings plain_manager)) with false in *.
      destruct (build_ret false k (louder g spike) win50 1 hop50 ltac:(lia) ltac:(rewrite spike_length; cbn; lia)) as (x & X1 & WR & NR & _). rewrite B1 in X1. injection X1 as <-.
      destruct (spike_cells k g R1 Kmin B1) as [CR ZR].
      destruct (build_louder g Hg false k (constant 50 v) win50 1 S0 hop50 ltac:(lia) ltac:(rewrite constant_length; cbn; lia) ES0) as (x & X1 & _ & WD & ND & CD & VD).
      rewrite B2 in X1. injection X1 as <-. rewrite N0 in ND, VD. rewrite C0 in CD, VD. rewrite Kb in NR.
      destruct (prepare_spec (sp_data R1) (sp_data D1) WR WD ltac:(lia) ltac:(lia) ltac:(lia) ltac:(lia)) as (X & Y & fl & low & EP' & _ & _ & [SX1 SX2] & [SY1 SY2] & FL & _ & VX & VY & _).
      rewrite EP in EP'. injection EP' as <- <-.
      destruct (FL 14%nat ltac:(lia)) as (pk & F14 & PA & PB & r & PR).
      assert (HB0 : -45 < level (at_ (sp_data D1) 0 14)).
      { apply level_above. rewrite VD by lia. destruct (P0 0%nat 14%nat ltac:(lia) ltac:(lia)) as [_ ->]. fold x0. apply Rmult_le_compat_r with (r := x0) in Hge; lra. }
      pose proof (PB 0%nat ltac:(lia)) as PK. rewrite Rmax_right in PK by lra.
      assert (Z0 : forall b c, (b < 32)%nat -> (c < 46)%nat -> Rmax (-45) (level (at_ (sp_data R1) b c)) = -45).
      { intros b c Hb Hc. apply Rmax_left. apply level_quiet. rewrite ZR by lia. lra. }
      destruct PR as [[Hr PR]|[Hr PR]]; [rewrite Z0 in PR by lia; lra|].
      destruct (ms_patches msg) as [|q qs] eqn:EQ; [congruence|].
      destruct (HP 0%nat q eq_refl) as (I0 & O0 & S1 & _).
      destruct HN as (_ & _ & _ & _ & _ & FA). rewrite EQ in FA. apply Forall_inv in FA. destruct FA as [Q1 _]. specialize (S1 Q1).
      assert (ID : nth 0 idx 0%Z = 14%Z). { destruct PS as (_ & PS & _). destruct idx as [|i0 idx]; [discriminate|]. cbn in PS. injection PS as ->. reflexivity. }
      rewrite ID in S1. apply (f_equal (fun M => at_ M r 0)) in S1. unfold frames_at in S1. rewrite !at_tab in S1 by (cbn; lia).
      replace ((0 <=? 14 + Z.of_nat 0)%Z && (14 + Z.of_nat 0 <? Z.of_nat (ncols A))%Z) with true in S1 by lia.
      replace ((0 <=? Z.of_nat (off 0%nat) + Z.of_nat 0)%Z && (Z.of_nat (off 0%nat) + Z.of_nat 0 <? Z.of_nat (ncols B))%Z) with true in S1 by lia.
      replace (Z.to_nat (14 + Z.of_nat 0)) with 14%nat in S1 by lia. replace (Z.to_nat (Z.of_nat (off 0%nat) + Z.of_nat 0)) with (off 0%nat) in S1 by lia.
      change (at_ A r 14 = at_ B r (off 0%nat)) in S1. rewrite VX, VY in S1 by lia. rewrite Z0 in S1 by lia.
      assert (EC : at_ (sp_data D1) r (off 0%nat) = at_ (sp_data D1) r 14).
      { rewrite !VD by lia. destruct (P0 r (off 0%nat) ltac:(lia) ltac:(lia)) as [_ ->]. destruct (P0 r 14%nat ltac:(lia) ltac:(lia)) as [_ ->]. reflexivity. }
      rewrite EC, <- PR in S1. pose proof (Rmax_r (fl (off 0%nat)) pk). assert (Rmax (fl 14%nat) (-45) < pk) by (apply Rmax_lub_lt; lra). lra.
Qed.


(** recordings all of whose bands are audible *)
Lemma constant_cells52 (k : bank R) n v S : (5 <= n)%nat -> 0 <= bk_min k -> 0 < v -> snd (build false k (constant n v) win50) = Ret S ->
  forall b c, (b < nrows (sp_data S))%nat -> (c < ncols (sp_data S))%nat -> 0 < at_ (sp_data S) b c.
Proof.
  intros Hn Hl Hv ES. assert (LW : (w_size win50 < length (au_data (constant n v)))%nat) by (rewrite constant_length; cbn; lia).
  destruct (build_ret false k (constant n v) win50 1 hop50 ltac:(lia) LW) as (S' & ES' & _ & N & C & _ & IN & _). rewrite ES in ES'. injection ES' as <-.
  rewrite constant_length in *. intros b c Hb Hc. rewrite C in Hc. pose proof (IN c Hc) as Q. cbn [w_size win50] in Q. change (Z.to_nat 1) with 1%nat in Q.
  apply (cell_positive false k (constant n v) win50 1 S b c 1); [reflexivity|exact Hl|exact hop50|lia|rewrite constant_length; exact LW|exact ES|exact Hb|rewrite C; exact Hc|lia|cbn; lia|].
  unfold constant. cbn [au_data]. change (Z.to_nat 1) with 1%nat. rewrite nth_repeat_lt by lia. lra.
Qed.
Lemma loud_enough (S : spectrogram R) : (forall b c, (b < nrows (sp_data S))%nat -> (c < ncols (sp_data S))%nat -> 0 < at_ (sp_data S) b c) ->
  exists g0, 0 < g0 /\ forall g b c, g0 <= g -> (b < nrows (sp_data S))%nat -> (c < ncols (sp_data S))%nat -> audible <= g * at_ (sp_data S) b c.
Proof.
  intros H. pose proof audible_pos as AP. set (l := list_prod (seq 0 (nrows (sp_data S))) (seq 0 (ncols (sp_data S)))).
  assert (IN : forall r c, (r < nrows (sp_data S))%nat -> (c < ncols (sp_data S))%nat -> In (r, c) l) by (intros r c Hr Hc; apply in_prod; apply in_seq; lia).
  destruct l as [|p0 l0] eqn:EL.
  - exists 1. split; [lra|]. intros g b c _ Hb Hc. destruct (IN b c Hb Hc).
  - destruct (max_at (fun p => audible / at_ (sp_data S) (fst p) (snd p)) l) as ([r0 c0] & H0 & HM); [rewrite EL; discriminate|].
    unfold l in H0. apply in_prod_iff in H0. rewrite !in_seq in H0. cbn [fst snd] in HM.
    exists (audible / at_ (sp_data S) r0 c0). split; [apply Rdiv_lt_0_compat; [exact AP|apply H; lia]|].
    intros g b c Hg Hb Hc. pose proof (H b c Hb Hc) as P. rewrite <- EL in IN. pose proof (HM (b, c) (IN b c Hb Hc)) as M. cbn [fst snd] in M.
    assert (Q : audible / at_ (sp_data S) b c <= g) by lra. apply Rmult_le_compat_r with (r := at_ (sp_data S) b c) in Q; [|lra].
    unfold Rdiv in Q. rewrite Rmult_assoc, Rinv_l, Rmult_1_r in Q by lra. exact Q.
Qed.
Lemma constant_louder n g v : louder g (constant n v) = constant n (g * v).
Proof. unfold louder, constant. cbn [au_data au_sr]. f_equal. induction n as [|n IH]; [reflexivity|]. cbn [repeat map]. f_equal. exact IH. Qed.
Lemma constant_energy n c : (1 <= n)%nat -> 0 < c -> 0 < energy (au_data (constant n c)).
Proof.
  intros Hn Hc. assert (I : In c (au_data (constant n c))) by (destruct n; [lia|now left]). pose proof (sample_energy _ _ I). nra.
Qed.
Lemma constant_returns c : exists msg, snd (run total_world plain_manager (constant 50 c) (constant 52 1)) = Ret msg.
Proof.
  assert (PI : mg_init plain_manager = true) by reflexivity.
  refine (run_returns_at total_world plain_manager (constant 50 c) (constant 52 1) ideal_keeps_length PI plain_reached _ _ _ _ _ _ _ _ _ _); rewrite ?constant_length;
    try (vm_compute; (reflexivity || discriminate || (split; (reflexivity || discriminate)))).
Qed.
Lemma audible_example : exists c msg win R1 D1, 0 < c /\
  let ref := constant 50 c in let deg := constant 52 1 in
  snd (run total_world plain_manager ref deg) = Ret msg /\ 0 < energy (au_data ref) /\ make_window 50 = Ret win /\
  snd (build false (mg_bank plain_manager) ref win) = Ret R1 /\ all_audible R1 /\
  snd (build false (mg_bank plain_manager) (snd (fst (run total_world plain_manager ref deg))) win) = Ret D1 /\ all_audible D1.
Proof.
  set (k := mg_bank plain_manager). assert (Kmin : 0 <= bk_min k) by (unfold k; cbn; lra).
  destruct (constant_scaled (constant 50 1) 52) as (v & V0 & EV).
  destruct (build_ret false k (constant 50 1) win50 1 hop50 ltac:(lia) ltac:(rewrite constant_length; cbn; lia)) as (S1 & ES1 & _).
  destruct (build_ret false k (constant 52 v) win50 1 hop50 ltac:(lia) ltac:(rewrite constant_length; cbn; lia)) as (S2 & ES2 & _).
  destruct (loud_enough S1 (constant_cells52 k 50 1 S1 ltac:(lia) Kmin ltac:(lra) ES1)) as (g1 & G1 & H1).
  destruct (loud_enough S2 (constant_cells52 k 52 v S2 ltac:(lia) Kmin V0 ES2)) as (g2 & G2 & H2).
  set (g := g1 + g2). assert (Hg : 0 < g) by (unfold g; lra). destruct (constant_returns g) as (msg & EM).
  destruct (build_louder g Hg false k (constant 50 1) win50 1 S1 hop50 ltac:(lia) ltac:(rewrite constant_length; cbn; lia) ES1) as (R1 & B1 & _ & _ & N1 & C1 & VR).
  destruct (build_louder g Hg false k (constant 52 v) win50 1 S2 hop50 ltac:(lia) ltac:(rewrite constant_length; cbn; lia) ES2) as (D1 & B2 & _ & _ & N2 & C2 & VD).
  assert (ED : snd (fst (run total_world plain_manager (constant 50 g) (constant 52 1))) = louder g (constant 52 v)).
  { destruct (run_parts _ _ _ _ _ EM) as (d & lag & win & k' & r & _ & _ & _ & _ & E5 & _ & E7). injection E7 as <- _. rewrite E5, <- EV.
    rewrite <- (scale_louder g Hg) by (apply constant_energy; [lia|lra]). f_equal. rewrite constant_louder. f_equal. lra. }
  rewrite constant_louder, Rmult_1_r in B1.
  exists g, msg, win50, R1, D1. split; [exact Hg|]. cbv zeta. split; [exact EM|]. split; [apply constant_energy; [lia|exact Hg]|]. split; [exact window50|].
  split; [exact B1|]. split; [intros b c Hb Hc; rewrite VR by congruence; apply H1; [unfold g; lra|congruence|congruence]|].
  fold k. rewrite ED. split; [exact B2|]. intros b c Hb Hc. rewrite VD by congruence. apply H2; [unfold g; lra|congruence|congruence].
Qed.
