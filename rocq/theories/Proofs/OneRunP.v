(** C91: a patch of a comparison that scored 1 is identical to what it was matched with. *)
From Coq Require Import ZArith List Bool Reals Lra Lia.
From Coq Require Import ZifyBool ZifyNat.
From Verif Require Import Base.Res Base.Num Base.NumR Base.Lists Base.Mat Model.Amatrix Model.MiscMath Model.Fft Model.Window Model.Erb
  Model.FilterBank Model.Spectrogram Model.Nsim Model.Alignment Model.Selector Model.PatchCreator Model.MiscAudio Model.Mappers
  Model.Visqol Model.Manager Spec.FftSpec Spec.StatSpec Spec.AudioSpec Spec.MatchSpec Spec.ManagerSpec Spec.TotalSpec Spec.IdentitySpec
  Proofs.RealP Proofs.ShapeP Proofs.AggregateP Proofs.WindowP Proofs.BankP Proofs.PrepareP Proofs.MiscAudioP Proofs.ConvP Proofs.PatchCreatorP Proofs.SelectorP Proofs.MatchP Proofs.MatchAllP
  Proofs.ApiP Proofs.FineRunP Proofs.TotalP Proofs.IdentityP Proofs.IdentityRunP Proofs.LevelRunP Proofs.NsimOneP.
Import ListNotations.
Open Scope R_scope.

(** what the patches of a comparison without second alignment are made from *)
Lemma run_matched (w : world R) (m : manager R) (ref deg : audio R) msg : reachable m -> st_no_realign (mg_settings m) = true ->
  long_enough (mg_settings m) ref ->
  let st := mg_settings m in let sr := au_sr ref in let d' := snd (fst (run w m ref deg)) in let p := patch_size (st_speech st) in
  (window_samples sr < Z.of_nat (length (au_data d')))%Z -> (frames_in sr (length (au_data d')) < 2 ^ 31)%Z ->
  snd (run w m ref deg) = Ret msg ->
  exists win R1 D1 A B idx fd refs sims lag r, make_window sr = Ret win /\
    snd (build (st_speech st) (mg_bank m) ref win) = Ret R1 /\ snd (build (st_speech st) (mg_bank m) d' win) = Ret D1 /\
    prepare_spectrograms (sp_data R1) (sp_data D1) = Ret (A, B) /\ ref_patch_indices (st_speech st) (ncols A) ref win = Ret idx /\
    calc_frame_duration win sr = Ret fd /\ create_patches (Z.of_nat p) A idx = Ret refs /\
    find_most_optimal_deg_patches measure_patch_similarity refs idx B fd (st_radius st) = Ret sims /\
    summarise (pf_f32 (w_fft w)) (st_mapper st) fd (sp_cfb R1) sims = Ret r /\ populate r lag = Ret msg /\
    patch_starts p (Z.of_nat (ncols A)) idx /\ shapes refs B p /\ nrows A = nrows B /\ nrows B = num_bands (st_speech st) /\
    (Z.of_nat (ncols A) = frames_in sr (length (au_data ref)) /\ Z.of_nat (ncols B) = frames_in sr (length (au_data d')) /\ 0 < Z.of_nat (ncols B))%Z /\
    (forall i, (i < length idx)%nat -> ref_at refs i = frames_at 0 A (idx_at idx i) p).
Proof.
  intros HR NR (Hsr & Hl & HF & HW & Rad & RB) st sr d' p WD FD HM. fold st in NR, HF, HW, Rad, RB. fold sr in Hsr, HF, HW, RB.
  destruct (run_parts w m ref deg msg HM) as (d & lag & win & k' & r & E1 & E2 & E3 & E4 & E5 & E6 & _). fold st in E4. fold d' in E5. rewrite <- E5 in E4. fold sr in E2, E3.
  assert (W4 : (4 <= window_samples sr)%Z) by (unfold window_samples; lia).
  assert (H1 : (1 <= hop_samples sr)%Z) by (unfold hop_samples; lia).
  assert (Wr : (window_samples sr < Z.of_nat (length (au_data ref)))%Z).
  { unfold frames_in in HF. destruct (Z.lt_ge_cases (window_samples sr) (Z.of_nat (length (au_data ref)))); [assumption|].
    assert (Q : ((Z.of_nat (length (au_data ref)) - window_samples sr) / hop_samples sr < 1)%Z) by (apply Z.div_lt_upper_bound; lia). destruct (st_speech st); lia. }
  pose proof (make_window_R sr ltac:(lia)) as EW. fold (window_samples sr) in EW. rewrite E3 in EW. injection EW as EW.
  set (h := hop_samples sr) in *.
  assert (EH : hop_size win = Some h).
  { rewrite EW. rewrite hop_size_R. rewrite Z2Nat.id by lia. reflexivity. }
  assert (WS : Z.of_nat (w_size win) = window_samples sr) by (rewrite EW; cbn [w_size]; lia).
  assert (EFR : forall n, (w_size win < n)%nat -> Z.of_nat (1 + (n - w_size win) / Z.to_nat h) = frames_in sr n).
  { intros n Hn. unfold frames_in. fold h. rewrite <- WS. rewrite Nat2Z.inj_add, Nat2Z.inj_div, Nat2Z.inj_sub by lia. rewrite !Z2Nat.id by lia. reflexivity. }
  pose proof (bank_invariant m HR) as [KB KM]. fold st in KB. pose proof (num_bands_pos (st_speech st)) as NP. set (k := mg_bank m) in *.
  pose proof (EFR (length (au_data ref)) ltac:(lia)) as X1. pose proof (EFR (length (au_data d')) ltac:(lia)) as X2.
  set (frames := (1 + (length (au_data ref) - w_size win) / Z.to_nat h)%nat) in *. set (dframes := (1 + (length (au_data d') - w_size win) / Z.to_nat h)%nat) in *.
  assert (EF : enough_frames (st_speech st) frames) by (unfold enough_frames; destruct (st_speech st); lia).
  assert (HW' : st_speech st = true -> (Z.of_nat (w_size win) = 4 * h /\ Z.of_nat (w_size win) < 2 ^ 24)%Z).
  { intros HS'. destruct (HW HS') as [W1 W2]. rewrite WS. split; [|exact W2]. unfold h, hop_samples. lia. }
  assert (FB : (Z.of_nat frames < 2 ^ 31)%Z) by (destruct (st_speech st); lia).
  unfold calculate_similarity in E4. rewrite <- E5 in E4.
  destruct (build_ret (st_speech st) k ref win h EH H1 ltac:(lia)) as (R1 & B1 & W1 & N1 & C1 & _). fold frames in C1.
  destruct (build_ret (st_speech st) k d' win h EH H1 ltac:(lia)) as (D1 & BD & WDD & ND & CD & _). fold dframes in CD.
  pose proof (build_depends (st_speech st) k k ref win eq_refl eq_refl) as (_ & K1 & K1').
  destruct (build (st_speech st) k ref win) as [k1 rs] eqn:EB1. cbn [fst snd] in B1, K1, K1'. subst rs.
  pose proof (build_depends (st_speech st) k1 k d' win K1 K1') as (B2 & K2 & K2'). rewrite BD in B2.
  destruct (build (st_speech st) k1 d' win) as [k2 ds] eqn:EB2. cbn [fst snd] in B2, K2, K2'. subst ds.
  unfold compare_spectrograms in E4. rewrite NR in E4.
  match type of E4 with context [match ?e with Ret _ => _ | Err _ => _ | Throw => _ | Ub => _ end] =>
    destruct e as [[fd sims]| | |] eqn:EC end; try discriminate.
  apply bind_ret in EC. destruct EC as ([A B] & EP & EC). pose proof EP as EP0.
  apply prepare_inv in EP. assert (NA : nrows A = nrows (sp_data R1)) by lia. assert (CA : ncols A = frames) by lia.
  assert (NB : nrows B = nrows A) by lia. assert (CB : ncols B = dframes) by lia.
  apply bind_ret in EC. destruct EC as (idx & EI & EC).
  apply bind_ret in EC. destruct EC as (fd' & EFD & EC). apply bind_ret in EC. destruct EC as (refs & ER & EC).
  apply bind_ret in EC. destruct EC as (sims' & ES & EC). injection EC as -> ->.
  destruct (indices_return (st_speech st) (ncols A) ref win h H1 ltac:(lia) CA ltac:(lia) ltac:(rewrite CA; exact EF) HW') as (idx' & EI' & PS & CI).
  rewrite EI in EI'. injection EI' as <-.
  destruct (patch_size_facts (st_speech st)) as (P1 & P2 & P3). fold p in P1, P2, P3, PS, CI, ER, ES |- *.
  pose proof (create_patches_inv (Z.of_nat p) A ltac:(lia) ltac:(lia) idx refs ER) as [L1 L2]. rewrite Nat2Z.id in L2.
  assert (DP : (0 < dframes)%nat) by (apply le_n_S, Nat.le_0_l).
  assert (Sh : shapes refs B p).
  { constructor; [eapply find_some; exact ES| |lia|lia]. intros q Hq. destruct (L2 q Hq). split; lia. }
  assert (NRP : (0 < nrows B)%nat) by lia.
  assert (PF : forall i, (i < length idx)%nat -> ref_at refs i = frames_at 0 A (idx_at idx i) p).
  { intros i Hi. apply (patch_frames A p idx refs i); [lia|exact PS|unfold two64; lia|exact ER|exact Hi]. }
  cbn [bind] in E4. injection E4 as _ E4.
  exists win, R1, D1, A, B, idx, fd, refs, sims, lag, r. split; [exact E3|]. split; [now rewrite EB1|]. split; [exact BD|]. split; [exact EP0|].
  split; [exact EI|]. split; [exact EFD|]. split; [exact ER|]. split; [exact ES|]. split; [exact E4|]. split; [exact E6|]. split; [exact PS|].
  split; [exact Sh|]. split; [lia|]. split; [lia|]. split; [lia|]. exact PF.
Qed.

Lemma run_patches (w : world R) (m : manager R) (ref deg : audio R) msg : reachable m -> st_no_realign (mg_settings m) = true ->
  long_enough (mg_settings m) ref ->
  let st := mg_settings m in let sr := au_sr ref in let d' := snd (fst (run w m ref deg)) in let p := patch_size (st_speech st) in
  (window_samples sr < Z.of_nat (length (au_data d')))%Z -> (frames_in sr (length (au_data d')) < 2 ^ 31)%Z ->
  snd (run w m ref deg) = Ret msg ->
  exists win R1 D1 A B idx (off : nat -> nat), make_window sr = Ret win /\
    snd (build (st_speech st) (mg_bank m) ref win) = Ret R1 /\ snd (build (st_speech st) (mg_bank m) d' win) = Ret D1 /\
    prepare_spectrograms (sp_data R1) (sp_data D1) = Ret (A, B) /\ patch_starts p (Z.of_nat (ncols A)) idx /\ ms_patches msg <> [] /\
    forall i q, nth_error (ms_patches msg) i = Some q -> (i < length idx)%nat /\ (off i < ncols B)%nat /\
      let same := frames_at 0 A (nth i idx 0%Z) p = frames_at 0 B (Z.of_nat (off i)) p in
      (pm_sim q = 1 -> same) /\ (same -> pm_sim q = 1 \/ pm_sim q = 0).
Proof.
  intros HR NR HL st sr d' p WD FD HM.
  destruct (run_matched w m ref deg msg HR NR HL WD FD HM) as (win & R1 & D1 & A & B & idx & fd & refs & sims & lag & r & E3 & B1 & BD & EP0 & EI & EFD & ER & ES & E4 & E6 & PS & Sh & NA & NB & (X1 & X2 & X3) & PF).
  fold st sr d' p in E3, B1, BD, EI, EFD, ER, ES, E4, PS, Sh, X1, X2, PF, NB.
  pose proof (num_bands_pos (st_speech st)) as NP. assert (NRP : (0 < nrows B)%nat) by lia.
  destruct (patch_size_facts (st_speech st)) as (P1 & P2 & P3). fold p in P1, P2, P3.
  destruct (find_shaped refs idx B p _ (st_radius st) sims NRP Sh ES) as [F0 F1].
  destruct (matched_results measure_patch_similarity _ _ _ _ _ _ _ Sh ES) as (off & lost & Q1 & Q2 & Q3 & Q4 & _).
  assert (RP : sr_patches r = sims).
  { unfold summarise in E4. do 5 (apply bind_ret in E4; destruct E4 as (? & _ & E4)). injection E4 as <-. reflexivity. }
  pose proof (populate_inv (nrows B) r lag msg) as P. rewrite RP in P. specialize (P F1 E6). do 10 (destruct P as [_ P]).
  exists win, R1, D1, A, B, idx, off. split; [exact E3|]. split; [exact B1|]. split; [exact BD|]. split; [exact EP0|]. split; [exact PS|].
  split; [rewrite P; destruct sims; [congruence|discriminate]|].
  intros i q Hq. rewrite P in Hq. assert (Hi : (i < length sims)%nat).
  { pose proof (proj1 (nth_error_Some _ i) (ltac:(rewrite Hq; discriminate) : nth_error (map _ sims) i <> None)) as Z. now rewrite map_length in Z. }
  split; [lia|]. destruct (Q4 i Hi) as (O1 & r0 & M1 & M2). split; [exact O1|]. cbv zeta.
  rewrite (map_nth_error _ _ _ M2) in Hq. injection Hq as <-. cbn [pm_sim].
  rewrite (PF i ltac:(lia)) in M1. change (@n0 R NumR) with 0 in M1.
  pose proof (measure_one (frames_at 0 A (idx_at idx i) p) (frames_at 0 B (Z.of_nat (off i)) p) r0) as MO.
  assert (FS : forall X o, nrows (frames_at 0 X o p) = nrows X /\ ncols (frames_at 0 X o p) = p).
  { intros X o. unfold frames_at. rewrite tab_nrows, tab_ncols. auto. }
  destruct (FS A (idx_at idx i)) as [G1 G2]. destruct (FS B (Z.of_nat (off i))) as [G3 G4].
  specialize (MO (tab_wf _ _ _) (tab_wf _ _ _) ltac:(lia) ltac:(lia) ltac:(lia) ltac:(lia) M1). unfold idx_at in MO.
  unfold with_times. destruct (lost i); cbn [ps_sim]; change (@n0 R NumR) with 0.
  - split; [intros X; lra|]. intros _. now right.
  - split; [apply MO|]. intros X. left. apply MO, X.
Qed.
