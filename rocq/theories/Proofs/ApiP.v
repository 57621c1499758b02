(** Create, Init, Measure and Run over whole histories of calls. *)
From Coq Require Import ZArith List Bool String Lia ZifyBool Reals.
From Verif Require Import Base.Res Base.Num Base.NumR Base.Lists Base.Mat Model.Amatrix Model.Window Model.FilterBank Model.Fft Model.Alignment
  Model.MiscAudio Model.Spectrogram Model.Nsim Model.Selector Model.Mappers Model.Visqol Model.Wav Model.Manager
  Spec.ManagerSpec Spec.ApiSpec Spec.AlignSpec
  Proofs.BankP Proofs.ShapeP Proofs.AggregateP Proofs.CodesP Proofs.MapperRP.
Import ListNotations.
Open Scope Z_scope.

Section Api.
  Context {T : Type} {N : Num T} {L : Libm T}.

  (** *** Create *)
  Lemma size_of_int32 sr : - 2 ^ 31 <= sr < 2 ^ 31 -> (size_of sr = 0 <-> sr = 0) /\ (size_of sr = 48000 <-> sr = 48000).
  Proof. unfold size_of, two64. intros H. Z.to_euclidean_division_equations. lia. Qed.

  Lemma config_args_spec (w : world T) (c : config) :
    config_args w (cf_options c) =
      (MkInit (model_used (w_cwd w) c) (asks_speech c) (asks_unscaled c) (radius_used c) (asks_lattice c) false false, asks_override c).
  Proof.
    unfold config_args, model_used, named_model, asks_speech, asks_unscaled, asks_lattice, asks_override, radius_used, default_model.
    destruct (cf_options c) as [o|]; [|reflexivity]. destruct (op_model o); reflexivity.
  Qed.

  Lemma create_no_audio w (p : api T) c : cf_audio c = None -> create w p c = (p, Some InvalidArgument).
  Proof. unfold create. intros ->. reflexivity. Qed.

  Lemma create_rejects w (p : api T) c sr : cf_audio c = Some sr -> - 2 ^ 31 <= sr < 2 ^ 31 -> rate_rejected c sr ->
    create w p c = (MkApi (ap_manager p) (Some (size_of sr)), Some InvalidArgument).
  Proof.
    intros E H R. destruct (size_of_int32 sr H) as [Z0 Z1]. unfold create. rewrite E, config_args_spec. cbn [ap_manager ia_speech].
    destruct (Z.eqb_spec (size_of sr) 0) as [|NZ]; [reflexivity|]. destruct R as [R|(R1 & R2 & R3)]; [exfalso; apply NZ, Z0, R|].
    rewrite R2, R3. destruct (Z.eqb_spec (size_of sr) 48000) as [F|_]; [exfalso; apply R1, Z1, F|]. reflexivity.
  Qed.

  Lemma create_rejected w (p : api T) c sr : cf_audio c = Some sr -> (- 2 ^ 31 <= sr < 2 ^ 31)%Z -> rate_rejected c sr ->
    snd (create w p c) = Some InvalidArgument /\ ap_manager (fst (create w p c)) = ap_manager p.
  Proof. intros E H R. rewrite (create_rejects w p c sr E H R). split; reflexivity. Qed.

  Lemma create_loads w (p : api T) c sr : cf_audio c = Some sr -> - 2 ^ 31 <= sr < 2 ^ 31 -> ~ rate_rejected c sr ->
    snd (create w p c) = load_status w c /\ ap_sr (fst (create w p c)) = Some (size_of sr) /\
    st_speech (mg_settings (ap_manager (fst (create w p c)))) = asks_speech c /\
    st_radius (mg_settings (ap_manager (fst (create w p c)))) = radius_used c /\
    st_no_realign (mg_settings (ap_manager (fst (create w p c)))) = false /\
    mg_no_global (ap_manager (fst (create w p c))) = false /\
    (load_status w c = None -> mg_init (ap_manager (fst (create w p c))) = true /\
       Some (st_mapper (mg_settings (ap_manager (fst (create w p c))))) = loaded_mapper w c).
  Proof.
    intros E H R. destruct (size_of_int32 sr H) as [Z0 Z1]. unfold create. rewrite E, config_args_spec. cbn [ap_manager ia_speech].
    unfold rate_rejected in R.
    destruct (Z.eqb_spec (size_of sr) 0) as [F|NZ]; [exfalso; apply R; left; apply Z0, F|].
    assert (B : negb (size_of sr =? 48000) && negb (asks_speech c) && negb (asks_override c) = false).
    { destruct (Z.eqb_spec (size_of sr) 48000) as [F|F]; [reflexivity|]. cbn [negb andb].
      destruct (asks_speech c); [reflexivity|]. destruct (asks_override c); [reflexivity|]. exfalso. apply R. right.
      split; [|split; reflexivity]. intros G. apply F, Z1, G. }
    rewrite B. unfold init, init_mapper, load_status, loaded_mapper. cbn [ia_speech ia_lattice ia_model ia_unscaled ia_radius ia_no_global ia_no_realign].
    destruct (asks_speech c); [destruct (asks_lattice c); [destruct (w_tfl w _)|]|destruct (w_svr w _)]; cbn; intuition (try discriminate; auto).
  Qed.

  (** *** initialised or not *)
  Lemma init_init w (m : manager T) a m' s : init w m a = (m', s) -> mg_init m' = match s with None => true | Some _ => mg_init m end.
  Proof. unfold init. destruct (init_mapper w a). intros H. injection H. intros <- <-. reflexivity. Qed.
  Lemma run_init w (m : manager T) ref deg m' deg' r : run w m ref deg = (m', deg', r) ->
    mg_init m' = mg_init m /\ mg_settings m' = mg_settings m /\ mg_no_global m' = mg_no_global m.
  Proof.
    unfold run. destruct (mg_init m) eqn:I; cbn [negb]; [|intros H; injection H; intros _ _ <-; auto].
    destruct (validate _ _); [intros H; injection H; intros _ _ <-; auto|].
    destruct (if mg_no_global m then _ else _) as [[d lag]| | |]; try (intros H; injection H; intros _ _ <-; now auto).
    destruct (make_window _); try (intros H; injection H; intros _ _ <-; now auto).
    destruct (calculate_similarity _ _ _ _ _ _ _) as [[k d'] x]. intros H. injection H. intros _ _ <-. cbn. auto.
  Qed.
  Lemma run_files_init w (m : manager T) rp dp m' r : run_files w m rp dp = (m', r) ->
    mg_init m' = mg_init m /\ mg_settings m' = mg_settings m /\ mg_no_global m' = mg_no_global m.
  Proof.
    unfold run_files. destruct (mg_init m) eqn:I; cbn [negb]; [|intros H; injection H; intros _ <-; auto].
    destruct (bind _ _) as [[ref deg]| | |]; try (intros H; injection H; intros _ <-; now auto).
    pose proof (run_init w m ref deg) as R. destruct (run w m ref deg) as [[m1 d1] x]. intros H. injection H. intros _ <-.
    rewrite <- I. exact (R _ _ _ eq_refl).
  Qed.
  Lemma history_init b (m : manager T) : history b m -> mg_init m = b.
  Proof.
    induction 1 as [|b w m a m' _ _ E|b w m a m' c _ IH E|b w m ref deg m' deg' r _ IH E|b w m rp dp m' r _ IH E].
    - reflexivity.
    - exact (init_init _ _ _ _ _ E).
    - rewrite (init_init _ _ _ _ _ E). exact IH.
    - rewrite (proj1 (run_init _ _ _ _ _ _ _ E)). exact IH.
    - rewrite (proj1 (run_files_init _ _ _ _ _ _ E)). exact IH.
  Qed.
  Lemma history_reachable b (m : manager T) : history b m -> reachable m.
  Proof.
    induction 1 as [|b w m a m' _ IH E|b w m a m' c _ IH E|b w m ref deg m' deg' r _ IH E|b w m rp dp m' r _ IH E].
    - constructor.
    - replace m' with (fst (init w m a)) by (rewrite E; reflexivity). now constructor.
    - replace m' with (fst (init w m a)) by (rewrite E; reflexivity). now constructor.
    - replace m' with (fst (fst (run w m ref deg))) by (rewrite E; reflexivity). now constructor.
    - replace m' with (fst (run_files w m rp dp)) by (rewrite E; reflexivity). now constructor.
  Qed.
  Lemma never_initialised (m : manager T) : history false m -> forall w,
    (forall ref deg, run w m ref deg = (m, deg, Err Aborted)) /\ (forall rp dp, run_files w m rp dp = (m, Err Aborted)).
  Proof. intros H w. apply history_init in H. unfold run, run_files. rewrite H. split; reflexivity. Qed.
  Lemma once_initialised (m : manager T) : history true m -> forall w,
    (forall ref deg, snd (run w m ref deg) <> Err Aborted) /\ (forall rp dp, snd (run_files w m rp dp) <> Err Aborted).
  Proof.
    intros H w. apply history_init in H. split.
    - intros ref deg E. destruct (run w m ref deg) as [[m' d'] r] eqn:R. cbn [snd] in E. subst r. apply run_codes in R. rewrite H in R.
      destruct R; discriminate.
    - intros rp dp E. destruct (run_files w m rp dp) as [m' r] eqn:R. cbn [snd] in E. subst r. apply run_files_codes in R. rewrite H in R.
      destruct R; discriminate.
  Qed.

  (** the API object *)
  Lemma create_history b w (p : api T) c p' e : history b (ap_manager p) -> create w p c = (p', e) ->
    history (match e with None => true | Some _ => b end) (ap_manager p').
  Proof.
    unfold create. intros H. destruct (cf_audio c) as [sr|]; [|intros E; injection E; intros <- <-; exact H].
    destruct (Z.eqb _ _); [intros E; injection E; intros <- <-; exact H|].
    destruct (config_args w (cf_options c)) as [a o].
    destruct (negb _ && negb _ && negb _); [intros E; injection E; intros <- <-; exact H|]. cbn [ap_manager].
    destruct (init w (ap_manager p) a) as [m s] eqn:I. intros E. injection E. intros <- <-. cbn [ap_manager].
    destruct s; [eapply h_init_fail|eapply h_init_ok]; eauto.
  Qed.
  Lemma create_sr w (p : api T) c p' e : create w p c = (p', e) ->
    match cf_audio c with Some _ => ap_sr p' <> None | None => p' = p /\ e = Some InvalidArgument end.
  Proof.
    unfold create. destruct (cf_audio c) as [sr|]; [|intros E; injection E; intros <- <-; auto].
    destruct (Z.eqb _ _); [intros E; injection E; intros <- <-; discriminate|].
    destruct (config_args w (cf_options c)) as [a o].
    destruct (negb _ && negb _ && negb _); [intros E; injection E; intros <- <-; discriminate|].
    destruct (init w _ a) as [m s]. intros E; injection E; intros <- <-; discriminate.
  Qed.
  Lemma measure_history b w (p : api T) ref deg p' r : history b (ap_manager p) -> measure w p ref deg = (p', r) ->
    history b (ap_manager p') /\ ap_sr p' = ap_sr p.
  Proof.
    unfold measure. intros H. destruct (ap_sr p) as [sr|] eqn:S; [|intros E; injection E; intros _ <-; now rewrite S].
    destruct (run w (ap_manager p) _ _) as [[m d] x] eqn:R. intros E. injection E. intros _ <-. cbn. split; [eapply h_run; eauto|reflexivity].
  Qed.
  Lemma api_history_inv b s (p : api T) : api_history b s p -> history b (ap_manager p) /\ (s = true <-> ap_sr p <> None) /\ (b = true -> s = true).
  Proof.
    induction 1 as [|b s w p c p' _ (IH & IS & IB) E|b s w p c p' e _ (IH & IS & IB) E|b s w p ref deg p' r _ (IH & IS & IB) E].
    - cbn. split; [constructor|]. split; [|discriminate]. split; [discriminate|congruence].
    - split; [exact (create_history b w p c p' None IH E)|]. apply create_sr in E. destruct (cf_audio c); [|now destruct E]. tauto.
    - split; [exact (create_history b w p c p' (Some e) IH E)|]. apply create_sr in E. destruct (cf_audio c); cbn [orb].
      + rewrite orb_true_r. tauto.
      + destruct E as [-> _]. rewrite orb_false_r. tauto.
    - apply measure_history with (b := b) in E; [|exact IH]. destruct E as [E1 E2]. rewrite E2. auto.
  Qed.
  Lemma api_never_initialised s (p : api T) : api_history false s p -> forall w ref deg,
    measure w p ref deg = (p, if s then Err Aborted else Ub).
  Proof.
    intros H w ref deg. apply api_history_inv in H. destruct H as (H & S & _). unfold measure.
    destruct (ap_sr p) as [sr|] eqn:E.
    - assert (s = true) as -> by (apply S; discriminate). rewrite (proj1 (never_initialised _ H w)). destruct p. cbn in *. now subst.
    - destruct s; [|reflexivity]. destruct (proj1 S eq_refl eq_refl).
  Qed.
  Lemma api_once_initialised s (p : api T) : api_history true s p -> forall w ref deg, snd (measure w p ref deg) <> Err Aborted.
  Proof.
    intros H w ref deg. apply api_history_inv in H. destruct H as (H & S & B). specialize (B eq_refl). rewrite B in S.
    unfold measure. destruct (ap_sr p) as [sr|]; [|now destruct (proj1 S eq_refl)].
    pose proof (proj1 (once_initialised _ H w) (MkAudio ref sr) (MkAudio deg sr)) as R.
    destruct (run w _ _ _) as [[m d] r]. exact R.
  Qed.

  (** *** earlier measurements do not matter *)
  Definition alike (k k' : bank T) : Prop := bk_bands k = bk_bands k' /\ bk_min k = bk_min k'.
  Lemma build_alike speech k k' s w : alike k k' -> snd (build speech k s w) = snd (build speech k' s w) /\
    alike (fst (build speech k s w)) (fst (build speech k' s w)).
  Proof.
    intros [A B]. destruct (build_depends speech k k' s w A B) as (E & E1 & E2).
    destruct (build_depends speech k' k s w (eq_sym A) (eq_sym B)) as (_ & E3 & E4). split; [exact E|]. split; congruence.
  Qed.
  Lemma fine_one_alike meas (pf : pffft T) speech w ref deg k k' r : alike k k' ->
    snd (finely_align_one meas pf speech w ref deg k r) = snd (finely_align_one meas pf speech w ref deg k' r) /\
    alike (fst (finely_align_one meas pf speech w ref deg k r)) (fst (finely_align_one meas pf speech w ref deg k' r)).
  Proof.
    intros A. unfold finely_align_one. destruct (is_lost r); [now split|]. destruct (bind _ _) as [[[ra da] lag]| | |]; try (now split).
    destruct (build_alike speech k k' ra w A) as [E1 A1]. destruct (build speech k ra w) as [k1 rs], (build speech k' ra w) as [k1' rs'].
    cbn [fst snd] in E1, A1. subst rs'. destruct rs; try (now split).
    destruct (build_alike speech k1 k1' da w A1) as [E2 A2]. destruct (build speech k1 da w) as [k2 ds], (build speech k1' da w) as [k2' ds'].
    cbn [fst snd] in E2, A2 |- *. subst ds'. now split.
  Qed.
  Lemma fine_alike meas (pf : pffft T) speech w ref deg rs : forall k k', alike k k' ->
    snd (finely_align meas pf speech w ref deg k rs) = snd (finely_align meas pf speech w ref deg k' rs).
  Proof.
    induction rs as [|r t IH]; intros k k' A; [reflexivity|]. cbn [finely_align].
    destruct (fine_one_alike meas pf speech w ref deg k k' r A) as [E1 A1].
    destruct (finely_align_one meas pf speech w ref deg k r) as [k1 x], (finely_align_one meas pf speech w ref deg k' r) as [k1' x'].
    cbn [fst snd] in E1, A1. subst x'. destruct x; try reflexivity. specialize (IH k1 k1' A1).
    destruct (finely_align meas pf speech w ref deg k1 t), (finely_align meas pf speech w ref deg k1' t). cbn [snd] in IH |- *. now subst.
  Qed.
  Lemma similarity_alike meas (pf : pffft T) st w ref deg k k' : alike k k' ->
    snd (calculate_similarity meas pf st w ref deg k) = snd (calculate_similarity meas pf st w ref deg k') /\
    snd (fst (calculate_similarity meas pf st w ref deg k)) = scale_to_match_spl ref deg.
  Proof.
    intros A. unfold calculate_similarity. set (d := scale_to_match_spl ref deg). clearbody d.
    destruct (build_alike (st_speech st) k k' ref w A) as [E1 A1].
    destruct (build (st_speech st) k ref w) as [k1 rs], (build (st_speech st) k' ref w) as [k1' rs'].
    cbn [fst snd] in E1, A1. subst rs'. destruct rs as [rs| | |]; try (now split).
    destruct (build_alike (st_speech st) k1 k1' d w A1) as [E2 A2].
    destruct (build (st_speech st) k1 d w) as [k2 ds], (build (st_speech st) k1' d w) as [k2' ds'].
    cbn [fst snd] in E2, A2. subst ds'. destruct ds as [ds| | |]; try (now split).
    assert (C : snd (compare_spectrograms meas pf st w ref d k2 rs ds) = snd (compare_spectrograms meas pf st w ref d k2' rs ds)).
    { unfold compare_spectrograms. destruct (bind _ _) as [[fd sims]| | |]; try reflexivity. destruct (st_no_realign st); [reflexivity|].
      pose proof (fine_alike meas pf (st_speech st) w ref d sims k2 k2' A2) as F.
      destruct (finely_align meas pf _ w ref d k2 sims), (finely_align meas pf _ w ref d k2' sims). cbn [snd] in F |- *. now subst. }
    destruct (compare_spectrograms meas pf st w ref d k2 rs ds), (compare_spectrograms meas pf st w ref d k2' rs ds). cbn [snd fst] in C |- *. now split.
  Qed.
  Lemma run_alike w (m m' : manager T) ref deg : mg_init m = mg_init m' -> mg_settings m = mg_settings m' -> mg_no_global m = mg_no_global m' ->
    alike (mg_bank m) (mg_bank m') ->
    snd (run w m ref deg) = snd (run w m' ref deg) /\ snd (fst (run w m ref deg)) = snd (fst (run w m' ref deg)).
  Proof.
    intros E1 E2 E3 A. unfold run. rewrite <- E1, <- E2, <- E3. destruct (negb _); [now split|]. destruct (validate _ _); [now split|].
    destruct (if mg_no_global m then _ else _) as [[d lag]| | |]; try (now split).
    destruct (make_window _) as [win| | |]; try (now split).
    pose proof (similarity_alike measure_patch_similarity (w_fft w) (mg_settings m) win ref d _ _ A) as [S1 S2].
    assert (A' : alike (mg_bank m') (mg_bank m)) by (destruct A; split; auto).
    pose proof (similarity_alike measure_patch_similarity (w_fft w) (mg_settings m) win ref d _ _ A') as [_ S3].
    destruct (calculate_similarity _ _ _ _ _ _ (mg_bank m)) as [[k d'] r], (calculate_similarity _ _ _ _ _ _ (mg_bank m')) as [[k' d''] r'].
    cbn [fst snd] in *. subst. now split.
  Qed.
  Lemma measured_keeps (m m' : manager T) : reachable m -> measured m m' ->
    reachable m' /\ mg_init m' = mg_init m /\ mg_settings m' = mg_settings m /\ mg_no_global m' = mg_no_global m.
  Proof.
    intros HR. induction 1 as [m|w m m1 ref deg m' deg' r H IH E|w m m1 rp dp m' r H IH E].
    - auto.
    - destruct (IH HR) as (R1 & I1 & I2 & I3). destruct (run_init _ _ _ _ _ _ _ E) as (J1 & J2 & J3).
      replace m' with (fst (fst (run w m1 ref deg))) at 1 by (rewrite E; reflexivity). split; [now constructor|]. repeat split; congruence.
    - destruct (IH HR) as (R1 & I1 & I2 & I3). destruct (run_files_init _ _ _ _ _ _ E) as (J1 & J2 & J3).
      replace m' with (fst (run_files w m1 rp dp)) at 1 by (rewrite E; reflexivity). split; [now constructor|]. repeat split; congruence.
  Qed.
  Lemma bank_alike (m m' : manager T) : reachable m -> reachable m' -> mg_settings m' = mg_settings m -> alike (mg_bank m) (mg_bank m').
  Proof.
    intros H1 H2 E. apply bank_invariant in H1. apply bank_invariant in H2. rewrite E in H2. unfold alike. destruct H1, H2. split; congruence.
  Qed.
  Lemma measured_same b (m m' : manager T) : history b m -> measured m m' -> forall w,
    (forall ref deg, snd (run w m' ref deg) = snd (run w m ref deg) /\ snd (fst (run w m' ref deg)) = snd (fst (run w m ref deg))) /\
    (forall rp dp, snd (run_files w m' rp dp) = snd (run_files w m rp dp)).
  Proof.
    intros H M w. apply history_reachable in H. destruct (measured_keeps m m' H M) as (H' & I1 & I2 & I3).
    pose proof (bank_alike m' m H' H (eq_sym I2)) as A.
    assert (R : forall ref deg, snd (run w m' ref deg) = snd (run w m ref deg) /\ snd (fst (run w m' ref deg)) = snd (fst (run w m ref deg)))
      by (intros; apply run_alike; auto).
    split; [exact R|]. intros rp dp. unfold run_files. rewrite I1. destruct (negb _); [reflexivity|].
    destruct (bind _ _) as [[ref deg]| | |]; try reflexivity. destruct (R ref deg) as [E _].
    destruct (run w m' ref deg) as [[? ?] ?], (run w m ref deg) as [[? ?] ?]. cbn [snd] in E |- *. now subst.
  Qed.
  Lemma api_measured_same b s (p p' : api T) : api_history b s p -> api_measured p p' -> forall w ref deg,
    snd (measure w p' ref deg) = snd (measure w p ref deg).
  Proof.
    intros H M w ref deg.
    assert (K : ap_sr p' = ap_sr p /\ measured (ap_manager p) (ap_manager p')).
    { clear H. induction M as [p|w' p p1 rf dg p' r M IH E]; [split; [reflexivity|constructor]|].
      destruct IH as [I1 I2]. unfold measure in E. destruct (ap_sr p1) as [sr|] eqn:S; [|injection E; intros _ <-; split; [congruence|exact I2]].
      destruct (run w' (ap_manager p1) _ _) as [[m d] x] eqn:R. injection E. intros _ <-. cbn. split; [congruence|].
      eapply me_run; [exact I2|exact R]. }
    destruct K as [K1 K2]. unfold measure. rewrite K1. destruct (ap_sr p) as [sr|]; [|reflexivity].
    apply api_history_inv in H. destruct H as (H & _ & _).
    destruct (measured_same b _ _ H K2 w) as [R _]. destruct (R (MkAudio ref sr) (MkAudio deg sr)) as [E _].
    destruct (run w (ap_manager p') _ _) as [[? ?] ?], (run w (ap_manager p) _ _) as [[? ?] ?]. exact E.
  Qed.

  (** two objects with the same latest configuration *)
  Lemma same_configuration b b' (m m' : manager T) w a w' : history b m -> history b' m' ->
    snd (init w m a) = None -> forall ref deg,
    snd (run w' (fst (init w m a)) ref deg) = snd (run w' (fst (init w m' a)) ref deg).
  Proof.
    intros H H' E ref deg. apply history_reachable in H. apply history_reachable in H'.
    assert (S : mg_init (fst (init w m a)) = mg_init (fst (init w m' a)) /\
                mg_settings (fst (init w m a)) = mg_settings (fst (init w m' a)) /\
                mg_no_global (fst (init w m a)) = mg_no_global (fst (init w m' a))).
    { unfold init in *. destruct (init_mapper w a) as [mp st]. cbn [snd] in E. subst st. cbn. auto. }
    destruct S as (S1 & S2 & S3). refine (proj1 (run_alike w' _ _ ref deg S1 S2 S3 _)).
    apply bank_alike; [now constructor|now constructor|auto].
  Qed.

  (** *** failed re-initialisation *)
  Definition null_mapper (m : mapper T) : Prop := match m with MSvr None | MLattice _ None => True | _ => False end.
  Lemma null_predict f32 (m : mapper T) a b c d : null_mapper m -> predict_quality f32 m a b c d = Ub.
  Proof. destruct m as [|o|n o]; [|destruct o|destruct o]; cbn; try tauto; reflexivity. Qed.
  Lemma failed_init_mapper w (m : manager T) a m' c : init w m a = (m', Some c) -> null_mapper (st_mapper (mg_settings m')) /\
    st_speech (mg_settings m') = ia_speech a /\ st_radius (mg_settings m') = ia_radius a /\
    st_no_realign (mg_settings m') = ia_no_realign a /\ mg_no_global m' = ia_no_global a.
  Proof.
    unfold init, init_mapper. destruct (ia_speech a); [destruct (ia_lattice a); [destruct (w_tfl w _)|]|destruct (w_svr w _)];
      intros H; try discriminate; injection H; intros _ <-; cbn; auto.
  Qed.
  Lemma null_mapper_run w (m : manager T) ref deg m' d' x : null_mapper (st_mapper (mg_settings m)) -> run w m ref deg <> (m', d', Ret x).
  Proof.
    intros HN H. apply AggCasesP.run_summary in H. destruct H as (r & fd & cfb & ps & lag & S & _). unfold summarise in S.
    repeat (apply bind_ret in S; destruct S as (? & ? & S)).
    match goal with H : predict_quality _ _ _ _ _ _ = Ret _ |- _ => rewrite null_predict in H by exact HN; discriminate end.
  Qed.
  Lemma failed_init_useless b w (m : manager T) a m' c m'' : history b m -> init w m a = (m', Some c) -> measured m' m'' ->
    forall w' ref deg x, snd (run w' m'' ref deg) <> Ret x.
  Proof.
    intros H E M w' ref deg x F. destruct (failed_init_mapper _ _ _ _ _ E) as [HN _].
    assert (H' : history b m') by (eapply h_init_fail; eauto). apply history_reachable in H'.
    destruct (measured_keeps m' m'' H' M) as (_ & _ & S & _). rewrite <- S in HN.
    destruct (run w' m'' ref deg) as [[m3 d3] r] eqn:R. cbn [snd] in F. subst r. exact (null_mapper_run _ _ _ _ _ _ _ HN R).
  Qed.

  (** the mapper is used last *)
  Lemma summarise_swap f32 (m m' : mapper T) fd cfb ps r : null_mapper m' -> summarise f32 m fd cfb ps = Ret r -> summarise f32 m' fd cfb ps = Ub.
  Proof.
    intros HN S. unfold summarise in *.
    apply bind_ret in S; destruct S as (a & -> & S). apply bind_ret in S; destruct S as (b & -> & S).
    apply bind_ret in S; destruct S as (c & -> & S). apply bind_ret in S; destruct S as (d & -> & S). cbn [bind].
    now rewrite null_predict by exact HN.
  Qed.
  Lemma compare_swap meas (pf : pffft T) st st' w ref deg k rs ds k' r : st_speech st' = st_speech st -> st_radius st' = st_radius st ->
    st_no_realign st' = st_no_realign st -> null_mapper (st_mapper st') ->
    compare_spectrograms meas pf st w ref deg k rs ds = (k', Ret r) -> compare_spectrograms meas pf st' w ref deg k rs ds = (k', Ub).
  Proof.
    intros E1 E2 E3 HN. unfold compare_spectrograms. rewrite E1, E2, E3. destruct (bind _ _) as [[fd sims]| | |]; try discriminate.
    destruct (if st_no_realign st then _ else _) as [k1 al]. intros H. injection H. intros S <-. f_equal.
    apply bind_ret in S. destruct S as (ps & -> & S). cbn [bind]. exact (summarise_swap _ _ _ _ _ _ _ HN S).
  Qed.
  Lemma run_swap w (m m' : manager T) ref deg m1 d1 x : mg_init m' = true -> mg_no_global m' = mg_no_global m ->
    st_speech (mg_settings m') = st_speech (mg_settings m) -> st_radius (mg_settings m') = st_radius (mg_settings m) ->
    st_no_realign (mg_settings m') = st_no_realign (mg_settings m) -> null_mapper (st_mapper (mg_settings m')) ->
    alike (mg_bank m) (mg_bank m') ->
    run w m ref deg = (m1, d1, Ret x) -> snd (run w m' ref deg) = Ub.
  Proof.
    intros I G E1 E2 E3 HN A. set (mm := MkManager true (mg_settings m') (mg_no_global m') (mg_bank m)).
    intros H. assert (Q : snd (run w mm ref deg) = snd (run w m' ref deg)) by (apply run_alike; auto). rewrite <- Q. clear Q A I.
    unfold run in *. cbn [mm mg_init mg_settings mg_no_global mg_bank negb]. rewrite G.
    destruct (negb (mg_init m)); [discriminate|]. destruct (validate _ _); [discriminate|].
    destruct (if mg_no_global m then _ else _) as [[d lag]| | |]; try discriminate.
    destruct (make_window _) as [win| | |]; try discriminate.
    unfold calculate_similarity in *. rewrite E1. set (dd := scale_to_match_spl ref d) in *. clearbody dd.
    destruct (build _ (mg_bank m) ref win) as [k1 [rs| | |]]; try (cbn [bind] in H; discriminate).
    destruct (build _ k1 dd win) as [k2 [ds| | |]]; try (cbn [bind] in H; discriminate).
    destruct (compare_spectrograms _ _ (mg_settings m) _ _ _ _ _ _) as [k3 r] eqn:C.
    assert (exists y, r = Ret y) as [y ->] by (destruct r; try (cbn [bind] in H; discriminate); eauto).
    rewrite (compare_swap _ _ _ (mg_settings m') _ _ _ _ _ _ _ _ E1 E2 E3 HN C). reflexivity.
  Qed.
  Lemma failed_load_breaks b w (m : manager T) a m' c ref deg m1 d1 x : history b m -> init w m a = (m', Some c) ->
    ia_speech a = st_speech (mg_settings m) -> ia_radius a = st_radius (mg_settings m) ->
    ia_no_realign a = st_no_realign (mg_settings m) -> ia_no_global a = mg_no_global m ->
    forall w', run w' m ref deg = (m1, d1, Ret x) -> snd (run w' m' ref deg) = Ub.
  Proof.
    intros H E E1 E2 E3 E4 w' R. destruct (failed_init_mapper _ _ _ _ _ E) as (HN & F1 & F2 & F3 & F4).
    assert (IM : mg_init m = true). { unfold run in R. destruct (mg_init m); [reflexivity|discriminate]. }
    apply run_swap with (m := m) (m1 := m1) (d1 := d1) (x := x); try congruence.
    - rewrite (init_init _ _ _ _ _ E). exact IM.
    - apply history_reachable in H. pose proof (bank_invariant _ H) as [B1 B2].
      assert (H' : reachable m') by (replace m' with (fst (init w m a)) by (rewrite E; reflexivity); now constructor).
      pose proof (bank_invariant _ H') as [B3 B4]. unfold alike. split; congruence.
  Qed.

  (** *** sample rates *)
  Lemma rates_differ w (m : manager T) ref deg : mg_init m = true -> au_sr ref <> au_sr deg -> run w m ref deg = (m, deg, Err InvalidArgument).
  Proof. intros I E. unfold run, validate. rewrite I. cbn [negb]. destruct (Z.eqb_spec (au_sr ref) (au_sr deg)); [contradiction|reflexivity]. Qed.

  (** *** the degraded argument *)
  Lemma run_degraded w (m : manager T) ref deg m' deg' r : run w m ref deg = (m', deg', r) ->
    (mg_init m = false -> deg' = deg) /\ (au_sr ref <> au_sr deg -> deg' = deg) /\
    (deg' = deg \/ exists aligned lag, (if mg_no_global m then Ret (deg, n0) else globally_align (w_fft w) ref deg) = Ret (aligned, lag) /\
        (deg' = aligned \/ deg' = scale_to_match_spl ref aligned) /\ (forall x, r = Ret x -> deg' = scale_to_match_spl ref aligned)).
  Proof.
    unfold run. destruct (mg_init m); cbn [negb]; [|intros H; injection H; intros _ <- _; auto]. intros H.
    split; [discriminate|]. unfold validate in *. destruct (Z.eqb_spec (au_sr ref) (au_sr deg)) as [E|E].
    2:{ injection H. intros _ <- _. auto. }
    split; [congruence|].
    destruct (if mg_no_global m then _ else _) as [[d lag]| | |]; try (injection H; intros _ <- _; now left).
    right. exists d, lag. split; [reflexivity|].
    destruct (make_window _) as [win| | |]; try (injection H; intros <- <- _; split; [now left|discriminate]).
    assert (A : alike (mg_bank m) (mg_bank m)) by (split; reflexivity).
    pose proof (similarity_alike measure_patch_similarity (w_fft w) (mg_settings m) win ref d _ _ A) as [_ S].
    destruct (calculate_similarity _ _ _ _ _ _ _) as [[k d'] x]. cbn [fst snd] in S. injection H. intros _ <- _. auto.
  Qed.
End Api.
