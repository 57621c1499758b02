(** Summary numbers (C12-C14): closed forms for any number type. *)
From Coq Require Import ZArith List Bool Lia ZifyBool ZifyNat.
From Verif Require Import Base.Res Base.Num Base.Lists Base.Mat Model.Amatrix Model.MiscMath Model.PatchCreator
  Model.Window Model.FilterBank Model.Spectrogram Model.Nsim Model.Fft Model.Alignment Model.Selector
  Model.MiscAudio Model.Mappers Model.Visqol Model.Manager Spec.AggSpec Spec.ManagerSpec
  Proofs.ConvP Proofs.MatchAllP Proofs.ShapeP.
Import ListNotations.
Open Scope nat_scope.

Section Agg.
  Context {T : Type} {N : Num T} {L : Libm T}.

  Definition band_of (b : nat) (m : mat T) : T := nth b (elems m) n0.

  Lemma acc_bands_ret acc (m : mat T) : column (length acc) m ->
    acc_bands acc m = Ret (map (fun b => nadd (nth b acc n0) (band_of b m)) (seq 0 (length acc))).
  Proof.
    intros C. pose proof (column_elems _ _ C) as E. destruct C as (_ & R & _). unfold acc_bands. rewrite R, E.
    rewrite !Nat.ltb_irrefl. f_equal. apply map_ext_in. intros b Hb. apply in_seq in Hb.
    replace (Nat.ltb b (length acc)) with true by lia. reflexivity.
  Qed.

  Lemma acc_patches_ret : forall ms acc, Forall (column (length acc)) ms ->
    acc_patches acc ms =
    Ret (map (fun b => fold_left nadd (map (band_of b) ms) (nth b acc n0)) (seq 0 (length acc))).
  Proof.
    induction ms as [|m t IH]; intros acc H; cbn [acc_patches].
    - f_equal. symmetry. apply (list_ext _ _ n0); [now rewrite map_length, seq_length|].
      intros i Hi. rewrite map_length, seq_length in Hi. rewrite nth_map_seq by exact Hi. reflexivity.
    - inversion H as [|? ? Hm Ht]; subst. rewrite acc_bands_ret by exact Hm. cbn [bind].
      assert (EL : length (map (fun b => nadd (nth b acc n0) (band_of b m)) (seq 0 (length acc))) = length acc)
        by now rewrite map_length, seq_length.
      rewrite IH by now rewrite EL. rewrite EL. f_equal. apply map_ext_in. intros b Hb. apply in_seq in Hb.
      rewrite nth_map_seq by lia. reflexivity.
  Qed.

  Lemma mean_of_patches_ret nb ms : ms <> [] -> Forall (column nb) ms ->
    mean_of_patches ms = Ret (map (fun b => average (map (band_of b) ms)) (seq 0 nb)).
  Proof.
    intros Hne H. unfold mean_of_patches. destruct ms as [|m0 t]; [congruence|].
    set (ms := m0 :: t) in *. assert (R : nrows m0 = nb) by (inversion H as [|? ? (_ & R & _)]; exact R).
    rewrite R. rewrite acc_patches_ret by (rewrite repeat_length; exact H). cbn [bind]. rewrite repeat_length.
    rewrite map_map. f_equal. apply map_ext_in. intros b Hb. apply in_seq in Hb.
    unfold average. rewrite map_length. rewrite nth_repeat. reflexivity.
  Qed.

  Lemma shaped_means nb (ps : list (psr T)) : Forall (shaped nb) ps -> Forall (column nb) (map ps_means ps).
  Proof. intros H. apply Forall_map. eapply Forall_impl; [|exact H]. intros p (A & _). exact A. Qed.
  Lemma shaped_energy nb (ps : list (psr T)) : Forall (shaped nb) ps -> Forall (column nb) (map ps_energy ps).
  Proof. intros H. apply Forall_map. eapply Forall_impl; [|exact H]. intros p (_ & _ & A). exact A. Qed.
  Lemma map_ne {A B} (f : A -> B) l : l <> [] -> map f l <> [].
  Proof. destruct l; [congruence|discriminate]. Qed.

  Lemma calc_means_ret nb ps : ps <> [] -> Forall (shaped nb) ps ->
    calc_means ps = Ret (map (fun b => average (map (fun p => band_of b (ps_means p)) ps)) (seq 0 nb)).
  Proof.
    intros H1 H2. unfold calc_means. rewrite (mean_of_patches_ret nb) by auto using map_ne, shaped_means.
    f_equal. apply map_ext. intros b. now rewrite map_map.
  Qed.
  Lemma calc_energy_ret nb ps : ps <> [] -> Forall (shaped nb) ps ->
    calc_energy ps = Ret (map (fun b => average (map (fun p => band_of b (ps_energy p)) ps)) (seq 0 nb)).
  Proof.
    intros H1 H2. unfold calc_energy. rewrite (mean_of_patches_ret nb) by auto using map_ne, shaped_energy.
    f_equal. apply map_ext. intros b. now rewrite map_map.
  Qed.

  Lemma m_lin_band nb (m : mat T) b : column nb m -> b < nb -> m_lin m b = Ret (band_of b m).
  Proof.
    intros C Hb. unfold m_lin, band_of. rewrite (nth_error_nth' _ n0) by (rewrite (column_elems _ _ C); exact Hb).
    reflexivity.
  Qed.

  Lemma band_values nb (ms : list (mat T)) b : Forall (column nb) ms -> b < nb ->
    sequence (map (fun m => m_lin m b) ms) = Ret (map (band_of b) ms).
  Proof.
    intros H Hb. apply sequence_map_ret. intros m Hm. rewrite Forall_forall in H. apply (m_lin_band nb); auto.
  Qed.

  Lemma sequence_length {A} (l : list (res A)) : forall r, sequence l = Ret r -> length r = length l.
  Proof.
    induction l as [|x t IH]; intros r H; cbn [sequence] in H; [injection H as <-; reflexivity|].
    apply bind_ret in H. destruct H as (a & _ & H). apply bind_ret in H. destruct H as (r' & E & H).
    injection H as <-. cbn. now rewrite (IH _ E).
  Qed.
  Lemma sequence_nth {A} (l : list (res A)) : forall r i d d', sequence l = Ret r -> i < length l -> nth i l d' = Ret (nth i r d).
  Proof.
    induction l as [|x t IH]; intros r i d d' H Hi; cbn [sequence] in H; [cbn in Hi; lia|].
    apply bind_ret in H. destruct H as (a & E & H). apply bind_ret in H. destruct H as (r' & E' & H).
    injection H as <-. destruct i as [|i]; [exact E|]. cbn in *. apply IH; [exact E'|lia].
  Qed.

  Lemma calc_quantile_len nb ps q l : ps <> [] -> Forall (shaped nb) ps -> calc_quantile ps q = Ret l -> length l = nb /\
    forall b, b < nb -> quantile_band (map ps_means ps) q b = Ret (nth b l n0).
  Proof.
    intros H1 H2. unfold calc_quantile. destruct ps as [|p0 t]; [congruence|]. set (ps := p0 :: t) in *.
    assert (R : nrows (ps_means p0) = nb) by (inversion H2 as [|? ? ((_ & R & _) & _)]; exact R). rewrite R. intros H.
    pose proof (sequence_length _ _ H) as EL. rewrite map_length, seq_length in EL. split; [exact EL|].
    intros b Hb. rewrite <- (sequence_nth _ l b n0 (quantile_band (map ps_means ps) q 0) H) by now rewrite map_length, seq_length.
    rewrite map_nth, seq_nth by exact Hb. reflexivity.
  Qed.

  Lemma contribute_len fc (p : psr T) acc l : contribute fc p acc = Ret l -> length l = length acc.
  Proof.
    unfold contribute. destruct (Nat.ltb _ _); [discriminate|]. destruct (_ || _); [discriminate|].
    intros H. injection H as <-. now rewrite map_length, seq_length.
  Qed.
  Lemma contribute_all_len fd : forall ps tot acc x, contribute_all fd ps tot acc = Ret x -> length (snd x) = length acc.
  Proof.
    induction ps as [|p t IH]; intros tot acc x H; cbn [contribute_all] in H; [injection H as <-; reflexivity|].
    apply bind_ret in H. destruct H as (fc & _ & H). destruct (_ && _); [|discriminate].
    apply bind_ret in H. destruct H as (acc' & E & H). apply contribute_len in E. apply IH in H. lia.
  Qed.
  Lemma calc_stddevs_len nb ps fd l : Forall (shaped nb) ps -> calc_stddevs ps fd = Ret l -> length l = nb.
  Proof.
    intros H2. unfold calc_stddevs. destruct ps as [|p0 t]; [discriminate|]. set (ps := p0 :: t) in *.
    assert (R : nrows (ps_means p0) = nb) by (inversion H2 as [|? ? ((_ & R & _) & _)]; exact R). rewrite R. intros H.
    apply bind_ret in H. destruct H as (mm & _ & H). apply bind_ret in H. destruct H as ([tot c] & E & H).
    apply contribute_all_len in E. cbn [snd] in E. rewrite repeat_length in E.
    destruct (fits_int _); [|discriminate]. injection H as <-. rewrite map_length, seq_length. exact E.
  Qed.

  (** the summary in terms of the patch results *)
  Lemma summarise_inv nb f32 mp fd cfb ps r : ps <> [] -> Forall (shaped nb) ps ->
    summarise f32 mp fd cfb ps = Ret r ->
    sr_patches r = ps /\ sr_cfb r = cfb /\
    sr_fvnsim r = map (fun b => average (map (fun p => band_of b (ps_means p)) ps)) (seq 0 nb) /\
    sr_fvdegenergy r = map (fun b => average (map (fun p => band_of b (ps_energy p)) ps)) (seq 0 nb) /\
    calc_quantile ps (ndec 10 2) = Ret (sr_fvnsim10 r) /\ length (sr_fvnsim10 r) = nb /\
    calc_stddevs ps fd = Ret (sr_fstdnsim r) /\ length (sr_fstdnsim r) = nb /\
    sr_vnsim r = average (sr_fvnsim r) /\
    exists mos, predict_quality f32 mp (sr_fvnsim r) (sr_fvnsim10 r) (sr_fstdnsim r) (sr_fvdegenergy r) = Ret mos /\
      sr_moslqo r = alter_for_extremes (sr_vnsim r) mos.
  Proof.
    intros H1 H2 H. unfold summarise in H. rewrite (calc_means_ret nb) in H by assumption. cbn [bind] in H.
    apply bind_ret in H. destruct H as (q & EQ & H). apply bind_ret in H. destruct H as (sd & ES & H).
    rewrite (calc_energy_ret nb) in H by assumption. cbn [bind] in H.
    apply bind_ret in H. destruct H as (mos & EM & H). injection H as <-.
    cbn [sr_patches sr_cfb sr_fvnsim sr_fvdegenergy sr_fvnsim10 sr_fstdnsim sr_vnsim sr_moslqo].
    split; [reflexivity|]. split; [reflexivity|]. split; [reflexivity|]. split; [reflexivity|]. split; [exact EQ|].
    split; [eapply calc_quantile_len; eassumption|]. split; [exact ES|]. split; [eapply calc_stddevs_len; eassumption|].
    split; [reflexivity|]. exists mos. split; [exact EM|reflexivity].
  Qed.

  (** *** managers *)
  Lemma bank_invariant (m : manager T) : reachable m ->
    bk_bands (mg_bank m) = num_bands (st_speech (mg_settings m)) /\ bk_min (mg_bank m) = kMinimumFreq.
  Proof.
    assert (RUN : forall w (m : manager T) ref deg,
      bk_bands (mg_bank m) = num_bands (st_speech (mg_settings m)) /\ bk_min (mg_bank m) = kMinimumFreq ->
      bk_bands (mg_bank (fst (fst (run w m ref deg)))) = num_bands (st_speech (mg_settings (fst (fst (run w m ref deg))))) /\
      bk_min (mg_bank (fst (fst (run w m ref deg)))) = kMinimumFreq).
    { intros w m0 ref deg IH. unfold run. destruct (negb (mg_init m0)); [exact IH|].
      destruct (validate ref deg); [exact IH|].
      destruct (if mg_no_global m0 then _ else _) as [[d lag]| | |]; try exact IH.
      destruct (make_window (au_sr ref)) as [win| | |]; try exact IH.
      destruct (calculate_similarity _ (w_fft w) (mg_settings m0) win ref d (mg_bank m0)) as [[k d'] r] eqn:E.
      apply similarity_bank in E. cbn [fst mg_bank mg_settings]. destruct E as [-> ->]. exact IH. }
    induction 1 as [|w m a _ IH|w m ref deg _ IH|w m rp dp _ IH].
    - split; reflexivity.
    - unfold init. destruct (init_mapper w a) as [mp st]. cbn [fst mg_bank mg_settings st_speech].
      split; reflexivity.
    - apply RUN. exact IH.
    - unfold run_files. destruct (negb (mg_init m)); [exact IH|].
      match goal with |- context [match ?e with Ret _ => _ | Err _ => _ | Throw => _ | Ub => _ end] => destruct e as [[ref deg]| | |] end;
        try exact IH.
      pose proof (RUN w m ref deg IH) as R. destruct (run w m ref deg) as [[m' d] r]. exact R.
  Qed.

  Lemma num_bands_pos speech : 0 < num_bands speech.
  Proof. destruct speech; cbn; lia. Qed.

  Lemma populate_inv nb (x : sim_result T) lag msg : Forall (shaped nb) (sr_patches x) -> populate x lag = Ret msg ->
    ms_moslqo msg = sr_moslqo x /\ ms_vnsim msg = sr_vnsim x /\ ms_fvnsim msg = sr_fvnsim x /\
    ms_fvnsim10 msg = sr_fvnsim10 x /\ ms_fstdnsim msg = sr_fstdnsim x /\ ms_fvdegenergy msg = sr_fvdegenergy x /\
    ms_cfb msg = sr_cfb x /\ ms_lag msg = lag /\ ms_ref_path msg = String.EmptyString /\ ms_deg_path msg = String.EmptyString /\
    ms_patches msg = map (fun p => MkPatchMsg (ps_sim p) (ps_ref_start p) (ps_ref_end p) (ps_deg_start p) (ps_deg_end p)
                                             (elems (ps_means p))) (sr_patches x).
  Proof.
    intros F. unfold populate.
    rewrite (sequence_map_ret populate_patch (fun p => MkPatchMsg (ps_sim p) (ps_ref_start p) (ps_ref_end p) (ps_deg_start p)
       (ps_deg_end p) (elems (ps_means p)))).
    - cbn [bind]. intros H. injection H as <-. repeat split; reflexivity.
    - intros p Hp. rewrite Forall_forall in F. destruct (F p Hp) as ((W & R & C) & _). unfold populate_patch, m_to_vector.
      rewrite C. cbn [Nat.ltb Nat.leb bind]. f_equal. f_equal. unfold col_list.
      apply (list_ext _ _ n0); [rewrite map_length, seq_length; unfold wf in W; rewrite W, C; lia|].
      intros i Hi. rewrite map_length, seq_length in Hi. rewrite nth_map_seq by exact Hi. unfold at_, mget. f_equal.
  Qed.
  (** a successful run: what was computed *)
  Lemma run_inv w (m : manager T) ref deg m' deg' msg : reachable m ->
    (Z.of_nat (length (au_data ref)) + 1 < 2 ^ 31)%Z -> (Z.of_nat (length (au_data deg')) + 1 < 2 ^ 31)%Z ->
    run w m ref deg = (m', deg', Ret msg) ->
    mg_init m = true /\ au_sr ref = au_sr deg /\
    exists win aligned lag r fd cfb ps,
      (if mg_no_global m then Ret (deg, n0) else globally_align (w_fft w) ref deg) = Ret (aligned, lag) /\
      make_window (au_sr ref) = Ret win /\ calc_frame_duration win (au_sr ref) = Ret fd /\
      deg' = scale_to_match_spl ref aligned /\
      (exists k', calculate_similarity measure_patch_similarity (w_fft w) (mg_settings m) win ref aligned (mg_bank m) = (k', deg', Ret r)) /\
      summarise (pf_f32 (w_fft w)) (st_mapper (mg_settings m)) fd cfb ps = Ret r /\
      populate r lag = Ret msg /\
      length cfb = num_bands (st_speech (mg_settings m)) /\
      ps <> [] /\ Forall (shaped (num_bands (st_speech (mg_settings m)))) ps.
  Proof.
    intros HR H1 H2 H. apply bank_invariant in HR. destruct HR as [KB _]. unfold run in H.
    destruct (negb (mg_init m)) eqn:EI; [discriminate|]. destruct (mg_init m); [|discriminate].
    split; [reflexivity|]. unfold validate in H. destruct (au_sr ref =? au_sr deg)%Z eqn:ES; [|discriminate].
    split; [lia|].
    destruct (if mg_no_global m then _ else _) as [[aligned lag]| | |] eqn:EG; try discriminate.
    destruct (make_window (au_sr ref)) as [win| | |] eqn:EW; try discriminate.
    destruct (calculate_similarity _ (w_fft w) (mg_settings m) win ref aligned (mg_bank m)) as [[k d'] r] eqn:EC.
    assert (d' = deg') by (injection H; congruence). subst d'.
    injection H as _ H. apply bind_ret in H. destruct H as (x & -> & H).
    assert (LA : length (au_data deg') = length (au_data aligned) /\ 0 < bk_bands (mg_bank m)).
    { split; [|rewrite KB; apply num_bands_pos].
      unfold calculate_similarity in EC. assert (deg' = scale_to_match_spl ref aligned) as ->.
      { destruct (build (st_speech (mg_settings m)) (mg_bank m) ref win) as [k1 [?| | |]]; try (injection EC; congruence).
        destruct (build (st_speech (mg_settings m)) k1 _ win) as [k2 [?| | |]]; try (injection EC; congruence).
        destruct (compare_spectrograms _ _ _ _ _ _ _ _ _); injection EC; congruence. }
      unfold scale_to_match_spl. cbn [au_data]. now rewrite map_length. }
    destruct LA as [LA KP].
    destruct (similarity_inv (w_fft w) (mg_settings m) win ref aligned (mg_bank m) k deg' x KP H1 ltac:(lia) EC)
      as (ED & fd & cfb & ps & S1 & S2 & S3 & S4 & S5).
    rewrite KB in S2, S4.
    exists win, aligned, lag, x, fd, cfb, ps.
    split; [reflexivity|]. split; [reflexivity|]. split; [exact S5|]. split; [exact ED|]. split; [now exists k|].
    split; [exact S1|]. split; [exact H|]. split; [exact S2|]. split; [exact S3|exact S4].
  Qed.
End Agg.
