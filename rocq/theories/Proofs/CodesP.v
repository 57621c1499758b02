(** The status codes a comparison can end with (C02, C04). *)
From Coq Require Import ZArith List Bool String.
From Verif Require Import Base.Res Base.Num Base.Lists Base.Mat Model.Amatrix Model.MiscMath Model.RmsVad Model.PatchCreator
  Model.Window Model.SignalFilter Model.Erb Model.FilterBank Model.Spectrogram Model.Nsim Model.Fft Model.Alignment
  Model.Selector Model.MiscAudio Model.Mappers Model.Wav Model.Visqol Model.Manager.
Import ListNotations.
Open Scope nat_scope.

Definition coded (P : code -> Prop) {A} (r : res A) : Prop := forall c, r = Err c -> P c.
Lemma coded_ret (P : code -> Prop) {A} (a : A) : coded P (Ret a). Proof. intros c H. discriminate. Qed.
Lemma coded_ub (P : code -> Prop) {A} : coded P (Ub : res A). Proof. intros c H. discriminate. Qed.
Lemma coded_throw (P : code -> Prop) {A} : coded P (Throw : res A). Proof. intros c H. discriminate. Qed.
Lemma coded_inv (P : code -> Prop) {A} : P InvalidArgument -> coded P (Err InvalidArgument : res A). Proof. intros HP c H. injection H as <-. exact HP. Qed.
Lemma coded_can (P : code -> Prop) {A} : P Cancelled -> coded P (Err Cancelled : res A). Proof. intros HP c H. injection H as <-. exact HP. Qed.
Lemma coded_bind (P : code -> Prop) {A B} (x : res A) (f : A -> res B) : coded P x -> (forall a, coded P (f a)) -> coded P (bind x f).
Proof. intros H1 H2. destruct x; cbn [bind]; [apply H2| | |]; intros c' H; try discriminate. apply H1. congruence. Qed.
Lemma coded_err (P : code -> Prop) {A B} (x : res A) c : coded P x -> x = Err c -> coded P (Err c : res B).
Proof. intros H E c' Q. apply H. congruence. Qed.
Lemma coded_sequence (P : code -> Prop) {A} (l : list (res A)) : (forall x, In x l -> coded P x) -> coded P (sequence l).
Proof.
  induction l as [|x l IH]; intros H; cbn [sequence]; [apply coded_ret|]. apply coded_bind; [apply H; now left|]. intros a.
  apply coded_bind; [apply IH; intros; apply H; now right|]. intros; apply coded_ret.
Qed.
#[global] Hint Resolve coded_ret coded_ub coded_throw coded_inv coded_can : coded.
Ltac cd := repeat (intros; cbv beta zeta;
  first
  [ solve [auto with coded]
  | apply coded_bind
  | match goal with
    | |- coded _ (if ?b then _ else _) => destruct b
    | |- coded ?P (match ?x with Ret _ => _ | Err _ => _ | Throw => _ | Ub => _ end) =>
        let E := fresh in assert (E : coded P x); [|destruct x eqn:?; try (eapply coded_err; [exact E|reflexivity])]
    | |- coded _ (match ?x with _ => _ end) => destruct x
    end ]).

Section Codes.
  Context {T : Type} {N : Num T} {L : Libm T}.
  Variable P : code -> Prop.
  Hypothesis PC : P Cancelled.
  Hypothesis PI : P InvalidArgument.

  Lemma coded_zip f (A B : mat T) : coded P (m_zip f A B). Proof. unfold m_zip. cd. Qed.
  Lemma coded_lin (M : mat T) i : coded P (m_lin M i). Proof. unfold m_lin. cd. Qed.
  Lemma coded_lin_mut (M : mat T) i : coded P (m_lin_mut M i). Proof. unfold m_lin_mut. cd. Qed.
  Lemma coded_row (M : mat T) r : coded P (m_row M r). Proof. unfold m_row. cd. Qed.
  Lemma coded_col (M : mat T) r : coded P (m_col M r). Proof. unfold m_col. cd. Qed.
  Lemma coded_set_row (M : mat T) r v : coded P (m_set_row M r v). Proof. unfold m_set_row. cd. Qed.
  Lemma coded_set_col (M : mat T) r v : coded P (m_set_col M r v). Proof. unfold m_set_col. cd. Qed.
  Lemma coded_cols (M : mat T) a b : coded P (m_cols M a b). Proof. unfold m_cols. cd. Qed.
  Lemma coded_row_subset (M : mat T) r a b : coded P (m_row_subset M r a b). Proof. unfold m_row_subset. cd. Qed.
  Lemma coded_vrows (l : list T) a b : coded P (v_rows l a b). Proof. unfold v_rows, m_rows. cd. Qed.
  Lemma coded_to_vector (M : mat T) : coded P (m_to_vector M). Proof. unfold m_to_vector. cd. Qed.
  Lemma coded_to_int (x : T) : coded P (to_int x). Proof. unfold to_int. cd. Qed.
  Lemma coded_to_size (x : T) : coded P (to_size x). Proof. unfold to_size. cd. Qed.
  Lemma coded_max (l : list T) : coded P (max_elem l). Proof. unfold max_elem. cd. Qed.
  Lemma coded_min (l : list T) : coded P (min_elem l). Proof. unfold min_elem. cd. Qed.
  #[local] Hint Resolve coded_zip coded_lin coded_lin_mut coded_row coded_col coded_set_row coded_set_col coded_cols coded_row_subset coded_vrows
    coded_to_vector coded_to_int coded_to_size coded_max coded_min : coded.

  (** *** similarity *)
  Lemma coded_add_boundary (M : mat T) : coded P (add_boundary M).
  Proof. unfold add_boundary. cd. Qed.
  Lemma coded_fold {A B} (f : res A -> B -> res A) l : (forall x b, coded P x -> coded P (f x b)) -> forall x, coded P x -> coded P (fold_left f l x).
  Proof. intros H. induction l as [|b l IH]; intros x Hx; cbn [fold_left]; auto. Qed.
  Lemma coded_conv_at (F M : mat T) r c : coded P (conv_at F M r c).
  Proof. unfold conv_at. apply coded_fold; [|auto with coded]. intros x [a b] Hx. apply coded_bind; [exact Hx|]. cd. Qed.
  Lemma coded_conv2d (F M : mat T) : coded P (conv2d F M).
  Proof.
    unfold conv2d. apply coded_bind; [apply coded_add_boundary|]. intros Q. apply coded_bind; [|intros; auto with coded].
    apply coded_sequence. intros x Hx. apply in_flat_map in Hx. destruct Hx as (c & _ & Hx). apply in_map_iff in Hx.
    destruct Hx as (r & <- & _). apply coded_conv_at.
  Qed.
  #[local] Hint Resolve coded_conv2d : coded.
  Lemma coded_nsim_map (A B : mat T) : coded P (nsim_map A B).
  Proof. unfold nsim_map, m_pmul, m_sub, m_add, m_pdiv. cd. Qed.
  #[local] Hint Resolve coded_nsim_map : coded.
  Lemma coded_measure (A B : mat T) : coded P (measure_patch_similarity A B).
  Proof. unfold measure_patch_similarity. cd. Qed.
  #[local] Hint Resolve coded_measure : coded.

  (** *** spectrograms *)
  Lemma coded_signal_filter b a sig (ic : list T) : coded P (signal_filter b a sig ic).
  Proof. unfold signal_filter. cd. Qed.
  #[local] Hint Resolve coded_signal_filter : coded.
  Lemma coded_band_filter c cond (sig : list T) : coded P (band_filter c cond sig).
  Proof. unfold band_filter. cd. Qed.
  #[local] Hint Resolve coded_band_filter : coded.
  Lemma coded_bands_filter n : forall cs conds (sig : list T), coded P (bands_filter cs conds n sig).
  Proof. induction n as [|n IH]; intros cs conds sig; destruct cs, conds; cbn [bands_filter]; cd. Qed.
  #[local] Hint Resolve coded_bands_filter : coded.
  Lemma coded_apply_hann w (sig : list T) : coded P (apply_hann w sig).
  Proof. unfold apply_hann. cd. Qed.
  #[local] Hint Resolve coded_apply_hann : coded.
  Lemma coded_build_frames w hop (sig : list T) is : forall k, coded P (build_frames w hop sig is k).
  Proof. induction is as [|i t IH]; intros k; cbn [build_frames]; unfold apply_filter; cd. Qed.
  Lemma coded_build speech (k : bank T) s w : coded P (snd (build speech k s w)).
  Proof.
    unfold build. destruct (prepared_bank _ _ _) as [k1 cfb]. destruct (hop_size w); [|cbn [snd]; cd].
    destruct (Nat.leb _ _); [cbn [snd]; cd|]. destruct (Z.leb _ _); [cbn [snd]; cd|].
    pose proof (coded_build_frames w (Z.to_nat z) (au_data s) (seq 0 (1 + (List.length (au_data s) - w_size w) / Z.to_nat z)) k1) as H.
    destruct (build_frames _ _ _ _ _) as [[cols k2]| | |]; cbn [snd]; try (auto with coded; fail). eapply coded_err; [exact H|reflexivity].
  Qed.
  Lemma coded_raise thr is : forall AB : mat T * mat T, coded P (raise_frames thr AB is).
  Proof. induction is as [|i t IH]; intros AB; cbn [raise_frames]; unfold raise_frame; cd. Qed.
  #[local] Hint Resolve coded_raise : coded.
  Lemma coded_prepare (A B : mat T) : coded P (prepare_spectrograms A B).
  Proof. unfold prepare_spectrograms, raise_floor_per_frame, spec_min. cd. Qed.
  #[local] Hint Resolve coded_prepare : coded.

  (** *** patches *)
  Lemma coded_create_patches p (M : mat T) idx : coded P (create_patches p M idx).
  Proof. induction idx as [|i t IH]; cbn [create_patches]; cd. Qed.
  Lemma coded_create_indices p l : coded P (create_ref_patch_indices p l).
  Proof. unfold create_ref_patch_indices. cd. Qed.
  Lemma coded_normalize (l : list T) : coded P (normalize l).
  Proof. unfold normalize. cd. Qed.
  Lemma coded_int16 (x : T) : coded P (to_int16 x).
  Proof. unfold to_int16. cd. Qed.
  #[local] Hint Resolve coded_create_patches coded_create_indices coded_normalize coded_int16 : coded.
  Lemma coded_feed n (l : list T) : forall fr st, coded P (vad_feed n l fr st).
  Proof. induction l as [|x t IH]; intros fr st; cbn [vad_feed]; cd. Qed.
  #[local] Hint Resolve coded_feed : coded.
  Lemma coded_select p vad is : forall i, coded P (select_blocks p vad i is).
  Proof. induction is as [|i t IH]; intros j; cbn [select_blocks]; unfold block_active; cd. Qed.
  #[local] Hint Resolve coded_select : coded.
  Lemma coded_vad_indices p l (sig : list T) w : coded P (vad_create_ref_patch_indices p l sig w).
  Proof. unfold vad_create_ref_patch_indices, reserve, get_voice_activity. cd. Qed.
  #[local] Hint Resolve coded_vad_indices : coded.

  (** *** matching *)
  Lemma coded_degraded_rows (M : mat T) wb we rs : forall Q, coded P (degraded_rows M Q wb we rs).
  Proof. induction rs as [|r t IH]; intros Q; cbn [degraded_rows]; unfold degraded_row; cd. Qed.
  Lemma coded_degraded_at (M ref : mat T) o : coded P (degraded_at M ref o).
  Proof. apply coded_degraded_rows. Qed.
  #[local] Hint Resolve coded_degraded_at : coded.
  Lemma coded_max_num l nf p : coded P (max_num_patches_loop (T:=T) l nf p).
  Proof. induction l as [|i t IH]; cbn [max_num_patches_loop]; cd. Qed.
  Lemma coded_calc_max idx nf p : coded P (calc_max_num_patches (T:=T) idx nf p).
  Proof. unfold calc_max_num_patches. destruct idx; [cd|apply coded_max_num]. Qed.
  Lemma coded_dp_row (ref : mat T) degs prev slides : forall row bt, coded P (dp_row measure_patch_similarity ref degs prev slides row bt).
  Proof. induction slides as [|i t IH]; intros row bt; cbn [dp_row]; cd. Qed.
  Lemma coded_row_slides a b c : coded P (row_slides a b c).
  Proof. unfold row_slides. cd. Qed.
  #[local] Hint Resolve coded_calc_max coded_dp_row coded_row_slides : coded.
  Lemma coded_dp_rows (degs : list (mat T)) nc sw items : forall prev, coded P (dp_rows measure_patch_similarity degs nc sw prev items).
  Proof. induction items as [|[r i] t IH]; intros prev; cbn [dp_rows]; cd. Qed.
  Lemma coded_final_scan (row : list T) a b : coded P (final_scan row a b).
  Proof. unfold final_scan. cd. Qed.
  Lemma coded_backtrack (M : mat T) fd pd items : forall last acc, coded P (backtrack measure_patch_similarity M fd pd items last acc).
  Proof. induction items as [|[[r i] bt] t IH]; intros last acc; cbn [backtrack]; cd. Qed.
  #[local] Hint Resolve coded_dp_rows coded_final_scan coded_backtrack : coded.
  Lemma coded_find refs idx (M : mat T) fd radius : coded P (find_most_optimal_deg_patches measure_patch_similarity refs idx M fd radius).
  Proof.
    unfold find_most_optimal_deg_patches. destruct refs as [|r0 t]; [cd|]. cbv zeta. apply coded_bind; [auto with coded|]. intros n.
    destruct (Nat.eqb n 0); [cd|]. apply coded_bind.
    - apply coded_sequence. intros x Hx. apply in_map_iff in Hx. destruct Hx as (o & <- & _). auto with coded.
    - cd.
  Qed.
  #[local] Hint Resolve coded_find : coded.

  (** *** alignment *)
  Lemma coded_forward (pf : pffft T) fm sig : coded P (forward1d pf fm sig).
  Proof. unfold forward1d, unpack_spectrum. cd. Qed.
  Lemma coded_inverse (pf : pffft T) fm sp : coded P (inverse1d pf fm sp).
  Proof. unfold inverse1d, pack_spectrum. cd. Qed.
  #[local] Hint Resolve coded_forward coded_inverse : coded.
  Lemma coded_env (pf : pffft T) sig : coded P (calc_upper_env pf sig).
  Proof. unfold calc_upper_env, hilbert. cd. Qed.
  Lemma coded_lag (pf : pffft T) a b : coded P (find_lowest_lag_index pf a b).
  Proof. unfold find_lowest_lag_index, inverse_fft_pointwise_product, fft_pointwise_product, inverse1d_conj_sym, forward1d_points. cd. Qed.
  #[local] Hint Resolve coded_env coded_lag : coded.
  Lemma coded_align (pf : pffft T) ref deg : coded P (globally_align pf ref deg).
  Proof. unfold globally_align, apply_lag. cd. Qed.
  #[local] Hint Resolve coded_align : coded.
  Lemma coded_align_truncate (pf : pffft T) ref deg : coded P (align_and_truncate pf ref deg).
  Proof. unfold align_and_truncate, truncate_aligned. cd. Qed.
  Lemma coded_slice (s : audio T) a b : coded P (slice s a b).
  Proof. unfold slice. cd. Qed.
  #[local] Hint Resolve coded_align_truncate coded_slice : coded.
  Lemma coded_fine_one (pf : pffft T) speech w ref deg k r : coded P (snd (finely_align_one measure_patch_similarity pf speech w ref deg k r)).
  Proof.
    unfold finely_align_one. destruct (is_lost r); [cbn [snd]; cd|].
    match goal with |- context [match ?x with Ret _ => _ | Err _ => _ | Throw => _ | Ub => _ end] => assert (E : coded P x) by cd; destruct x as [[[ra da] lag]| | |] end;
      cbn [snd]; try (auto with coded; fail); [|eapply coded_err; [exact E|reflexivity]].
    pose proof (coded_build speech k ra w) as B1. destruct (build speech k ra w) as [k1 rs]. cbn [snd] in B1.
    destruct rs as [rs| | |]; cbn [snd]; try (auto with coded; fail); [|eapply coded_err; [exact B1|reflexivity]].
    pose proof (coded_build speech k1 da w) as B2. destruct (build speech k1 da w) as [k2 ds]. cbn [snd] in B2 |- *. cd.
  Qed.
  Lemma coded_fine (pf : pffft T) speech w ref deg rs : forall k, coded P (snd (finely_align measure_patch_similarity pf speech w ref deg k rs)).
  Proof.
    induction rs as [|r t IH]; intros k; cbn [finely_align]; [cbn [snd]; cd|].
    pose proof (coded_fine_one pf speech w ref deg k r) as E. destruct (finely_align_one _ _ _ _ _ _ _ _) as [k1 x]. cbn [snd] in E.
    destruct x; cbn [snd]; try (auto with coded; fail); [|eapply coded_err; [exact E|reflexivity]].
    specialize (IH k1). destruct (finely_align _ _ _ _ _ _ _ _) as [k2 y]. cbn [snd] in IH |- *. cd.
  Qed.

  (** *** the result *)
  Lemma coded_acc ms : forall acc : list T, coded P (acc_patches acc ms).
  Proof. induction ms as [|m t IH]; intros acc; cbn [acc_patches]; unfold acc_bands; cd. Qed.
  #[local] Hint Resolve coded_acc : coded.
  Lemma coded_mean_of (ms : list (mat T)) : coded P (mean_of_patches ms).
  Proof. unfold mean_of_patches. cd. Qed.
  #[local] Hint Resolve coded_mean_of : coded.
  Lemma coded_quantile (ps : list (psr T)) q : coded P (calc_quantile ps q).
  Proof.
    unfold calc_quantile. destruct ps; [cd|]. apply coded_sequence. intros x Hx. apply in_map_iff in Hx. destruct Hx as (b & <- & _).
    unfold quantile_band. apply coded_bind.
    - apply coded_sequence. intros x Hx. apply in_map_iff in Hx. destruct Hx as (m & <- & _). auto with coded.
    - unfold std_sort. cd.
  Qed.
  Lemma coded_contribute fd (ps : list (psr T)) : forall total acc, coded P (contribute_all fd ps total acc).
  Proof. induction ps as [|p t IH]; intros total acc; cbn [contribute_all]; unfold frame_count, contribute; cd. Qed.
  #[local] Hint Resolve coded_quantile coded_contribute : coded.
  Lemma coded_stddevs (ps : list (psr T)) fd : coded P (calc_stddevs ps fd).
  Proof. unfold calc_stddevs, calc_means. cd. Qed.
  Lemma coded_store_all (m : lattice T) f32 l : forall env, coded P (store_all m env f32 l).
  Proof. induction l as [|[n [v|]] t IH]; intros env; cbn [store_all]; unfold store; cd. Qed.
  #[local] Hint Resolve coded_stddevs coded_store_all : coded.
  Lemma coded_predict f32 (m : mapper T) a b c d : coded P (predict_quality f32 m a b c d).
  Proof. unfold predict_quality, lattice_predict, store. cd. Qed.
  #[local] Hint Resolve coded_predict : coded.
  Lemma coded_summarise f32 (m : mapper T) fd cfb ps : coded P (summarise f32 m fd cfb ps).
  Proof. unfold summarise, calc_means, calc_energy. cd. Qed.
  #[local] Hint Resolve coded_summarise : coded.
  Lemma coded_compare (pf : pffft T) st w ref deg k rs ds : coded P (snd (compare_spectrograms measure_patch_similarity pf st w ref deg k rs ds)).
  Proof.
    unfold compare_spectrograms.
    match goal with |- context [match ?x with Ret _ => _ | Err _ => _ | Throw => _ | Ub => _ end] => assert (E : coded P x); [|destruct x as [[fd sims]| | |]] end;
      cbn [snd]; try (auto with coded; fail); [|destruct (st_no_realign st)|eapply coded_err; [exact E|reflexivity]].
    - unfold ref_patch_indices, calc_frame_duration. cd.
    - cbn [snd]. cd.
    - pose proof (coded_fine pf (st_speech st) w ref deg sims k) as H. destruct (finely_align _ _ _ _ _ _ _ _) as [k' al]. cbn [snd] in H |- *. cd.
  Qed.
  Lemma coded_similarity (pf : pffft T) st w ref deg k : coded P (snd (calculate_similarity measure_patch_similarity pf st w ref deg k)).
  Proof.
    unfold calculate_similarity. set (d := scale_to_match_spl ref deg). clearbody d.
    pose proof (coded_build (st_speech st) k ref w) as B1. destruct (build _ k ref w) as [k1 rs]. cbn [snd] in B1.
    destruct rs as [rs| | |]; cbn [snd]; try (auto with coded; fail); [|eapply coded_err; [exact B1|reflexivity]].
    pose proof (coded_build (st_speech st) k1 d w) as B2. destruct (build _ k1 d w) as [k2 ds]. cbn [snd] in B2.
    destruct ds as [ds| | |]; cbn [snd]; try (auto with coded; fail); [|eapply coded_err; [exact B2|reflexivity]].
    pose proof (coded_compare pf st w ref d k2 rs ds) as H. destruct (compare_spectrograms _ _ _ _ _ _ _ _ _) as [k3 r]. exact H.
  Qed.
  Lemma coded_populate (r : sim_result T) lag : coded P (populate r lag).
  Proof.
    unfold populate. apply coded_bind; [|cd]. apply coded_sequence. intros x Hx. apply in_map_iff in Hx. destruct Hx as (p & <- & _).
    unfold populate_patch. cd.
  Qed.
  #[local] Hint Resolve coded_populate : coded.
  Lemma coded_window sr : coded P (make_window (T:=T) sr).
  Proof. unfold make_window. cd. Qed.
  #[local] Hint Resolve coded_window : coded.

  Lemma coded_load b : coded P (load_file (T:=T) b).
  Proof. unfold load_file, load_as_mono, extract_multi_channel, m_of_cols. destruct b; [|cd]. cd. Qed.
End Codes.

Definition run_code (c : code) : Prop := c = InvalidArgument \/ c = Cancelled.
Lemma rc_can : run_code Cancelled. Proof. now right. Qed.
Lemma rc_inv : run_code InvalidArgument. Proof. now left. Qed.
#[global] Hint Resolve rc_can rc_inv coded_align coded_window coded_populate coded_load : coded.
Section RunCodes.
  Context {T : Type} {N : Num T} {L : Libm T}.
  (** Run with its initialisation check passed *)
  Lemma run_codes w (m : manager T) ref deg m' deg' c : run w m ref deg = (m', deg', Err c) ->
    if mg_init m then c = InvalidArgument \/ c = Cancelled else c = Aborted /\ m' = m /\ deg' = deg.
  Proof.
    unfold run. destruct (mg_init m) eqn:I; cbn [negb].
    2:{ intros H. injection H. intros <- <- <-. auto. }
    unfold validate. destruct (Z.eqb _ _).
    2:{ intros H. injection H. intros <- _ _. now left. }
    assert (E : coded run_code (if mg_no_global m then Ret (deg, n0) else globally_align (w_fft w) ref deg)) by cd.
    destruct (if mg_no_global m then _ else _) as [[d lag]|c'| |]; try discriminate.
    2:{ intros H. injection H. intros <- _ _. apply E. reflexivity. }
    pose proof (coded_window run_code (au_sr ref)) as W. destruct (make_window (au_sr ref)) as [win|c'| |]; try discriminate.
    2:{ intros H. injection H. intros <- _ _. apply W. reflexivity. }
    pose proof (coded_similarity run_code rc_can rc_inv (w_fft w) (mg_settings m) win ref d (mg_bank m)) as S.
    destruct (calculate_similarity _ _ _ _ _ _ _) as [[k d'] r]. cbn [snd] in S. intros H. injection H. intros H' _ _.
    assert (Q : coded run_code (do x <- r; populate x lag)) by cd. apply Q. exact H'.
  Qed.
  Lemma run_files_codes w (m : manager T) rp dp m' c : run_files w m rp dp = (m', Err c) ->
    if mg_init m then c = InvalidArgument \/ c = Cancelled else c = Aborted /\ m' = m.
  Proof.
    unfold run_files. destruct (mg_init m) eqn:I; cbn [negb].
    2:{ intros H. injection H. intros <- <-. auto. }
    match goal with |- context [match ?x with Ret _ => _ | Err _ => _ | Throw => _ | Ub => _ end] => assert (E : coded run_code x); [|destruct x as [[ref deg]|c'| |]] end;
      try discriminate.
    - unfold audio_of. cd.
    - pose proof (run_codes w m ref deg) as R. destruct (run w m ref deg) as [[m1 d1] r]. intros H. injection H. intros H' _.
      destruct r; cbn [bind] in H'; try discriminate. specialize (R m1 d1 c0 eq_refl). rewrite I in R. congruence.
    - intros H. injection H. intros <- _. apply E. reflexivity.
  Qed.
End RunCodes.
