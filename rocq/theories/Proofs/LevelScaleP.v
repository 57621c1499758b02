(** C90: a louder signal gives a spectrogram louder by the same factor. *)
From Coq Require Import ZArith List Bool Reals Lra Lia.
From Coq Require Import ZifyBool ZifyNat.
From Verif Require Import Base.Res Base.Num Base.NumR Base.Lists Base.Mat Base.Cplx Model.Amatrix Model.MiscMath Model.Window Model.SignalFilter Model.Erb
  Model.FilterBank Model.Spectrogram Model.Nsim Model.Fft Model.Alignment Model.Selector Model.RmsVad Model.PatchCreator Model.MiscAudio Model.Mappers Model.Visqol Model.Manager
  Spec.FftSpec Spec.StatSpec Spec.AudioSpec Spec.LoudSpec Spec.LevelSpec Spec.ManagerSpec Proofs.RealP Proofs.ApiP Proofs.ShapeP Proofs.WindowP Proofs.FilterP Proofs.BankP Proofs.PrepareP Proofs.MiscAudioP
  Proofs.LoudP Proofs.LevelRunP.
Import ListNotations.
Open Scope R_scope.

Section C.
  Variable c : R.
  Hypothesis Hc : 0 < c.
  Notation sc := (map (Rmult c)).
  Definition sc2 (p : list R * list R) : list R * list R := (sc (fst p), sc (snd p)).
  Definition sc4 (f : list R * list R * list R * list R) : list R * list R * list R * list R := let '(a, b, d, e) := f in (sc a, sc b, sc d, sc e).

  Lemma sc_nth l i : nth i (sc l) 0 = c * nth i l 0.
  Proof. replace 0 with (c * 0) at 1 by lra. apply map_nth. Qed.
  Lemma filter_cond_sc b a x y f : filter_cond b a (c * x) (c * y) (sc f) = sc (filter_cond b a x y f).
  Proof.
    unfold filter_cond. rewrite map_length, map_map. apply map_ext. intros i. change (n0 : R) with 0. rewrite !sc_nth.
    destruct (Nat.ltb _ _); [|reflexivity]. cbn. lra.
  Qed.
  Lemma filter_loop_sc b a sig : forall f, filter_loop b a (sc sig) (sc f) = sc2 (filter_loop b a sig f).
  Proof.
    induction sig as [|x t IH]; intros f; [reflexivity|]. cbn [map filter_loop]. change (n0 : R) with 0. rewrite sc_nth.
    replace (nadd (nmul (nth 0 b 0) (c * x)) (c * nth 0 f 0)) with (c * (nadd (nmul (nth 0 b 0) x) (nth 0 f 0))) by (cbn; lra).
    rewrite filter_cond_sc, IH. destruct (filter_loop b a t _) as [ys f']. reflexivity.
  Qed.
  Lemma signal_filter_sc b a sig ic : signal_filter b a (sc sig) (sc ic) = rmap sc2 (signal_filter b a sig ic).
  Proof.
    unfold signal_filter. rewrite map_length. destruct (_ || _); [reflexivity|]. change (n0 : R) with 0.
    replace (sc ic ++ repeat 0 (length a - length ic)) with (sc (ic ++ repeat 0 (length a - length ic))) by (now rewrite map_app, sc_zeros).
    rewrite filter_loop_sc. destruct (filter_loop b a sig _) as [ys f']. unfold sc2. cbn [fst snd rmap bind]. now rewrite firstn_map.
  Qed.
  Lemma band_filter_sc ch cond sig : band_filter ch (sc4 cond) (sc sig) = rmap (fun p => (sc (fst p), sc4 (snd p))) (band_filter ch cond sig).
  Proof.
    destruct cond as [[[f1 f2] f3] f4]. unfold band_filter. cbn [sc4]. rewrite signal_filter_sc.
    destruct (signal_filter _ _ sig f1) as [[y1 g1]| | |]; [|reflexivity..]. cbn [rmap bind sc2 fst snd]. rewrite signal_filter_sc.
    destruct (signal_filter _ _ y1 f2) as [[y2 g2]| | |]; [|reflexivity..]. cbn [rmap bind sc2 fst snd]. rewrite signal_filter_sc.
    destruct (signal_filter _ _ y2 f3) as [[y3 g3]| | |]; [|reflexivity..]. cbn [rmap bind sc2 fst snd]. rewrite signal_filter_sc.
    destruct (signal_filter _ _ y3 f4) as [[y4 g4]| | |]; reflexivity.
  Qed.
  Lemma zero_cond_sc : sc4 zero_cond = @zero_cond R _.
  Proof. unfold zero_cond, sc4. cbn [map]. change (n0 : R) with 0. now rewrite Rmult_0_r. Qed.
  Lemma band_output_sc ch sig : band_output ch (sc sig) = rmap sc (band_output ch sig).
  Proof. unfold band_output. rewrite <- zero_cond_sc at 1. rewrite band_filter_sc. destruct (band_filter ch zero_cond sig) as [[y f]| | |]; reflexivity. Qed.
  Lemma hann_sc (w : window R) sig : apply_hann w (sc sig) = rmap sc (apply_hann w sig).
  Proof.
    unfold apply_hann. rewrite map_length. destruct (Nat.ltb _ _); [reflexivity|]. cbn [rmap bind]. apply (f_equal (@Ret _)). rewrite map_map. apply map_ext.
    intros i. change (n0 : R) with 0. rewrite sc_nth. destruct (Nat.ltb _ _); cbn; lra.
  Qed.
  Lemma row_rms_sc y : row_rms (sc y) = c * row_rms y.
  Proof.
    rewrite !row_rms_R, map_length, map_map. rewrite (map_ext (fun x => c * x * (c * x)) (fun x => (c * c) * (x * x))) by (intros; ring).
    replace (map (fun x => c * c * (x * x)) y) with (map (Rmult (c * c)) (map (fun x => x * x) y)) by (now rewrite map_map). rewrite rsum_scale.
    unfold Rdiv. rewrite Rmult_assoc. fold (rsum (map (fun x => x * x) y) / INR (length y)).
    rewrite sqrt_mult_alt by nra. rewrite sqrt_square by lra. reflexivity.
  Qed.

  (** the builder: the same bands, every entry multiplied *)
  Lemma build_louder speech (k : bank R) (s : audio R) w h S : hop_size w = Some h -> (1 <= h)%Z -> (w_size w < length (au_data s))%nat ->
    snd (build speech k s w) = Ret S -> exists S', snd (build speech k (louder c s) w) = Ret S' /\ sp_cfb S' = sp_cfb S /\ wf (sp_data S') /\
      nrows (sp_data S') = nrows (sp_data S) /\ ncols (sp_data S') = ncols (sp_data S) /\
      forall r j, (r < nrows (sp_data S))%nat -> (j < ncols (sp_data S))%nat -> at_ (sp_data S') r j = c * at_ (sp_data S) r j.
  Proof.
    intros EH H1 HW ES. assert (LL : length (au_data (louder c s)) = length (au_data s)) by (unfold louder; cbn [au_data]; apply map_length).
    destruct (build_ret speech k s w h EH H1 HW) as (S0 & E0 & W0 & N0 & C0 & F0 & _ & _ & V0). rewrite ES in E0. injection E0 as <-.
    destruct (build_ret speech k (louder c s) w h EH H1 ltac:(lia)) as (S' & E1 & W1 & N1 & C1 & F1 & _ & _ & V1). rewrite LL in *.
    exists S'. split; [exact E1|]. split; [rewrite F0, F1; reflexivity|]. split; [exact W1|]. split; [congruence|]. split; [congruence|].
    intros r j Hr Hj. rewrite N0 in Hr. rewrite C0 in Hj.
    destruct (V0 r j (erb_channel 0 0) Hr Hj) as (f & y & A1 & A2 & A3 & A4). destruct (V1 r j (erb_channel 0 0) Hr Hj) as (f' & y' & B1 & B2 & B3 & B4).
    rewrite A4, B4. unfold louder in B1. cbn [au_data] in B1. unfold frame in B1. rewrite skipn_map, firstn_map in B1. fold (frame w (au_data s) (j * Z.to_nat h)) in B1.
    rewrite hann_sc, A1 in B1. cbn [rmap bind] in B1. injection B1 as <-. change (au_sr (louder c s)) with (au_sr s) in B2.
    rewrite band_output_sc, A2 in B2. cbn [rmap bind] in B2. injection B2 as <-. apply row_rms_sc.
  Qed.

  Lemma scale_louder (ref deg : audio R) : 0 < energy (au_data ref) -> scale_to_match_spl (louder c ref) deg = louder c (scale_to_match_spl ref deg).
  Proof.
    intros E. unfold scale_to_match_spl. rewrite !scale_factor_R. unfold louder. cbn [au_data au_sr]. f_equal.
    replace (sc (au_data ref)) with (map (fun x => x * c) (au_data ref)) by (apply map_ext; intros; lra).
    rewrite (spl_scale c (au_data ref) Hc E). rewrite map_map. apply map_ext. intros x. cbn. pose proof ln10 as L10.
    replace ((20 * (ln c / ln 10) + spl (au_data ref) - spl (au_data deg)) / 20 * ln 10)
      with (ln c + (spl (au_data ref) - spl (au_data deg)) / 20 * ln 10) by (field; lra).
    rewrite exp_plus, exp_ln by exact Hc. ring.
  Qed.

  (** the global alignment does not see the level of the reference *)
  Section Align.
    Variable pf : pffft R.
    Hypothesis Hpf : homogeneous pf.
    Lemma product_sc1 fm s1 s2 n : fft_pointwise_product pf fm (sc s1) s2 n = rmap (map (cs c)) (fft_pointwise_product pf fm s1 s2 n).
    Proof.
      unfold fft_pointwise_product. rewrite (points_sc c Hc pf Hpf). 
      destruct (forward1d_points pf fm s2 n) as [f2| | |]; [|destruct (forward1d_points pf fm s1 n); reflexivity..]. cbn [rmap bind].
      destruct (forward1d_points pf fm s1 n) as [f1| | |]; [|reflexivity..]. cbn [bind rmap]. rewrite !map_length.
      destruct (Nat.eqb _ _); [|reflexivity]. cbn [bind]. apply (f_equal (@Ret _)). rewrite map_map. revert f2.
      induction f1 as [|z f1 IH]; intros [|y f2]; [reflexivity..|]. cbn [map combine fst snd]. rewrite IH. f_equal.
      unfold cmul, cconj, cs. cbn. f_equal; lra.
    Qed.
    Lemma lag_sc1 s1 s2 : find_lowest_lag_index pf (sc s1) s2 = find_lowest_lag_index pf s1 s2.
    Proof.
      unfold find_lowest_lag_index, inverse_fft_pointwise_product. rewrite map_length, !(pad_sc c), product_sc1.
      destruct (fft_pointwise_product _ _ _ _ _) as [p| | |]; [|reflexivity..]. cbn [rmap bind].
      unfold inverse1d_conj_sym. rewrite (inverse_sc c Hc pf Hpf). destruct (inverse1d _ _ p) as [v| | |]; [|reflexivity..]. cbn [rmap bind].
      rewrite !map_length. replace (map cre (map (cs c) v)) with (sc (map cre v)) by (rewrite !map_map; reflexivity).
      destruct (_ || _); [reflexivity|]. rewrite skipn_map, firstn_map, <- map_app, (argmax_sc c Hc). reflexivity.
    Qed.
    Lemma align_sc1 (ref deg : audio R) : globally_align pf (louder c ref) deg = globally_align pf ref deg.
    Proof.
      unfold globally_align, louder. cbn [au_data au_sr]. rewrite (env_sc c Hc pf Hpf). destruct (calc_upper_env pf (au_data ref)) as [re| | |]; [|reflexivity..]. cbn [rmap bind].
      destruct (calc_upper_env pf (au_data deg)) as [de| | |]; [|reflexivity..]. cbn [bind]. rewrite lag_sc1.
      destruct (find_lowest_lag_index pf re de) as [g| | |]; [|reflexivity..]. cbn [bind]. unfold apply_lag. cbn [au_data au_sr]. now rewrite map_length.
    Qed.
  End Align.

  (** nor does the choice of patches *)
  Lemma max_from_sc l : forall m, max_elem_from (c * m) (sc l) = c * max_elem_from m l.
  Proof.
    induction l as [|x l IH]; intros m; [reflexivity|]. cbn [map max_elem_from]. rewrite <- IH. f_equal. cbn [nltb NumR].
    destruct (Rltb_spec m x), (Rltb_spec (c * m) (c * x)); try reflexivity; exfalso; nra.
  Qed.
  Lemma normalize_sc l : normalize (sc l) = normalize l.
  Proof.
    unfold normalize. destruct l as [|x l]; [reflexivity|]. cbn [map max_elem bind]. rewrite max_from_sc.
    assert (Q : forall y m, ndiv (c * y) (c * m) = ndiv (T := R) y m).
    { intros y m. cbn [ndiv NumR]. unfold Rdiv. rewrite Rinv_mult. rewrite <- (Rmult_assoc (c * y)), (Rmult_comm c y), (Rmult_assoc y c), Rinv_r, Rmult_1_r by lra. reflexivity. }
    rewrite Q. f_equal. f_equal. rewrite map_map. apply map_ext. intros y. apply Q.
  Qed.
  Lemma indices_sc (speech : bool) n (ref : audio R) w : ref_patch_indices speech n (louder c ref) w = ref_patch_indices speech n ref w.
  Proof. unfold ref_patch_indices, vad_create_ref_patch_indices, louder. cbn [au_data]. now rewrite normalize_sc. Qed.

  (** *** above -45 dB a common factor disappears *)
  Lemma level_louder x : 0 < x -> level (c * x) = 10 * (ln c / ln 10) + level x.
  Proof.
    intros Hx. unfold level. assert (0 < c * x) by nra. destruct (Req_EM_T (c * x) 0) as [E|_]; [lra|]. destruct (Req_EM_T x 0) as [E|_]; [lra|].
    rewrite !Rabs_pos_eq by lra. rewrite ln_mult by lra. pose proof ln10. field. lra.
  Qed.
  Lemma level_audible x : audible <= x -> -45 <= level x.
  Proof.
    intros H. pose proof ln10_pos as P. assert (0 < audible) by apply exp_pos. unfold level. destruct (Req_EM_T x 0) as [E|_]; [lra|]. rewrite Rabs_pos_eq by lra.
    assert (- 4.5 * ln 10 <= ln x). { rewrite <- (ln_exp (-4.5 * ln 10)). fold audible. destruct H as [H|H]; [left; apply ln_increasing; lra|right; now rewrite H]. }
    apply Rmult_le_reg_r with (ln 10); [exact P|]. unfold Rdiv. rewrite Rmult_assoc, (Rmult_assoc (ln x)), Rinv_l by lra. lra.
  Qed.
  Lemma prepare_louder (A B A2 B2 : mat R) : 1 <= c -> wf A -> wf B -> wf A2 -> wf B2 -> (0 < nrows A)%nat -> (0 < nrows B)%nat -> (0 < ncols A)%nat -> (0 < ncols B)%nat ->
    nrows A2 = nrows A -> ncols A2 = ncols A -> nrows B2 = nrows B -> ncols B2 = ncols B ->
    (forall r j, (r < nrows A)%nat -> (j < ncols A)%nat -> audible <= at_ A r j /\ at_ A2 r j = c * at_ A r j) ->
    (forall r j, (r < nrows B)%nat -> (j < ncols B)%nat -> audible <= at_ B r j /\ at_ B2 r j = c * at_ B r j) ->
    prepare_spectrograms A2 B2 = prepare_spectrograms A B.
  Proof.
    intros C1 WA WB WA2 WB2 RA RB CA CB EA1 EA2 EB1 EB2 HA HB.
    destruct (prepare_spec A B WA WB RA RB CA CB) as (X & Y & fl & low & E & WX & WY & [SX1 SX2] & [SY1 SY2] & FL & FL' & VX & VY & PX & PY & ZZ).
    destruct (prepare_spec A2 B2 WA2 WB2 ltac:(lia) ltac:(lia) ltac:(lia) ltac:(lia)) as (X2 & Y2 & fl2 & low2 & E2 & WX2 & WY2 & [TX1 TX2] & [TY1 TY2] & GL & GL' & UX & UY & QX & QY & ZZ2).
    rewrite EA1, EA2, EB1, EB2 in *. rewrite E, E2.
    set (dl := 10 * (ln c / ln 10)) in *. assert (D0 : 0 <= dl).
    { unfold dl. pose proof ln10_pos as P. assert (0 <= ln c) by (rewrite <- ln_1; destruct C1 as [C1|<-]; [left; apply ln_increasing; lra|lra]).
      apply Rmult_le_pos; [lra|]. apply Rmult_le_pos; [assumption|left; apply Rinv_0_lt_compat; lra]. }
    assert (AP : 0 < audible) by apply exp_pos.
    assert (M : forall x, audible <= x -> Rmax (-45) (level x) = level x /\ Rmax (-45) (level (c * x)) = dl + level x).
    { intros x Hx. pose proof (level_audible x Hx). rewrite level_louder by lra. fold dl. split; apply Rmax_right; lra. }
    assert (FD : forall j, (j < Nat.min (ncols A) (ncols B))%nat -> fl2 j = fl j + dl).
    { intros j Hj. destruct (FL j Hj) as (pk & -> & P1 & P2 & r & P3). destruct (GL j Hj) as (pk2 & -> & Q1 & Q2 & r2 & Q3).
      assert (pk2 = pk + dl); [|lra]. apply Rle_antisym.
      - destruct Q3 as [[H ->]|[H ->]].
        + destruct (HA r2 j H ltac:(lia)) as [H1 H2]. rewrite H2. destruct (M _ H1) as [M1 M2]. rewrite M2. specialize (P1 r2 H). rewrite M1 in P1. lra.
        + destruct (HB r2 j H ltac:(lia)) as [H1 H2]. rewrite H2. destruct (M _ H1) as [M1 M2]. rewrite M2. specialize (P2 r2 H). rewrite M1 in P2. lra.
      - destruct P3 as [[H ->]|[H ->]].
        + destruct (HA r j H ltac:(lia)) as [H1 H2]. destruct (M _ H1) as [M1 M2]. rewrite M1. specialize (Q1 r H). rewrite H2, M2 in Q1. lra.
        + destruct (HB r j H ltac:(lia)) as [H1 H2]. destruct (M _ H1) as [M1 M2]. rewrite M1. specialize (Q2 r H). rewrite H2, M2 in Q2. lra. }
    assert (U : forall x j, audible <= x -> Rmax (fl2 j) (Rmax (-45) (level (c * x))) = Rmax (fl j) (Rmax (-45) (level x)) + dl).
    { intros x j Hx. destruct (M x Hx) as [M1 M2]. rewrite M1, M2. pose proof (level_audible x Hx). destruct (Nat.lt_ge_cases j (Nat.min (ncols A) (ncols B))) as [H'|H'].
      - rewrite (FD j H'). unfold Rmax. destruct (Rle_dec (fl j + dl) (dl + level x)), (Rle_dec (fl j) (level x)); lra.
      - rewrite (FL' j H'), (GL' j H'). rewrite !Rmax_right by lra. lra. }
    assert (AX : forall r j, (r < nrows A)%nat -> (j < ncols A)%nat -> at_ X2 r j = at_ X r j + (dl + low - low2)).
    { intros r j Hr Hj. destruct (HA r j Hr Hj) as [H1 H2]. rewrite UX, VX, H2, U by assumption. lra. }
    assert (AY : forall r j, (r < nrows B)%nat -> (j < ncols B)%nat -> at_ Y2 r j = at_ Y r j + (dl + low - low2)).
    { intros r j Hr Hj. destruct (HB r j Hr Hj) as [H1 H2]. rewrite UY, VY, H2, U by assumption. lra. }
    assert (L0 : dl + low - low2 = 0).
    { apply Rle_antisym.
      - destruct ZZ2 as (r & j & [(H1 & H2 & H3)|(H1 & H2 & H3)]); [rewrite AX in H3 by assumption; pose proof (PX r j H1 H2)|rewrite AY in H3 by assumption; pose proof (PY r j H1 H2)]; lra.
      - destruct ZZ as (r & j & [(H1 & H2 & H3)|(H1 & H2 & H3)]); [pose proof (QX r j H1 H2) as H4; rewrite AX in H4 by assumption|pose proof (QY r j H1 H2) as H4; rewrite AY in H4 by assumption]; lra. }
    f_equal. f_equal.
    - apply (mat_ext 0); [exact WX2|exact WX|congruence|congruence|]. intros r j Hr Hj. change (at_ X2 r j = at_ X r j). rewrite AX by lia. lra.
    - apply (mat_ext 0); [exact WY2|exact WY|congruence|congruence|]. intros r j Hr Hj. change (at_ Y2 r j = at_ Y r j). rewrite AY by lia. lra.
  Qed.

  (** *** the whole run *)
  Lemma hop_of_build speech (k : bank R) (s : audio R) w S : snd (build speech k s w) = Ret S ->
    exists h, hop_size w = Some h /\ (1 <= h)%Z /\ (w_size w < length (au_data s))%nat.
  Proof.
    unfold build. destruct (prepared_bank _ _ _) as [k1 cfb]. destruct (hop_size w) as [h|]; [|discriminate].
    destruct (Nat.leb_spec (length (au_data s)) (w_size w)) as [H|H]; [discriminate|]. destruct (Z.leb_spec h 0) as [H'|H']; [discriminate|]. intros _. exists h. split; [reflexivity|]. lia.
  Qed.
  Lemma run_louder (w : world R) (m : manager R) (ref deg : audio R) win R1 D1 :
    1 <= c -> (mg_no_global m = true \/ homogeneous (w_fft w)) -> st_no_realign (mg_settings m) = true -> 0 < energy (au_data ref) -> (0 < bk_bands (mg_bank m))%nat ->
    make_window (au_sr ref) = Ret win ->
    snd (build (st_speech (mg_settings m)) (mg_bank m) ref win) = Ret R1 -> all_audible R1 ->
    snd (build (st_speech (mg_settings m)) (mg_bank m) (snd (fst (run w m ref deg))) win) = Ret D1 -> all_audible D1 ->
    forall msg, snd (run w m ref deg) = Ret msg -> snd (run w m (louder c ref) deg) = Ret msg.
  Proof.
    intros C1 HG NR EN KP EW BR AR BD AD msg HM. set (st := mg_settings m) in *. set (k := mg_bank m) in *.
    destruct (run_parts w m ref deg msg HM) as (d & lag & win' & k' & r & E1 & E2 & E3 & E4 & E5 & E6 & E7). rewrite EW in E3. injection E3 as <-. rewrite E5 in BD.
    fold st k in E4. set (d1 := scale_to_match_spl ref d) in *.
    destruct (hop_of_build _ _ _ _ _ BR) as (h & EH & H1 & LR). destruct (hop_of_build _ _ _ _ _ BD) as (h' & EH' & _ & LD). rewrite EH in EH'. injection EH' as <-.
    destruct (build_louder (st_speech st) k ref win h R1 EH H1 LR BR) as (R2 & BR2 & F1 & WR2 & NR1 & CR1 & VR).
    destruct (build_louder (st_speech st) k d1 win h D1 EH H1 LD BD) as (D2 & BD2 & _ & WD2 & ND1 & CD1 & VD).
    destruct (build_ret (st_speech st) k ref win h EH H1 LR) as (x & X0 & WR & X1 & X2 & _). rewrite BR in X0. injection X0 as <-.
    destruct (build_ret (st_speech st) k d1 win h EH H1 LD) as (x & X0 & WD & Y1 & Y2 & _). rewrite BD in X0. injection X0 as <-.
    assert (EP : prepare_spectrograms (sp_data R2) (sp_data D2) = prepare_spectrograms (sp_data R1) (sp_data D1)).
    { assert (0 < ncols (sp_data R1))%nat by (rewrite X2; apply le_n_S, Nat.le_0_l). assert (0 < ncols (sp_data D1))%nat by (rewrite Y2; apply le_n_S, Nat.le_0_l). apply prepare_louder; try assumption; try (rewrite ?X1, ?Y1; exact KP).
      - intros a b Ha Hb. split; [apply AR; assumption|apply VR; assumption].
      - intros a b Ha Hb. split; [apply AD; assumption|apply VD; assumption]. }
    unfold run in HM |- *. destruct (negb (mg_init m)); [discriminate|]. change (validate (louder c ref) deg) with (validate ref deg). destruct (validate ref deg); [discriminate|].
    assert (EA : (if mg_no_global m then Ret (deg, n0) else globally_align (w_fft w) (louder c ref) deg) = Ret (d, lag)).
    { rewrite <- E7. destruct (mg_no_global m); [reflexivity|]. destruct HG as [HG|HG]; [discriminate|]. apply align_sc1. exact HG. }
    rewrite EA. change (au_sr (louder c ref)) with (au_sr ref). rewrite EW. fold st k.
    clear HM EA. unfold calculate_similarity in E4 |- *. rewrite scale_louder by exact EN. fold d1. fold d1 in E4.
    pose proof (build_depends (st_speech st) k k ref win eq_refl eq_refl) as (_ & K1 & K1').
    pose proof (build_depends (st_speech st) k k (louder c ref) win eq_refl eq_refl) as (_ & J1 & J1').
    destruct (build (st_speech st) k ref win) as [k1 rs]. destruct (build (st_speech st) k (louder c ref) win) as [j1 rs2]. cbn [fst snd] in BR, BR2, K1, K1', J1, J1'. subst rs rs2.
    pose proof (build_depends (st_speech st) k1 k d1 win K1 K1') as (B2 & _ & _). rewrite BD in B2.
    pose proof (build_depends (st_speech st) j1 k (louder c d1) win J1 J1') as (B3 & _ & _). rewrite BD2 in B3.
    destruct (build (st_speech st) k1 d1 win) as [k2 ds]. destruct (build (st_speech st) j1 (louder c d1) win) as [j2 ds2]. cbn [fst snd] in B2, B3. subst ds ds2.
    unfold compare_spectrograms in E4 |- *. rewrite EP. change (au_sr (louder c ref)) with (au_sr ref). rewrite F1.
    destruct (prepare_spectrograms (sp_data R1) (sp_data D1)) as [[A B]| | |]; cbn [bind] in E4 |- *; try discriminate. rewrite indices_sc.
    destruct (bind (ref_patch_indices _ _ _ _) _) as [[fd sims]| | |]; try discriminate. rewrite NR in E4 |- *. cbn [bind] in E4 |- *. cbn [snd].
    injection E4 as _ E4. rewrite E4. exact E6.
  Qed.
End C.
