(** A comparison in binary64 whose spectrograms hold no infinity returns (C99): the run. *)
From Coq Require Import ZArith List Bool Reals Lra Lia Floats.
From Coq Require Import ZifyBool ZifyNat Sorting.Sorted.
From Flocq Require Import Core.Core IEEE754.BinarySingleNaN IEEE754.PrimFloat.
From Verif Require Import Base.Res Base.Num Base.NumR Base.NumF Base.Lists Base.Mat Model.Amatrix Model.MiscMath Model.Fft Model.Window
  Model.FilterBank Model.Spectrogram Model.Nsim Model.Alignment Model.PatchCreator Model.Selector Model.MiscAudio Model.Mappers
  Model.Visqol Model.Manager Spec.FftSpec Proofs.DftP Spec.AlignSpec Spec.FineSpec Spec.MatchSpec Spec.AggSpec Spec.ManagerSpec Spec.TotalSpec Spec.UndefinedSpec Spec.FiniteSpec
  Proofs.ConvP Proofs.B64P Proofs.ScoresP Proofs.FftP Proofs.AlignP Proofs.AlignCasesP Proofs.BankP Proofs.ShapeP Proofs.AggregateP Proofs.AggFloatP
  Proofs.PatchCreatorP Proofs.SelectorP Proofs.MatchP Proofs.MatchAllP Proofs.OptimalP Proofs.SafeP Proofs.MatchCasesP Proofs.MapperP Proofs.MapperRP
  Proofs.ShortP Proofs.FineP Proofs.WindowP Proofs.WindowFP Proofs.FineSafeP Proofs.FineTimesP Proofs.FineRunP Proofs.BoundP Proofs.VarP Proofs.FiniteNsimP Proofs.FinitePrepP Proofs.ScoresBigP Proofs.FiniteVadP Proofs.TotalP
  Proofs.FiniteRunP Proofs.FiniteFineP Proofs.CountTimesP.
Import ListNotations.
Open Scope Z_scope.

Lemma counted_weaken fd P P' x : P <= P' -> counted fd P x -> counted fd P' x.
Proof. intros H (c & E & B). exists c. split; [exact E|lia]. Qed.

Lemma frames_le n w h : 1 <= h -> (w < n)%nat -> (1 + (n - w) / Z.to_nat h <= 1 + (n - w))%nat.
Proof. intros Hh H. assert (X := Nat.div_le_upper_bound (n - w) (Z.to_nat h) (n - w) ltac:(lia) ltac:(nia)). lia. Qed.
Lemma total_frames P n i f : 20 <= P -> 0 <= n -> n <= i -> P * i <= f -> f < 2 ^ 29 -> (2 * P + 1) * n < 2 ^ 31 /\ n < 2 ^ 31.
Proof. intros. assert (P * n <= f) by nia. split; nia. Qed.

Lemma nan_free_F : neqb (@n0 F NumF) (@n0 F NumF) = true.
Proof. vm_compute. reflexivity. Qed.

(** *** the numbers of a summary *)
Lemma nsum_fold (l : list F) : nsum l = fold_left nadd l n0. Proof. reflexivity. Qed.
Lemma average_bd k (l : list F) : -1000 <= k < 900 -> l <> [] -> Z.of_nat (length l) <= 2 ^ 31 -> Forall (bd k) l -> bd (k + 31) (average l).
Proof. intros Hk Hl Hn H. exact (bd_mean k l Hk Hl Hn H). Qed.
Lemma bands_bd k nb (get : psr F -> mat F) (ps : list (psr F)) b : (forall x, In x ps -> column nb (get x)) -> (forall x, In x ps -> Forall (bd k) (elems (get x))) -> (b < nb)%nat ->
  Forall (bd k) (map (fun p => band_of b (get p)) ps).
Proof.
  intros H1 H2 Hb. apply Forall_forall. intros x Hx. apply in_map_iff in Hx. destruct Hx as (m & <- & Hm). pose proof (column_elems _ _ (H1 m Hm)) as CE.
  specialize (H2 m Hm). rewrite Forall_forall in H2. apply H2. unfold band_of. apply nth_In. lia.
Qed.
Lemma decile_bd nb (ms : list (mat F)) b q : Forall (column nb) ms -> Forall (fun m => Forall (bd 131) (elems m)) ms -> (b < nb)%nat -> Z.of_nat (length ms) < 2 ^ 31 ->
  quantile_band ms (ndec 10 2) b = Ret q -> bd 162 q.
Proof.
  intros H2 HF H3 H4. unfold quantile_band. rewrite (band_values nb) by assumption. cbn [bind]. unfold std_sort. destruct (has_nan _); [discriminate|]. cbn [bind].
  set (l := map (band_of b) ms). set (s := isort l). assert (PM := isort_permT l). fold s in PM. assert (LS : length s = length ms) by (rewrite <- (Permutation.Permutation_length PM); unfold l; apply map_length).
  rewrite LS. destruct (to_int _) as [k| | |]; try discriminate. cbn [bind]. destruct (Z.of_nat (length ms) <? Z.max 1 k) eqn:EK; [discriminate|]. intros E. injection E as <-.
  assert (FS : Forall (bd 131) s).
  { apply (Permutation.Permutation_Forall PM). apply Forall_forall. intros x Hx. apply in_map_iff in Hx. destruct Hx as (m & <- & Hm). rewrite Forall_forall in H2, HF.
    pose proof (column_elems _ _ (H2 m Hm)) as CE. specialize (HF m Hm). rewrite Forall_forall in HF. apply HF. unfold band_of. apply nth_In. lia. }
  set (f := firstn (Z.to_nat (Z.max 1 k)) s). assert (LF : Z.of_nat (length f) = Z.max 1 k) by (unfold f; rewrite firstn_length, LS; lia).
  pose proof (average_bd 131 f ltac:(lia)) as M. unfold average in M. rewrite LF in M. change (131 + 31) with 162 in M. apply M; [|lia|].
  - intros C. rewrite C in LF. cbn in LF. lia.
  - unfold f. apply Forall_forall. intros x Hx. rewrite Forall_forall in FS. apply FS. rewrite <- (firstn_skipn (Z.to_nat (Z.max 1 k)) s). apply in_or_app. left. exact Hx.
Qed.
Lemma bd_val k x : bd k x -> finite_value x.
Proof. intros [H _]. unfold finite_value. rewrite is_finite_equiv. exact H. Qed.
(** *** the spread by band *)
Lemma bd_accumulate k x y m : -1074 <= k < 960 -> 0 <= m -> m + 1 < 2 ^ 53 -> bd k y -> fin x -> (Rabs (FR x) <= IZR m * bpow radix2 k)%R ->
  fin (PrimFloat.add x y) /\ (Rabs (FR (PrimFloat.add x y)) <= IZR (m + 1) * bpow radix2 k)%R.
Proof. intros K M1 M2 Y X1 X2. exact (bd_fold k (proj1 K) (proj2 K) [y] x m M1 M2 (Forall_cons y Y (Forall_nil _)) X1 X2). Qed.
Definition under (m : Z) (x : F) : Prop := fin x /\ (Rabs (FR x) <= IZR m * bpow radix2 273)%R.
Lemma contribute_bd nb fc (p : psr F) acc l m : shaped nb p -> finite_result p -> 1 <= fc <= 2 ^ 11 -> length acc = nb -> 0 <= m -> m + 2 < 2 ^ 53 ->
  Forall (under m) acc -> contribute fc p acc = Ret l -> Forall (under (m + 2)) l.
Proof.
  intros (C1 & C2 & _) (_ & F2 & _ & F4) Hf Ha M1 M2 HA. unfold contribute. rewrite (column_elems _ _ C1), (column_elems _ _ C2). pose proof (column_elems _ _ C1) as L1. pose proof (column_elems _ _ C2) as L2. destruct C1 as (_ & R1 & _). rewrite R1, Ha, Nat.ltb_irrefl.
  cbn [orb]. intros E. injection E as <-. apply Forall_forall. intros x Hx. apply in_map_iff in Hx. destruct Hx as (b & <- & Hb). apply in_seq in Hb. replace (Nat.ltb b nb) with true by lia.
  assert (S1 : bd 110 (nth b (elems (ps_stddevs p)) n0)) by (rewrite Forall_forall in F4; apply F4, nth_In; lia).
  assert (S2 : bd 131 (nth b (elems (ps_means p)) n0)) by (rewrite Forall_forall in F2; apply F2, nth_In; lia).
  assert (S3 : under m (nth b acc n0)) by (rewrite Forall_forall in HA; apply HA, nth_In; lia).
  cbv zeta. destruct S3 as [A1 A2].
  assert (N1 : bd 11 (F_ofZ (fc - 1))) by (apply bd_ofZ; lia). assert (N2 : bd 11 (F_ofZ fc)) by (apply bd_ofZ; lia).
  pose proof (bd_mul (11 + 110) 110 _ _ ltac:(lia) (bd_mul 11 110 _ _ ltac:(lia) N1 S1) S1) as T1. pose proof (bd_mul (11 + 131) 131 _ _ ltac:(lia) (bd_mul 11 131 _ _ ltac:(lia) N2 S2) S2) as T2.
  destruct (bd_accumulate 273 _ _ m ltac:(lia) M1 ltac:(lia) (bd_weaken (11 + 110 + 110) 273 _ T1 ltac:(lia)) A1 A2) as [B1 B2].
  replace (m + 2) with (m + 1 + 1) by lia. exact (bd_accumulate 273 _ _ (m + 1) ltac:(lia) ltac:(lia) ltac:(lia) (bd_weaken (11 + 131 + 131) 273 _ T2 ltac:(lia)) B1 B2).
Qed.
Lemma contribute_all_bd nb fd P : 2 <= P <= 2 ^ 11 -> forall ps tot acc m tot' l, Forall (shaped nb) ps -> Forall finite_result ps -> Forall (counted fd P) ps -> length acc = nb ->
  0 <= m -> m + 2 * Z.of_nat (length ps) < 2 ^ 53 -> Forall (under m) acc -> contribute_all fd ps tot acc = Ret (tot', l) ->
  tot + 2 * Z.of_nat (length ps) <= tot' <= tot + P * Z.of_nat (length ps) /\ Forall (under (m + 2 * Z.of_nat (length ps))) l /\ length l = nb.
Proof.
  intros HP. induction ps as [|p t IH]; intros tot acc m tot' l H1 H2 H3 Ha M1 M2 HA E; cbn [contribute_all] in E.
  - assert (E' : (tot, acc) = (tot', l)) by congruence. pose proof (f_equal fst E') as E1. pose proof (f_equal snd E') as E2. cbn [fst snd] in E1, E2. subst tot' l. change (Z.of_nat (length (@nil (psr F)))) with 0. rewrite !Z.mul_0_r, !Z.add_0_r. split; [lia|]. split; [exact HA|exact Ha].
  - inversion H1 as [|? ? S1 S2]; subst. inversion H2 as [|? ? T1 T2]; subst. inversion H3 as [|? ? U1 U2]; subst. destruct U1 as (c & EC & CB). rewrite EC in E. cbn [bind] in E.
    destruct (_ && _); [|discriminate]. apply bind_ret in E. destruct E as (acc' & EA & E). pose proof (contribute_len _ _ _ _ EA) as LA. cbn [length] in *.
    pose proof (contribute_bd (length acc) c p acc acc' m S1 T1 ltac:(lia) eq_refl M1 ltac:(lia) HA EA) as HA'.
    destruct (IH _ _ (m + 2) _ _ S2 T2 U2 LA ltac:(lia) ltac:(lia) HA' E) as (I1 & I2 & I3). split; [lia|]. split; [|exact I3].
    replace (m + 2 * Z.of_nat (S (length t))) with (m + 2 + 2 * Z.of_nat (length t)) by lia. exact I2.
Qed.
Lemma pooled_bd total (c mean : F) : 2 <= total < 2 ^ 31 -> bd 305 c -> bd 162 mean -> bd 178 (pooled total c mean).
Proof.
  intros HT C M. unfold pooled. set (d := ndiv _ _).
  assert (D : bd 356 d).
  { destruct (FR_ofZ (total - 1) ltac:(lia)) as [E _]. assert (N : bd 31 (F_ofZ total)) by (apply bd_ofZ; lia).
    pose proof (bd_mul (162 + 162) 31 _ _ ltac:(lia) (bd_mul 162 162 _ _ ltac:(lia) M M) N) as T1.
    pose proof (bd_sub 355 c _ ltac:(lia) (bd_weaken 305 355 _ C ltac:(lia)) T1) as T2. apply (bd_div 356 0); [lia|exact T2|]. change (@nofZ F NumF) with F_ofZ. rewrite E. change (bpow radix2 0) with (IZR 1). apply IZR_le. lia. }
  destruct (FR_ofZ 0 ltac:(lia)) as [E0 F0]. change (@n0 F NumF) with (F_ofZ 0).
  destruct (nltb d (F_ofZ 0)) eqn:EL; [split; [exact F0|rewrite E0, Rabs_R0; apply bpow_ge_0]|].
  apply (sqrt_bd 178 d); [lia|exact D|]. change (nltb d (F_ofZ 0)) with (PrimFloat.ltb d (F_ofZ 0)) in EL. rewrite FR_ltb in EL by (exact F0 || exact (proj1 D)). rewrite E0 in EL. destruct (Rlt_bool_spec (FR d) 0); [discriminate|assumption].
Qed.
Lemma stddevs_bd nb fd P (ps : list (psr F)) l : 2 <= P <= 2 ^ 11 -> ps <> [] -> Forall (shaped nb) ps -> Forall finite_result ps -> Forall (counted fd P) ps -> P * Z.of_nat (length ps) < 2 ^ 31 ->
  calc_stddevs ps fd = Ret l -> Forall (bd 178) l.
Proof.
  intros HP H1 H2 HF HC HL. unfold calc_stddevs. destruct ps as [|p0 t] eqn:EP; [congruence|]. rewrite <- EP in *.
  assert (RR : nrows (ps_means p0) = nb) by (rewrite Forall_forall in H2; destruct (H2 p0) as ((_ & RR & _) & _); [rewrite EP; left; reflexivity|exact RR]).
  assert (LP : 1 <= Z.of_nat (length ps)) by (rewrite EP; cbn [length]; lia). clear EP.
  rewrite RR, (calc_means_ret nb) by assumption. cbn [bind]. intros E. apply bind_ret in E. destruct E as ([tot c] & EC & E). destruct (fits_int (tot - 1)); [|discriminate]. injection E as <-.
  assert (Z0 : Forall (under 0) (repeat (@n0 F NumF) nb)).
  { apply Forall_forall. intros x Hx. apply repeat_spec in Hx. subst x. destruct (FR_ofZ 0 ltac:(lia)) as [E0 F0]. change (@n0 F NumF) with (F_ofZ 0). split; [exact F0|]. rewrite E0, Rabs_R0. lra. }
  destruct (contribute_all_bd nb fd P HP ps 0 _ 0 tot c H2 HF HC (repeat_length _ _) ltac:(lia) ltac:(nia) Z0 EC) as (T1 & T2 & T3).
  apply Forall_forall. intros x Hx. apply in_map_iff in Hx. destruct Hx as (b & <- & Hb). apply in_seq in Hb. apply pooled_bd; [nia| |].
  - rewrite Forall_forall in T2. assert (BC : (b < length c)%nat). { lia. } destruct (T2 (nth b c n0) (nth_In c n0 BC)) as [G1 G2]. split; [exact G1|]. apply Rle_trans with (1 := G2). change 305 with (32 + 273). rewrite bpow_plus. apply Rmult_le_compat_r; [apply bpow_ge_0|].
    rewrite <- (IZR_Zpower radix2) by lia. apply IZR_le. change (Zpower radix2 32) with (2 ^ 32). nia.
  - rewrite nth_map_seq by lia. rewrite Forall_forall in H2, HF. apply (average_bd 131); [lia|destruct ps; [congruence|discriminate]|rewrite map_length; nia|].
    apply (bands_bd 131 nb ps_means); [|intros y Hy; exact (proj1 (proj2 (HF y Hy)))|lia]. intros y Hy. exact (proj1 (H2 y Hy)).
Qed.

Lemma summary_finite {L : Libm F} f32 mp fd cfb (ps : list (psr F)) nb P r lag msg : (0 < nb)%nat -> Z.of_nat nb <= 2 ^ 31 -> ps <> [] -> Forall (shaped nb) ps -> Forall finite_result ps -> Z.of_nat (length ps) < 2 ^ 31 ->
  2 <= P <= 2 ^ 11 -> Forall (counted fd P) ps -> P * Z.of_nat (length ps) < 2 ^ 31 -> fin fd -> (0 < FR fd)%R -> finite_value lag ->
  summarise f32 mp fd cfb ps = Ret r -> populate r lag = Ret msg -> finite_numbers msg.
Proof.
  intros Nb NB H1 H2 HF HL HP HC HT Ffd Pfd Flag ES EP. apply (summarise_inv nb) in ES; [|exact H1|exact H2]. destruct ES as (S1 & _ & S3 & S4 & S5 & S6 & S8 & _ & S7 & _).
  pose proof (stddevs_bd nb fd P ps _ HP H1 H2 HF HC HT S8) as SD.
  apply (populate_inv nb) in EP; [|rewrite S1; exact H2]. destruct EP as (_ & P2 & P3 & P4 & P5 & P6 & _ & P8 & _ & _ & P7). rewrite S1 in P7.
  assert (LN : Z.of_nat (length ps) <= 2 ^ 31) by lia.
  rewrite Forall_forall in H2, HF.
  assert (FV : Forall (bd 162) (sr_fvnsim r)).
  { rewrite S3. apply Forall_forall. intros x Hx. apply in_map_iff in Hx. destruct Hx as (b & <- & Hb). apply in_seq in Hb.
    apply (average_bd 131); [lia|destruct ps; [congruence|discriminate]|rewrite map_length; exact LN|]. apply (bands_bd 131 nb ps_means); [|intros y Hy; exact (proj1 (proj2 (HF y Hy)))|lia].
    intros y Hy. exact (proj1 (H2 y Hy)). }
  unfold finite_numbers. rewrite P2, P3, P4, P5, P6, P7, P8. refine (conj _ (conj _ (conj _ (conj _ (conj _ (conj _ Flag)))))).
  - rewrite S7. apply (bd_val (162 + 31)), average_bd; [lia| |rewrite S3, map_length, seq_length; exact NB|exact FV]. rewrite S3. destruct nb; [lia|discriminate].
  - eapply Forall_impl; [|exact FV]. intros x. apply bd_val.
  - unfold calc_quantile in S5. destruct ps as [|p0 t]; [congruence|]. set (ps := p0 :: t) in *.
    assert (RR : nrows (ps_means p0) = nb) by (destruct (H2 p0 (or_introl eq_refl)) as ((_ & RR & _) & _); exact RR). rewrite RR in S5.
    assert (C1 : Forall (column nb) (map ps_means ps)) by (apply Forall_map, Forall_forall; intros y Hy; exact (proj1 (H2 y Hy))).
    assert (C2 : Forall (fun m => Forall (bd 131) (elems m)) (map ps_means ps)) by (apply Forall_map, Forall_forall; intros y Hy; exact (proj1 (proj2 (HF y Hy)))).
    assert (C3 : Z.of_nat (length (map ps_means ps)) < 2 ^ 31) by (rewrite map_length; exact HL).
    assert (G : forall is l, (forall b, In b is -> (b < nb)%nat) -> sequence (map (quantile_band (map ps_means ps) (ndec 10 2)) is) = Ret l -> Forall finite_value l).
    { induction is as [|b t' IH]; intros l Hb E; cbn [map sequence] in E; [injection E as <-; constructor|].
      destruct (quantile_band _ _ b) as [q| | |] eqn:EQ; cbn [bind] in E; try discriminate. destruct (sequence _) as [l'| | |] eqn:EL in E; cbn [bind] in E; try discriminate. injection E as <-.
      constructor; [exact (bd_val _ _ (decile_bd nb _ b q C1 C2 (Hb b (or_introl eq_refl)) C3 EQ))|]. apply IH; [intros y Hy; apply Hb; now right|exact EL]. }
    apply (G (seq 0 nb)); [|exact S5]. intros b Hb. apply in_seq in Hb. lia.
  - eapply Forall_impl; [|exact SD]. intros x. apply bd_val.
  - rewrite S4. apply Forall_forall. intros x Hx. apply in_map_iff in Hx. destruct Hx as (b & <- & Hb). apply in_seq in Hb.
    apply (bd_val (43 + 31)), average_bd; [lia|destruct ps; [congruence|discriminate]|rewrite map_length; exact LN|]. apply (bands_bd 43 nb ps_energy); [|intros y Hy; exact (proj1 (proj2 (proj2 (HF y Hy))))|lia].
    intros y Hy. exact (proj2 (proj2 (H2 y Hy))).
  - apply Forall_map, Forall_forall. intros y Hy. cbn [pm_sim pm_means pm_ref_start pm_ref_end]. destruct (HF y Hy) as (F1 & F2 & _). rewrite Forall_forall in HC. destruct (counted_times fd P y Ffd Pfd (HC y Hy)) as (T1 & T2 & T3).
    refine (conj (bd_val _ _ F1) (conj _ (conj _ (conj _ T3)))); [eapply Forall_impl; [|exact F2]; intros z; apply bd_val|unfold finite_value; rewrite is_finite_equiv; assumption ..].
Qed.

Section Total.
  Context {L : Libm F} (SL : sane_log mlog10).
  Lemma similarity_F (pf : pffft F) st (w : window F) (ref deg : audio F) k h (Q : F -> Prop) :
    keeps_length pf -> make_window (au_sr ref) = Ret w -> hop_size w = Some h -> 1 <= h -> 1 <= au_sr ref < 2 ^ 31 -> h <= au_sr ref -> au_sr ref <= 1000 * h -> au_sr deg = au_sr ref ->
    Z.of_nat (length (au_data ref)) < 2 ^ 29 -> Z.of_nat (length (au_data deg)) < 2 ^ 30 -> bk_bands k = num_bands (st_speech st) ->
    (w_size w < length (au_data ref))%nat -> (w_size w < length (au_data deg))%nat ->
    let frames := (1 + (length (au_data ref) - w_size w) / Z.to_nat h)%nat in
    enough_frames (st_speech st) frames -> 1 <= st_radius st -> Z.of_nat frames + st_radius st * Z.of_nat (patch_size (st_speech st)) <= 2 ^ 31 ->
    (st_speech st = true -> Z.of_nat (w_size w) = 4 * h /\ Z.of_nat (w_size w) < 2 ^ 24) ->
    can_predict (st_mapper st) -> (forall n o, st_mapper st = MLattice n o -> n = num_bands (st_speech st)) ->
    no_overflow (st_speech st) k w ref -> no_overflow (st_speech st) k w (scale_to_match_spl ref deg) ->
    (st_no_realign st = false -> Q n0 /\ Forall Q (au_data ref) /\ Forall Q (au_data (scale_to_match_spl ref deg)) /\
       forall x, au_sr x = au_sr ref -> Forall Q (au_data x) -> no_overflow (st_speech st) k w x) ->
    (exists k' d' r, calculate_similarity measure_patch_similarity pf st w ref deg k = (k', d', Ret r) /\ Forall (shaped (num_bands (st_speech st))) (sr_patches r) /\ forall lag msg, finite_value lag -> populate r lag = Ret msg -> finite_numbers msg) \/
    (st_no_realign st = false /\ exists k' d', calculate_similarity measure_patch_similarity pf st w ref deg k = (k', d', Throw)).
  Proof.
    intros K EW EH Hh Hsr D1 D2 Hs Hr Hd Hk Wr Wd frames EF Rad RB HW CP HN CR CD CQ.
    destruct (window_F (au_sr ref) w h ltac:(lia) EW EH Hh) as (_ & h2 & W4). destruct (patch_size_facts (st_speech st)) as (P1 & P2 & P3).
    assert (P4 : (patch_size (st_speech st) <= 60)%nat) by (unfold patch_size; destruct (st_speech st); lia).
    assert (NP : (0 < bk_bands k)%nat) by (rewrite Hk; apply num_bands_pos).
    assert (NQ : Z.of_nat (num_bands (st_speech st)) <= 2 ^ 31) by (unfold num_bands; destruct (st_speech st); vm_compute; discriminate).
    destruct (duration_F h (au_sr ref) ltac:(lia) Hsr D1 D2) as [Ffd Hfd].
    assert (EX : (exists k' d' r, calculate_similarity measure_patch_similarity pf st w ref deg k = (k', d', Ret r) /\ forall lag msg, finite_value lag -> populate r lag = Ret msg -> finite_numbers msg) \/
      (st_no_realign st = false /\ exists k' d', calculate_similarity measure_patch_similarity pf st w ref deg k = (k', d', Throw))).
    { unfold calculate_similarity.
      assert (LD : length (au_data (scale_to_match_spl ref deg)) = length (au_data deg)) by (unfold scale_to_match_spl; cbn [au_data]; apply map_length).
      assert (SD : au_sr (scale_to_match_spl ref deg) = au_sr ref) by (unfold scale_to_match_spl; cbn [au_sr]; exact Hs).
      set (d := scale_to_match_spl ref deg) in *. clearbody d.
      destruct (build_ret (st_speech st) k ref w h EH Hh Wr) as (R1 & B1 & W1 & N1 & C1 & _). pose proof (CR R1 B1) as I1.
      pose proof (build_depends (st_speech st) k k ref w eq_refl eq_refl) as (_ & K1 & K1').
      destruct (build (st_speech st) k ref w) as [k1 rs] eqn:EB1. cbn [fst snd] in B1, K1, K1'. subst rs.
      pose proof (build_depends (st_speech st) k1 k d w K1 K1') as (EBD & _ & _).
      destruct (build_ret (st_speech st) k1 d w h EH Hh ltac:(lia)) as (R2 & B2 & W2 & N2 & C2 & _). rewrite B2 in EBD. pose proof (CD R2 (eq_sym EBD)) as I2. clear EBD.
      pose proof (build_depends (st_speech st) k1 k1 d w eq_refl eq_refl) as (_ & K2 & K2').
      destruct (build (st_speech st) k1 d w) as [k2 ds] eqn:EB2. cbn [fst snd] in B2, K2, K2'. subst ds.
      unfold compare_spectrograms.
      destruct (prepare_ret (sp_data R1) (sp_data R2) W1 W2) as (A & B & EP & WA & WB & [NA CA] & [NB CB]);
        [lia|lia|rewrite C1; apply le_n_S, Nat.le_0_l|rewrite C2; apply le_n_S, Nat.le_0_l|].
      destruct (prepare_rg SL (sp_data R1) (sp_data R2) A B W1 W2 I1 I2 EP) as (RA & RB' & _).
      rewrite EP. cbn [bind]. fold frames in C1. rewrite C1 in CA.
      destruct (indices_return_F (st_speech st) (ncols A) ref w h Hh Wr CA ltac:(lia) ltac:(rewrite CA; exact EF) HW) as (idx & EI & PS & CI).
      rewrite EI. cbn [bind].
      assert (FB : Z.of_nat frames < 2 ^ 30).
      { pose proof (frames_le (length (au_data ref)) (w_size w) h Hh Wr). unfold frames. lia. }
      assert (FD : calc_frame_duration w (au_sr ref) = Ret (PrimFloat.div (F_ofZ h) (F_ofZ (au_sr ref)))).
      { unfold calc_frame_duration. rewrite EH. replace (0 <=? h) with true by lia. reflexivity. }
      rewrite FD. cbn [bind].
      destruct (create_patches_spec (Z.of_nat (patch_size (st_speech st))) A idx) as (refs & ER & _); [lia| |].
      { intros s Hs'. destruct (proj2 (proj2 PS) s Hs'). unfold two64. lia. }
      rewrite ER. cbn [bind].
      assert (CB' : 1 <= Z.of_nat (ncols B) < 2 ^ 31).
      { pose proof (frames_le (length (au_data d)) (w_size w) h Hh ltac:(lia)). rewrite CB, C2. lia. }
      set (fd := PrimFloat.div (F_ofZ h) (F_ofZ (au_sr ref))) in *.
      destruct (matching_F (patch_size (st_speech st)) A B idx refs fd (st_radius st) WA WB RA RB') as (sims & ES & FS); try assumption; try lia.
      rewrite ES. cbn [bind].
      pose proof (create_patches_inv (Z.of_nat (patch_size (st_speech st))) A ltac:(lia) ltac:(lia) idx refs ER) as [L1 L2]. rewrite Nat2Z.id in L2.
      assert (Sh : shapes refs B (patch_size (st_speech st))).
      { constructor; [eapply find_some; exact ES| |lia|lia]. intros q Hq. destruct (L2 q Hq). split; lia. }
      assert (IX : forall i, (i < length idx)%nat -> 0 <= idx_at idx i < 2 ^ 30).
      { intros i Hi. destruct (proj2 (proj2 PS) (idx_at idx i)); [unfold idx_at; apply nth_In, Hi|]. lia. }
      pose proof (sims_counted refs idx B (patch_size (st_speech st)) fd (st_radius st) sims Ffd Hfd ltac:(lia) IX Sh ES) as SS.
      assert (SS' : Forall (counted fd (2 * Z.of_nat (patch_size (st_speech st)) + 1)) sims).
      { eapply Forall_impl; [|exact SS]. intros x. apply counted_weaken. lia. }
      destruct (find_shaped refs idx B (patch_size (st_speech st)) _ (st_radius st) sims ltac:(lia) Sh ES) as [F1 F2].
      replace (nrows B) with (num_bands (st_speech st)) in F2 by lia.
      assert (LB : (2 * Z.of_nat (patch_size (st_speech st)) + 1) * Z.of_nat (length sims) < 2 ^ 31 /\ Z.of_nat (length sims) < 2 ^ 31).
      { destruct (matched_results measure_patch_similarity _ _ _ _ _ _ _ Sh ES) as (off & lost & Q1 & Q2 & Q3 & _).
        pose proof (frames_le (length (au_data ref)) (w_size w) h Hh Wr).
        apply (total_frames _ _ (Z.of_nat (length idx)) (Z.of_nat (ncols A))); lia. }
      destruct LB as [LB LB'].
      assert (FA : (exists k3 al, (if st_no_realign st then (k2, Ret sims) else finely_align measure_patch_similarity pf (st_speech st) w ref d k2 sims) = (k3, Ret al) /\
        al <> [] /\ Forall (shaped (num_bands (st_speech st))) al /\ Forall finite_result al /\ Forall (counted fd (2 * Z.of_nat (patch_size (st_speech st)) + 1)) al /\ length al = length sims) \/
        (st_no_realign st = false /\ exists k3, (if st_no_realign st then (k2, Ret sims) else finely_align measure_patch_similarity pf (st_speech st) w ref d k2 sims) = (k3, Throw))).
      { destruct (st_no_realign st); [left; exists k2, sims; auto 8|].
        destruct (CQ eq_refl) as (Q0 & QR & QD & CA').
        destruct (second_alignment half_exact_F lag_back_F lag_back_neg_F zero_back_F eq_refl pf (st_speech st) (st_radius st) w ref d k k1 k2 R1 R2 A B
          (patch_size (st_speech st)) idx refs fd sims 1 h) as [(al & EL)|[_ X]]; try assumption; try lia; [apply times_F; lia| |].
        - left. destruct (finely_align _ pf (st_speech st) w ref d k2 sims) as [k3 al'] eqn:EQ. cbn [snd] in EL. subst al'. exists k3, al. split; [reflexivity|].
          pose proof (align_shaped pf (st_speech st) w ref d sims k2 k3 al ltac:(lia)) as AS. replace (bk_bands k2) with (num_bands (st_speech st)) in AS by lia.
          destruct (AS F2 EQ) as [AS1 AS2]. split; [destruct al, sims; cbn in AS2; congruence|]. split; [exact AS1|].
          destruct (sims_timed nan_free_F measure_patch_similarity w h (au_sr ref) (patch_size (st_speech st)) (length (au_data ref)) (length (au_data d)) A B idx refs (st_radius st) sims) as [PB TM];
            try lia; try assumption.
          assert (CA2 : forall x sp, au_sr x = au_sr ref -> Forall Q (au_data x) -> snd (build (st_speech st) k x w) = Ret sp -> Forall (fun e => ~ infinite e) (elems (sp_data sp))).
          { intros x sp X1 X2 X3. exact (CA' x X1 X2 sp X3). }
          split; [|split; [|exact AS2]].
          + apply (fine_all_finite SL pf K (st_speech st) w h EH Hh ref d (Z.of_nat (patch_size (st_speech st))) ltac:(lia) ltac:(lia) Hsr SD ltac:(lia) ltac:(lia) Q Q0 QR QD k ltac:(lia) ltac:(lia) CA2 sims k2 k3 al); try assumption; congruence.
          + pose proof (finely_align_spec measure_patch_similarity pf (st_speech st) w ref d sims k2 k3 al EQ) as FF.
            clear - L k w CA2 FF TM SS' K Hh P1 PB Hsr SD Hr Hd LD h2 P3 P4 Ffd Hfd Q0 QR QD NP NQ Hk. induction FF as [|a b la lb Hab Hf IH]; [constructor|].
            inversion TM; subst. inversion SS'; subst. constructor; [|apply IH; assumption].
            eapply (fine_counted pf K (st_speech st) w h Hh ref d (Z.of_nat (patch_size (st_speech st))) ltac:(lia) ltac:(lia) Hsr SD ltac:(lia) ltac:(lia) Q Q0 QR QD k ltac:(lia) ltac:(lia) CA2 Ffd Hfd a b); assumption.
        - right. split; [reflexivity|]. destruct (finely_align _ pf (st_speech st) w ref d k2 sims) as [k3 al'] eqn:EQ. cbn [snd] in X. subst al'. exists k3. reflexivity. }
      destruct FA as [(k3 & al & -> & A1 & A2 & A3 & A4 & A5)|(NR & k3 & ->)].
      - left. cbn [bind]. destruct (summarise_returns_F (pf_f32 pf) (st_mapper st) fd (sp_cfb R1) al (num_bands (st_speech st)) (2 * Z.of_nat (patch_size (st_speech st)) + 1))
          as (r & ER'); try assumption; try lia; try (rewrite A5; assumption). rewrite ER'. eexists _, _, r. split; [reflexivity|].
        intros lag msg FL EM. eapply summary_finite with (P := 2 * Z.of_nat (patch_size (st_speech st)) + 1); [apply num_bands_pos|exact NQ|exact A1|exact A2|exact A3|rewrite A5; exact LB'|clear - P1 P4; lia|exact A4|rewrite A5; exact LB|exact Ffd|apply Rlt_le_trans with (2 := proj1 Hfd); apply bpow_gt_0|exact FL|exact ER'|exact EM].
      - right. split; [exact NR|]. cbn [bind]. eauto. }
    destruct EX as [(k' & d' & r & E & FN)|X]; [left|right; exact X]. exists k', d', r. split; [exact E|]. split; [|exact FN].
    destruct (similarity_inv pf st w ref deg k k' d' r NP ltac:(lia) ltac:(lia) E) as (_ & fd & cfb & ps & S1 & _ & S3 & S4 & _).
    rewrite Hk in S4. apply (summarise_inv (num_bands (st_speech st))) in S1; [|exact S3|exact S4]. destruct S1 as (-> & _). exact S4.
  Qed.

  (** *** a run *)
  Lemma run_finite (w : world F) (m : manager F) ref deg (win : window F) h (Q : F -> Prop) : keeps_length (w_fft w) -> mg_init m = true -> reachable m ->
    au_sr ref = au_sr deg -> 1 <= au_sr ref < 2 ^ 31 -> make_window (au_sr ref) = Ret win -> hop_size win = Some h -> 1 <= h -> h <= au_sr ref -> au_sr ref <= 1000 * h ->
    Z.of_nat (length (au_data ref)) < 2 ^ 29 -> Z.of_nat (length (au_data deg)) < 2 ^ 29 ->
    (w_size win < length (au_data ref))%nat -> (length (au_data ref) + 2 * w_size win < 2 * length (au_data deg))%nat ->
    let frames := (1 + (length (au_data ref) - w_size win) / Z.to_nat h)%nat in
    let st := mg_settings m in
    enough_frames (st_speech st) frames -> 1 <= st_radius st -> Z.of_nat frames + st_radius st * Z.of_nat (patch_size (st_speech st)) <= 2 ^ 31 ->
    (st_speech st = true -> Z.of_nat (w_size win) = 4 * h /\ Z.of_nat (w_size win) < 2 ^ 24) -> can_predict (st_mapper st) ->
    no_overflow (st_speech st) (mg_bank m) win ref ->
    (forall d lag, (if mg_no_global m then Ret (deg, n0) else globally_align (w_fft w) ref deg) = Ret (d, lag) ->
       no_overflow (st_speech st) (mg_bank m) win (scale_to_match_spl ref d) /\
       (st_no_realign st = false -> Q n0 /\ Forall Q (au_data ref) /\ Forall Q (au_data (scale_to_match_spl ref d)) /\
          forall x, au_sr x = au_sr ref -> Forall Q (au_data x) -> no_overflow (st_speech st) (mg_bank m) win x)) ->
    (exists msg, snd (run w m ref deg) = Ret msg /\ finite_numbers msg) \/ (st_no_realign st = false /\ snd (run w m ref deg) = Throw).
  Proof.
    intros K I HR ES Hsr EW EH Hh D1 D2 Lr Ld Wr Wd frames st EF Rad RB HW CP CR CQ.
    pose proof (bank_invariant m HR) as [KB _].
    assert (HN : forall n o, st_mapper st = MLattice n o -> n = num_bands (st_speech st)).
    { intros n o E. pose proof (mapper_invariant m HR) as MF. fold st in MF. unfold mapper_fits in MF. rewrite E in MF. destruct (st_speech st); [|destruct MF; discriminate]. exact MF. }
    assert (G : exists d lag, (if mg_no_global m then Ret (deg, n0) else globally_align (w_fft w) ref deg) = Ret (d, lag) /\
      au_sr d = au_sr ref /\ Z.of_nat (length (au_data d)) < 2 ^ 30 /\ (w_size win < length (au_data d))%nat /\ finite_value lag).
    { destruct (mg_no_global m); [exists deg, n0; split; [reflexivity|]; split; [congruence|]; split; [lia|]; split; [lia|reflexivity]|].
      assert (GA : exists d lag, globally_align (w_fft w) ref deg = Ret (d, lag)).
      { unfold globally_align.
        destruct (envelope_returns (w_fft w) (au_data ref) K ltac:(lia)) as (re & RE & RL).
        destruct (envelope_returns (w_fft w) (au_data deg) K ltac:(lia)) as (de & DE & DL).
        rewrite RE, DE. cbn [bind].
        destruct (lag_returns (w_fft w) re de K ltac:(lia) ltac:(lia)) as (g & G & GB). rewrite G. cbn [bind].
        exact (apply_lag_returns ref deg g half_exact_F ltac:(lia) ltac:(lia) ltac:(lia) ltac:(lia)). }
      destruct GA as (d & lag & GA). exists d, lag. split; [exact GA|].
      apply (globally_align_cases _ _ _ _ _ half_exact_F K) in GA; [|lia|lia].
      split; [destruct GA as [(-> & _)|[(q & _ & _ & _ & -> & _)|(q & _ & _ & _ & -> & _)]]; congruence|].
      assert (FQ : forall z, Z.abs z < 2 ^ 31 -> finite_value (ndiv (nofZ z) (nofZ (au_sr deg)))).
      { intros z Hz. apply (bd_val (31 - 0)). apply bd_div; [lia|apply bd_ofZ; lia|]. change (@nofZ F NumF) with F_ofZ. destruct (FR_ofZ (au_sr deg) ltac:(lia)) as [-> _]. change (bpow radix2 0) with (IZR 1). apply IZR_le. lia. }
      destruct GA as [(-> & ->)|[(q & Q1 & Q2 & Q3 & _ & ->)|(q & Q1 & Q2 & Q3 & _ & ->)]]; [split; [lia|split; [lia|reflexivity]]| |].
      - rewrite Q3, skipn_length. split; [lia|split; [lia|apply FQ; lia]].
      - rewrite Q3, app_length, repeat_length. split; [lia|split; [lia|apply FQ; lia]]. }
    destruct G as (d & lag & EG & SD & LD & WD & FLG). destruct (CQ d lag EG) as [CD CQ'].
    unfold run. rewrite I. cbn [negb]. unfold validate. replace (au_sr ref =? au_sr deg) with true by lia. rewrite EG. rewrite EW. fold st.
    destruct (similarity_F (w_fft w) st win ref d (mg_bank m) h Q K EW EH Hh Hsr D1 D2 SD Lr LD KB Wr WD EF Rad RB HW CP HN CR CD CQ') as [(k' & d' & r & E & SH & FN)|(NR & k' & d' & E)]; rewrite E; cbn [snd bind].
    - left. destruct (populate_returns_F _ r lag SH) as (msg & EM). exists msg. split; [exact EM|exact (FN lag msg FLG EM)].
    - right. split; [exact NR|reflexivity].
  Qed.
End Total.
