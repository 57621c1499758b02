(** A comparison in binary64 whose spectrograms hold no infinity returns (C99): matching and summary. *)
From Coq Require Import ZArith List Bool Reals Lra Lia Floats.
From Coq Require Import ZifyBool ZifyNat Sorting.Sorted.
From Flocq Require Import Core.Core IEEE754.BinarySingleNaN IEEE754.PrimFloat.
From Verif Require Import Base.Res Base.Num Base.NumR Base.NumF Base.Lists Base.Mat Model.Amatrix Model.MiscMath Model.Fft Model.Window
  Model.FilterBank Model.Spectrogram Model.Nsim Model.Alignment Model.PatchCreator Model.Selector Model.MiscAudio Model.Mappers
  Model.Visqol Model.Manager Spec.FftSpec Proofs.DftP Spec.AlignSpec Spec.FineSpec Spec.MatchSpec Spec.AggSpec Spec.ManagerSpec Spec.TotalSpec Spec.UndefinedSpec
  Proofs.ConvP Proofs.B64P Proofs.ScoresP Proofs.FftP Proofs.AlignP Proofs.AlignCasesP Proofs.BankP Proofs.ShapeP Proofs.AggregateP Proofs.AggFloatP
  Proofs.PatchCreatorP Proofs.SelectorP Proofs.MatchP Proofs.MatchAllP Proofs.OptimalP Proofs.SafeP Proofs.MatchCasesP Proofs.MapperP Proofs.MapperRP
  Proofs.ShortP Proofs.FineP Proofs.WindowP Proofs.WindowFP Proofs.FineSafeP Proofs.FineTimesP Proofs.FineRunP Proofs.BoundP Proofs.FiniteNsimP Proofs.FinitePrepP Proofs.ScoresBigP Proofs.FiniteVadP Proofs.TotalP.
Import ListNotations.
Open Scope Z_scope.

(** *** matching *)
Lemma at_bd (M : mat F) r c : wf M -> all_rg 0 4045 M -> (r < nrows M)%nat -> (c < ncols M)%nat -> bd 12 (at_ M r c).
Proof. intros W H Hr Hc. apply (rg_bd 0 4045); try lia. apply at_rg; assumption. Qed.
Lemma zero_bd k : bd k (@n0 F NumF).
Proof. destruct FR_zero as [E Fi]. split; [exact Fi|]. change (@n0 F NumF) with (F_ofZ 0). rewrite E, Rabs_R0. apply bpow_ge_0. Qed.
Lemma frames_bd (M : mat F) o p : wf M -> all_rg 0 4045 M -> cells_bd 12 (frames_at n0 M o p).
Proof.
  intros W H r c Hr Hc. unfold frames_at in *. cbn [nrows ncols tab] in Hr, Hc. rewrite at_tab by assumption. destruct (_ && _) eqn:E; [|apply zero_bd].
  change (mget n0 M r (Z.to_nat (o + Z.of_nat c))) with (at_ M r (Z.to_nat (o + Z.of_nat c))). apply at_bd; try assumption. lia.
Qed.
Lemma part_bd (M P : mat F) a b : wf M -> all_rg 0 4045 M -> m_cols M a b = Ret P -> cells_bd 12 P.
Proof.
  intros W H E. unfold m_cols in E. destruct (_ && _) eqn:C in E; [|discriminate]. injection E as <-. intros r c Hr Hc. cbn [nrows ncols tab] in Hr, Hc. rewrite at_tab by assumption. apply at_bd; try assumption. lia.
Qed.
Lemma parts_bd p (M : mat F) : wf M -> all_rg 0 4045 M -> forall idx refs, create_patches p M idx = Ret refs -> Forall (cells_bd 12) refs.
Proof.
  intros W H. induction idx as [|i t IH]; intros refs E; cbn [create_patches] in E; [injection E as <-; constructor|].
  destruct (m_cols M i _) as [P| | |] eqn:EP; try discriminate. cbn [bind] in E. destruct (create_patches p M t) as [rest| | |] eqn:ER; try discriminate. cbn [bind] in E. injection E as <-.
  constructor; [eapply part_bd; eassumption|apply IH; reflexivity].
Qed.
Lemma scores_bd x : bd 162 x -> good scoresBig x /\ (Rabs (val scoresBig x) <= 2)%R.
Proof. intros [Fi H]. split; [exact Fi|]. cbn. apply (sc_abs _ 2). pose proof (bpow_gt_0 radix2 162). lra. Qed.


Lemma matching_F p (A B : mat F) idx refs fd radius : wf A -> wf B -> all_rg 0 4045 A -> all_rg 0 4045 B ->
  (2 <= p <= 64)%nat -> (1 <= nrows A)%nat -> Z.of_nat (nrows A) <= 2 ^ 31 -> Z.of_nat (ncols A) < 2 ^ 31 -> 1 <= Z.of_nat (ncols B) < 2 ^ 31 -> nrows A = nrows B ->
  patch_starts p (Z.of_nat (ncols A)) idx -> create_patches (Z.of_nat p) A idx = Ret refs ->
  1 <= radius -> Z.of_nat (ncols A) + radius * Z.of_nat p <= 2 ^ 31 ->
  exists l, find_most_optimal_deg_patches measure_patch_similarity refs idx B fd radius = Ret l /\ Forall finite_result l.
Proof.
  intros WA WB RA RB Hp Hn HnB HA HB HR HS HC Hr Hb.
  destruct (creator_shapes p A B idx refs (proj1 Hp) HA HB HR HS HC) as (Sh & Hl & Hsh & Hat & Hinc & H0 & Hpos & Hle).
  pose proof (parts_bd _ A WA RA idx refs HC) as PB.
  assert (M : forall i s, (i < length idx)%nat -> exists r, measure_patch_similarity (ref_at refs i) (frames_at n0 B (Z.of_nat s) p) = Ret r /\ finite_result r).
  { intros i s Hi. destruct (Hsh i Hi) as [R1 R2]. apply measure_bd.
    - rewrite R1. lia.
    - rewrite R2. lia.
    - rewrite R1. exact HR.
    - rewrite R2. reflexivity.
    - rewrite R1. exact HnB.
    - rewrite R2. lia.
    - rewrite Forall_forall in PB. apply PB. unfold ref_at. apply nth_In. lia.
    - apply frames_bd; assumption. }
  destruct (find_safe scoresBig counts_exact_F measure_patch_similarity refs idx B p fd radius Sh Hl) as (l & El); try lia.
  - intros i Hi. specialize (Hat i Hi). lia.
  - intros i s Hi Hs. destruct (M i s Hi) as (r & E & B1). exists r. split; [exact E|]. apply scores_bd, (proj1 B1).
  - exists l. split; [exact El|]. destruct (matched_results measure_patch_similarity _ _ _ _ _ _ _ Sh El) as (off & lost & Q1 & Q2 & Q3 & Q4 & _).
    apply Forall_forall. intros x Hx. apply In_nth_error in Hx. destruct Hx as (i & Ei). assert (Hi : (i < length l)%nat) by (apply nth_error_Some; congruence).
    destruct (Q4 i Hi) as (_ & r & Er & Ex). rewrite Ex in Ei. injection Ei as <-. destruct (M i (off i) ltac:(lia)) as (r' & Er' & FR'). rewrite Er in Er'. injection Er' as <-.
    unfold finite_result in *. destruct (lost i); [|exact FR']. cbn [ps_sim ps_means ps_energy ps_stddevs]. split; [apply zero_bd|]. split; [|exact (proj2 (proj2 FR'))]. unfold m_filled, tab. cbn [elems]. apply Forall_forall. intros z Hz. apply in_flat_map in Hz. destruct Hz as (? & _ & Hz). apply in_map_iff in Hz. destruct Hz as (? & <- & _). apply zero_bd.
Qed.

(** *** the summary *)
Lemma no_nan_F (l : list F) : Forall fin l -> has_nan l = false.
Proof.
  intros H. unfold has_nan. apply not_true_is_false. intros C. apply existsb_exists in C. destruct C as (x & Hx & C). rewrite Forall_forall in H.
  rewrite (fin_self x (H x Hx)) in C. discriminate.
Qed.
Lemma band_fin nb (ms : list (mat F)) b : Forall (column nb) ms -> Forall (fun m => Forall (bd 131) (elems m)) ms -> (b < nb)%nat -> Forall fin (map (band_of b) ms).
Proof.
  intros H1 H2 Hb. apply Forall_forall. intros x Hx. apply in_map_iff in Hx. destruct Hx as (m & <- & Hm). rewrite Forall_forall in H1, H2. specialize (H1 m Hm). specialize (H2 m Hm).
  pose proof (column_elems _ _ H1) as CE. rewrite Forall_forall in H2. apply (bd_fin 131), H2. unfold band_of. apply nth_In. lia.
Qed.
Lemma quantile_band_returns_F nb (ms : list (mat F)) b : ms <> [] -> Forall (column nb) ms -> Forall (fun m => Forall (bd 131) (elems m)) ms -> (b < nb)%nat -> Z.of_nat (length ms) < 2 ^ 31 ->
  exists q, quantile_band ms (ndec 10 2) b = Ret q.
Proof.
  intros H1 H2 HF H3 H4. unfold quantile_band. rewrite (band_values nb) by assumption. cbn [bind]. unfold std_sort. rewrite no_nan_F by (eapply band_fin; eassumption). cbn [bind].
  set (s := isort (map (band_of b) ms)). assert (LS : length s = length ms) by (unfold s; rewrite <- (Permutation.Permutation_length (isort_permT (map (band_of b) ms))), map_length; reflexivity).
  assert (LP : (1 <= length ms)%nat) by (destruct ms; [congruence|cbn; lia]). rewrite LS.
  rewrite tenth_F by exact H4. cbn [bind].
  assert (Z.of_nat (length ms) / 10 <= Z.of_nat (length ms)) by (apply Z.div_le_upper_bound; lia).
  replace (Z.of_nat (length ms) <? Z.max 1 (Z.of_nat (length ms) / 10)) with false by lia. eauto.
Qed.
Lemma quantile_returns_F nb (ps : list (psr F)) : ps <> [] -> Forall (shaped nb) ps -> Forall finite_result ps -> Z.of_nat (length ps) < 2 ^ 31 ->
  exists l, calc_quantile ps (ndec 10 2) = Ret l.
Proof.
  intros H1 H2 HF H3. unfold calc_quantile. destruct ps as [|p0 t]; [congruence|]. set (ps := p0 :: t) in *.
  assert (RR : nrows (ps_means p0) = nb) by (inversion H2 as [|? ? ((_ & RR & _) & _)]; exact RR). rewrite RR.
  assert (FM : Forall (fun m => Forall (bd 131) (elems m)) (map ps_means ps)) by (apply Forall_map; eapply Forall_impl; [|exact HF]; intros x X; exact (proj1 (proj2 X))).
  assert (G : forall is, (forall b, In b is -> (b < nb)%nat) -> exists l, sequence (map (quantile_band (map ps_means ps) (ndec 10 2)) is) = Ret l).
  { induction is as [|b t' IH]; intros H; [cbn; eauto|]. cbn [map sequence].
    destruct (quantile_band_returns_F nb (map ps_means ps) b) as (q & ->); [unfold ps; discriminate|apply shaped_means, H2|exact FM|apply H; now left|rewrite map_length; exact H3|].
    cbn [bind]. destruct IH as (l & ->); [intros x Hx; apply H; now right|]. cbn. eauto. }
  apply G. intros b Hb. apply in_seq in Hb. lia.
Qed.
(** the number of frames of a result *)
Definition counted (fd : F) (P : Z) (x : psr F) : Prop := exists c, frame_count fd x = Ret c /\ 2 <= c <= P.
Lemma contribute_returns_F nb fc (p : psr F) acc : shaped nb p -> length acc = nb -> exists l, contribute fc p acc = Ret l /\ length l = nb.
Proof.
  intros (C1 & C2 & _) Ha. unfold contribute. rewrite (column_elems _ _ C1), (column_elems _ _ C2). destruct C1 as (_ & R1 & _). rewrite R1, Ha, Nat.ltb_irrefl.
  cbn [orb]. eexists. split; [reflexivity|]. rewrite map_length, seq_length. reflexivity.
Qed.
Lemma contribute_all_returns_F nb fd P : 0 <= P -> forall ps tot acc, Forall (shaped nb) ps -> Forall (counted fd P) ps -> length acc = nb ->
  0 <= tot -> tot + P * Z.of_nat (length ps) < 2 ^ 31 ->
  exists tot' l, contribute_all fd ps tot acc = Ret (tot', l) /\ 0 <= tot' <= tot + P * Z.of_nat (length ps).
Proof.
  intros HP. induction ps as [|p t IH]; intros tot acc H1 H2 Ha H3 H4; cbn [contribute_all]; [exists tot, acc; split; [reflexivity|cbn; lia]|].
  inversion H1 as [|? ? S1 S2]; subst. inversion H2 as [|? ? T1 T2]; subst. cbn [length] in *.
  destruct T1 as (c & -> & B). cbn [bind]. unfold fits_int.
  replace ((- 2 ^ 31 <=? tot + c) && (tot + c <? 2 ^ 31) && ((- 2 ^ 31 <=? c - 1) && (c - 1 <? 2 ^ 31))) with true by nia.
  destruct (contribute_returns_F (length acc) c p acc S1 eq_refl) as (a & E & La). rewrite E. cbn [bind].
  destruct (IH (tot + c) a) as (tot' & l & E' & B'); try assumption; try lia; try nia. exists tot', l. split; [exact E'|nia].
Qed.
Lemma stddevs_returns_F nb (ps : list (psr F)) fd P : 0 <= P -> ps <> [] -> Forall (shaped nb) ps -> Forall (counted fd P) ps ->
  P * Z.of_nat (length ps) < 2 ^ 31 -> exists l, calc_stddevs ps fd = Ret l.
Proof.
  intros HP H1 H2 H3 H4. unfold calc_stddevs. destruct ps as [|p0 t]; [congruence|]. set (ps := p0 :: t) in *.
  assert (RR : nrows (ps_means p0) = nb) by (inversion H2 as [|? ? ((_ & RR & _) & _)]; exact RR). rewrite RR.
  rewrite (calc_means_ret nb) by assumption. cbn [bind].
  destruct (contribute_all_returns_F nb fd P HP ps 0 (repeat n0 nb) H2 H3) as (tot & l & -> & B); [apply repeat_length|lia|lia|].
  cbn [bind]. unfold fits_int. replace ((- 2 ^ 31 <=? tot - 1) && (tot - 1 <? 2 ^ 31)) with true by lia. eauto.
Qed.
Lemma predict_returns_F {L : Libm F} f32 (mp : mapper F) nb f1 f2 f3 f4 : can_predict mp -> (forall n o, mp = MLattice n o -> n = nb) ->
  length f1 = nb -> length f2 = nb -> length f3 = nb -> length f4 = nb -> exists q, predict_quality f32 mp f1 f2 f3 f4 = Ret q.
Proof.
  intros C HN L1 L2 L3 L4. destruct mp as [s|[m|]|n [l|]]; cbn [predict_quality can_predict] in *; eauto; try contradiction.
  pose proof (HN n _ eq_refl) as ->. destruct C as [C1 C2].
  destruct (lattice_slots l f32 nb f1 f2 f3 f4 L1 L2 L3 L4) as (env & E & _); [|rewrite E; eauto].
  intros s I. apply in_all_names in I. destruct I as [->|(k & b & Hk & Hb & ->)]; [exact C1|].
  unfold feature_name. apply C2; [exact Hb|]. destruct k as [|[|[|[|k]]]]; try lia; cbn; tauto.
Qed.
Lemma summarise_returns_F {L : Libm F} f32 mp fd cfb (ps : list (psr F)) nb P : 0 <= P -> ps <> [] -> Forall (shaped nb) ps -> Forall finite_result ps -> Forall (counted fd P) ps ->
  P * Z.of_nat (length ps) < 2 ^ 31 -> Z.of_nat (length ps) < 2 ^ 31 -> can_predict mp -> (forall n o, mp = MLattice n o -> n = nb) ->
  exists r, summarise f32 mp fd cfb ps = Ret r.
Proof.
  intros HP H1 H2 HF H3 H4 H5 C HN. unfold summarise. rewrite (calc_means_ret nb) by assumption. cbn [bind].
  destruct (quantile_returns_F nb ps H1 H2 HF H5) as (q & EQ). rewrite EQ. cbn [bind].
  destruct (stddevs_returns_F nb ps fd P HP H1 H2 H3 H4) as (sd & ES). rewrite ES. cbn [bind].
  rewrite (calc_energy_ret nb) by assumption. cbn [bind].
  destruct (predict_returns_F f32 mp nb (map (fun b => average (map (fun p => band_of b (ps_means p)) ps)) (seq 0 nb)) q sd
    (map (fun b => average (map (fun p => band_of b (ps_energy p)) ps)) (seq 0 nb)) C HN) as (m & ->);
    [rewrite map_length, seq_length; reflexivity|exact (proj1 (calc_quantile_len nb ps _ q H1 H2 EQ))|exact (calc_stddevs_len nb ps fd sd H2 ES)|
     rewrite map_length, seq_length; reflexivity|]. cbn [bind]. eauto.
Qed.
Lemma populate_returns_F nb (x : sim_result F) lag : Forall (shaped nb) (sr_patches x) -> exists msg, populate x lag = Ret msg.
Proof.
  intros Fa. unfold populate.
  rewrite (sequence_map_ret populate_patch (fun p => MkPatchMsg (ps_sim p) (ps_ref_start p) (ps_ref_end p) (ps_deg_start p)
       (ps_deg_end p) (elems (ps_means p)))).
  - cbn [bind]. eauto.
  - intros p Hp. rewrite Forall_forall in Fa. destruct (Fa p Hp) as ((W & RR & C) & _). unfold populate_patch, m_to_vector.
    rewrite C. cbn [Nat.ltb Nat.leb bind]. f_equal. f_equal. unfold col_list.
    apply (list_ext _ _ n0); [rewrite map_length, seq_length; unfold wf in W; rewrite W, C; lia|].
    intros i Hi. rewrite map_length, seq_length in Hi. rewrite nth_map_seq by exact Hi. unfold at_, mget. f_equal.
Qed.

(** *** the patches *)
Lemma indices_return_F (speech : bool) nc (ref : audio F) (w : window F) h : 1 <= h -> (w_size w < length (au_data ref))%nat ->
  nc = (1 + (length (au_data ref) - w_size w) / Z.to_nat h)%nat ->
  Z.of_nat (length (au_data ref)) + 1 < 2 ^ 31 -> enough_frames speech nc ->
  (speech = true -> Z.of_nat (w_size w) = 4 * h /\ Z.of_nat (w_size w) < 2 ^ 24) ->
  exists idx, ref_patch_indices speech nc ref w = Ret idx /\ patch_starts (patch_size speech) (Z.of_nat nc) idx /\
    Z.of_nat (patch_size speech) * Z.of_nat (length idx) <= Z.of_nat nc.
Proof.
  intros Hh Hw EN HB EF HS. unfold ref_patch_indices.
  assert (NB : Z.of_nat nc < 2 ^ 31).
  { rewrite EN. pose proof (Nat.div_le_upper_bound (length (au_data ref) - w_size w) (Z.to_nat h) (length (au_data ref) - w_size w) ltac:(lia) ltac:(nia)).
    set (q := ((length (au_data ref) - w_size w) / Z.to_nat h)%nat) in *. lia. }
  destruct speech; cbn [enough_frames patch_size] in *.
  - destruct (HS eq_refl) as [W4 WB]. rewrite W4.
    assert (ENZ : Z.of_nat nc = 1 + (Z.of_nat (length (au_data ref)) - 4 * h) / h).
    { rewrite EN. rewrite Nat2Z.inj_add, Nat2Z.inj_div, Z2Nat.id, Nat2Z.inj_sub by lia. rewrite W4. reflexivity. }
    assert (NH : Z.of_nat nc * (4 * h) <= 2 ^ 31 * 2 ^ 24) by (apply Z.mul_le_mono_nonneg; lia).
    assert (NL : Z.of_nat (length (au_data ref)) * (4 * h) <= 2 ^ 31 * 2 ^ 24) by (apply Z.mul_le_mono_nonneg; lia).
    assert (NT : Z.of_nat nc * (Z.of_nat 20 * (4 * h)) < two64) by (unfold two64; lia).
    assert (P20 : Z.of_nat 20 / 2 - 1 + Z.of_nat 20 <= Z.of_nat nc) by (change (Z.of_nat 20 / 2 - 1 + Z.of_nat 20) with 29; lia).
    assert (NL' : Z.of_nat (length (au_data ref)) * (Z.of_nat 20 * (4 * h)) < 2 ^ 60) by (change (Z.of_nat 20) with 20; lia).
    destruct (vad_inside_F 20 h (au_data ref) (Z.of_nat nc) ltac:(lia) Hh ltac:(change (Z.of_nat 20) with 20; lia) ltac:(lia) ltac:(lia) NL' ENZ P20) as (idx & EI).
    destruct (speech_starts_F 20 h (Z.of_nat nc) (au_data ref) idx ltac:(lia) Hh ltac:(change (Z.of_nat 20) with 20; lia) P20 NT EI) as [SP SG].
    exists idx. split; [exact EI|]. split; [exact SP|].
    apply (grid_count (Z.of_nat 20) 9 idx (Z.of_nat nc)); [lia|exact (proj1 SP)| |lia|destruct SP as (_ & S3 & _); destruct idx; [discriminate|congruence]].
    intros s Hs. pose proof (proj2 (proj2 SP) s Hs) as [_ B]. destruct (SG s Hs) as (k & ->). exists k. split; [reflexivity|exact B].
  - change (Z.of_nat 30) with 30. pose proof (create_ref_patch_indices_closed 30 (Z.of_nat nc) ltac:(lia) ltac:(unfold two64; cbn; lia)) as EI.
    eexists. split; [exact EI|]. pose proof (audio_starts 30 (Z.of_nat nc) _ ltac:(lia) ltac:(unfold two64; lia) EI) as SP. split; [exact SP|].
    apply (grid_count 30 14 _ (Z.of_nat nc)); [lia|exact (proj1 SP)| |lia|].
    + intros s Hs. pose proof (proj2 (proj2 SP) s Hs) as [_ B]. apply in_map_iff in Hs. destruct Hs as (k & <- & _). exists k. split; [reflexivity|exact B].
    + pose proof (patch_number_pos 30 (Z.of_nat nc)). destruct (patch_number 30 (Z.of_nat nc)); [lia|discriminate].
Qed.
(** the duration of a frame lies between a thousandth of a second and a second *)
Lemma duration_F h sr : 1 <= h < 2 ^ 31 -> 1 <= sr < 2 ^ 31 -> h <= sr -> sr <= 1000 * h ->
  let fd := PrimFloat.div (F_ofZ h) (F_ofZ sr) in fin fd /\ (bpow radix2 (-20) <= FR fd <= bpow radix2 20)%R.
Proof.
  intros Hh Hs H1 H2 fd. destruct (FR_ofZ h ltac:(lia)) as [E1 F1]. destruct (FR_ofZ sr ltac:(lia)) as [E2 F2].
  assert (P1 : (1 <= IZR h)%R) by (apply IZR_le; lia). assert (P2 : (1 <= IZR sr)%R) by (apply IZR_le; lia).
  assert (P3 : (IZR h <= IZR sr)%R) by (apply IZR_le; lia). assert (P4 : (IZR sr <= 1000 * IZR h)%R) by (rewrite <- mult_IZR; apply IZR_le; lia).
  assert (Lo : (bpow radix2 (-20) <= rnd (IZR h / IZR sr))%R).
  { rewrite <- (rnd_exact 1 (-20) (bpow radix2 (-20))) at 1 by (lia || (cbn [IZR IPR]; lra)). apply rnd_le. change (bpow radix2 (-20)) with (/ 1048576)%R.
    apply Rmult_le_reg_r with (IZR sr); [lra|]. unfold Rdiv. rewrite Rmult_assoc, Rinv_l by lra. lra. }
  assert (Hi : (rnd (IZR h / IZR sr) <= bpow radix2 20)%R).
  { rewrite <- (rnd_exact 1 20 (bpow radix2 20)) by (lia || (cbn [IZR IPR]; lra)). apply rnd_le. change (bpow radix2 20) with 1048576%R.
    apply Rmult_le_reg_r with (IZR sr); [lra|]. unfold Rdiv. rewrite Rmult_assoc, Rinv_l by lra. lra. }
  destruct (FR_div (F_ofZ h) (F_ofZ sr)) as [E Fi]; [exact F1|rewrite E2; lra| |].
  - rewrite E1, E2. rewrite Rabs_pos_eq by (apply Rle_trans with (2 := Lo), bpow_ge_0). apply Rle_lt_trans with (1 := Hi). unfold fmax. apply bpow_lt. reflexivity.
  - unfold fd. rewrite E, E1, E2. auto.
Qed.
Lemma sims_counted (refs : list (mat F)) idx (S : mat F) p fd radius l : fin fd -> (bpow radix2 (-20) <= FR fd <= bpow radix2 20)%R -> (2 <= p <= 1000)%nat ->
  (forall i, (i < length idx)%nat -> 0 <= idx_at idx i < 2 ^ 30) -> shapes refs S p ->
  find_most_optimal_deg_patches measure_patch_similarity refs idx S fd radius = Ret l -> Forall (counted fd (Z.of_nat p + 1)) l.
Proof.
  intros Ff Hf Hp HI Sh EM. apply Forall_forall. intros x Hx. apply In_nth_error in Hx. destruct Hx as (i & Ei).
  destruct (matched_results measure_patch_similarity _ _ _ _ _ _ _ Sh EM) as (off & lost & F1 & F2 & F3 & F4 & _).
  assert (Hi : (i < length l)%nat) by (apply nth_error_Some; congruence).
  destruct (F4 i Hi) as (_ & r & _ & Ex). rewrite Ex in Ei. injection Ei as <-.
  unfold counted. match goal with |- context[frame_count fd ?t] => set (y := t) end.
  destruct (frame_count_F y fd (idx_at idx i) p Ff Hf (HI i ltac:(lia)) ltac:(lia)) as [E|E]; try (unfold y; destruct (lost i); reflexivity); rewrite E; eexists; (split; [reflexivity|lia]).
Qed.
