(** C74: in exact arithmetic a comparison of long enough signals always yields a result. *)
From Coq Require Import ZArith List Bool Reals Lra Lia.
From Coq Require Import ZifyBool ZifyNat Sorting.Sorted.
From Verif Require Import Base.Res Base.Num Base.NumR Base.Lists Base.Mat Model.Amatrix Model.MiscMath Model.Fft Model.Window
  Model.FilterBank Model.Spectrogram Model.Nsim Model.Alignment Model.PatchCreator Model.Selector Model.MiscAudio Model.Mappers
  Model.Visqol Model.Manager Spec.FftSpec Proofs.DftP Spec.AlignSpec Spec.FineSpec Spec.MatchSpec Spec.AggSpec Spec.ManagerSpec Spec.TotalSpec
  Proofs.ConvP Proofs.RealP Proofs.FftP Proofs.AlignP Proofs.AlignCasesP Proofs.BankP Proofs.ShapeP Proofs.AggregateP Proofs.AggregateRP
  Proofs.PatchCreatorP Proofs.SelectorP Proofs.MatchP Proofs.MatchAllP Proofs.MatchCasesP Proofs.VadRP Proofs.MapperP Proofs.MapperRP
  Proofs.ShortP Proofs.FineP Proofs.WindowP Proofs.FineSafeP Proofs.FineTimesP Proofs.FineRunP.
Import ListNotations.
Open Scope Z_scope.
Ltac Zify.zify_post_hook ::= Z.div_mod_to_equations.

(** *** the summary *)
Lemma trunc_bounds x (n : Z) : (0 <= x <= IZR n)%R -> 0 <= Rtrunc x <= n.
Proof.
  intros [H1 H2]. unfold Rtrunc. destruct (Rle_dec 0 x) as [_|C]; [|lra]. destruct (Rfloor_spec x) as [F1 F2].
  split; [|apply le_IZR; lra]. assert (IZR 0 < IZR (Rfloor x + 1))%R as F by (rewrite plus_IZR; lra). apply lt_IZR in F. lia.
Qed.
Lemma ceil_bounds x (n : Z) : (0 <= x <= IZR n)%R -> 0 <= Rceil x <= n.
Proof.
  intros [H1 H2]. unfold Rceil. destruct (Rfloor_spec (- x)) as [F1 F2]. split.
  - assert (IZR (Rfloor (- x)) <= IZR 0)%R as F by lra. apply le_IZR in F. lia.
  - assert (IZR (- n) < IZR (Rfloor (- x) + 1))%R as F by (rewrite plus_IZR, opp_IZR; lra). apply lt_IZR in F. lia.
Qed.
Lemma no_nan_R l : has_nan (l : list R) = false.
Proof.
  unfold has_nan. apply not_true_is_false. intros H. apply existsb_exists in H. destruct H as (x & _ & H).
  cbn [neqb NumR] in H. rewrite (proj2 (Reqb_true x x) eq_refl) in H. discriminate.
Qed.
Lemma insert_length (x : R) l : length (insert x l) = S (length l).
Proof. induction l as [|y t IH]; [reflexivity|]. cbn [insert]. destruct (nltb y x); cbn [length]; [rewrite IH|]; reflexivity. Qed.
Lemma isort_length (l : list R) : length (isort l) = length l.
Proof. induction l as [|x t IH]; [reflexivity|]. cbn [isort fold_right]. rewrite insert_length. cbn [length]. f_equal. exact IH. Qed.

Lemma quantile_band_returns nb (ms : list (mat R)) b : ms <> [] -> Forall (column nb) ms -> (b < nb)%nat -> Z.of_nat (length ms) < 2 ^ 31 ->
  exists q, quantile_band ms (ndec 10 2) b = Ret q.
Proof.
  intros H1 H2 H3 H4. unfold quantile_band. rewrite (band_values nb) by assumption. cbn [bind]. unfold std_sort. rewrite no_nan_R. cbn [bind].
  set (s := isort (map (band_of b) ms)). assert (LS : length s = length ms) by (unfold s; rewrite isort_length, map_length; reflexivity).
  assert (LP : (1 <= length ms)%nat) by (destruct ms; [congruence|cbn; lia]). rewrite LS.
  unfold to_int. cbn [ntrunc NumR].
  assert (B : 0 <= Rtrunc (nmul (nofnat (length ms)) (ndec 10 2)) <= Z.of_nat (length ms)).
  { apply trunc_bounds. rewrite nofnat_INR. cbn [nmul NumR]. unfold ndec. cbn [ndiv nofZ NumR]. rewrite INR_IZR_INZ.
    assert (0 <= IZR (Z.of_nat (length ms)))%R by (apply IZR_le; lia). change (10 ^ 2) with 100. lra. }
  set (k := Rtrunc _) in *. replace ((- 2 ^ 31 <=? k) && (k <? 2 ^ 31)) with true by lia. cbn [bind].
  replace (Z.of_nat (length ms) <? Z.max 1 k) with false by lia. eauto.
Qed.
Lemma quantile_returns nb (ps : list (psr R)) : ps <> [] -> Forall (shaped nb) ps -> Z.of_nat (length ps) < 2 ^ 31 ->
  exists l, calc_quantile ps (ndec 10 2) = Ret l.
Proof.
  intros H1 H2 H3. unfold calc_quantile. destruct ps as [|p0 t]; [congruence|]. set (ps := p0 :: t) in *.
  assert (RR : nrows (ps_means p0) = nb) by (inversion H2 as [|? ? ((_ & RR & _) & _)]; exact RR). rewrite RR.
  assert (F : forall is, (forall b, In b is -> (b < nb)%nat) -> exists l, sequence (map (quantile_band (map ps_means ps) (ndec 10 2)) is) = Ret l).
  { induction is as [|b t' IH]; intros H; [cbn; eauto|]. cbn [map sequence].
    destruct (quantile_band_returns nb (map ps_means ps) b) as (q & ->); [apply map_ne, H1|apply shaped_means, H2|apply H; now left|rewrite map_length; exact H3|].
    cbn [bind]. destruct IH as (l & ->); [intros x Hx; apply H; now right|]. cbn. eauto. }
  apply F. intros b Hb. apply in_seq in Hb. lia.
Qed.

(** the length of the reference part of a result, in frames *)
Definition spans (fd : R) (P : Z) (p : psr R) : Prop := (0 <= ps_ref_end p - ps_ref_start p <= IZR P * fd)%R.
Lemma contribute_returns nb fc (p : psr R) acc : shaped nb p -> length acc = nb -> exists l, contribute fc p acc = Ret l /\ length l = nb.
Proof.
  intros (C1 & C2 & _) Ha. unfold contribute. rewrite (column_elems _ _ C1), (column_elems _ _ C2). destruct C1 as (_ & R1 & _). rewrite R1, Ha, Nat.ltb_irrefl.
  cbn [orb]. eexists. split; [reflexivity|]. rewrite map_length, seq_length. reflexivity.
Qed.
Lemma contribute_all_returns nb fd P : (0 < fd)%R -> 0 <= P -> forall ps tot acc, Forall (shaped nb) ps -> Forall (spans fd P) ps -> length acc = nb ->
  0 <= tot -> tot + P * Z.of_nat (length ps) < 2 ^ 31 ->
  exists tot' l, contribute_all fd ps tot acc = Ret (tot', l) /\ 0 <= tot' <= tot + P * Z.of_nat (length ps).
Proof.
  intros Hf HP. induction ps as [|p t IH]; intros tot acc H1 H2 Ha H3 H4; cbn [contribute_all]; [exists tot, acc; split; [reflexivity|lia]|].
  inversion H1 as [|? ? S1 S2]; subst. inversion H2 as [|? ? T1 T2]; subst. cbn [length] in *.
  unfold frame_count. cbn [nceil NumR].
  assert (B : 0 <= Rceil (ndiv (nsub (ps_ref_end p) (ps_ref_start p)) fd) <= P).
  { apply ceil_bounds. cbn [ndiv nsub NumR]. unfold spans in T1. split.
    - apply Rmult_le_reg_r with fd; [exact Hf|]. unfold Rdiv. rewrite Rmult_assoc, Rinv_l, Rmult_0_l by lra. lra.
    - apply Rmult_le_reg_r with fd; [exact Hf|]. unfold Rdiv. rewrite Rmult_assoc, Rinv_l by lra. lra. }
  set (c := Rceil _) in *. unfold fits_int. replace ((- 2 ^ 31 <=? c) && (c <? 2 ^ 31)) with true by nia. cbn [bind].
  replace ((- 2 ^ 31 <=? tot + c) && (tot + c <? 2 ^ 31) && ((- 2 ^ 31 <=? c - 1) && (c - 1 <? 2 ^ 31))) with true by nia.
  destruct (contribute_returns (length acc) c p acc S1 eq_refl) as (a & E & La). rewrite E. cbn [bind].
  destruct (IH (tot + c) a) as (tot' & l & E' & B'); try assumption; try lia; try nia. exists tot', l. split; [exact E'|nia].
Qed.
Lemma stddevs_returns nb (ps : list (psr R)) fd P : (0 < fd)%R -> 0 <= P -> ps <> [] -> Forall (shaped nb) ps -> Forall (spans fd P) ps ->
  P * Z.of_nat (length ps) < 2 ^ 31 -> exists l, calc_stddevs ps fd = Ret l.
Proof.
  intros Hf HP H1 H2 H3 H4. unfold calc_stddevs. destruct ps as [|p0 t]; [congruence|]. set (ps := p0 :: t) in *.
  assert (RR : nrows (ps_means p0) = nb) by (inversion H2 as [|? ? ((_ & RR & _) & _)]; exact RR). rewrite RR.
  rewrite (calc_means_ret nb) by assumption. cbn [bind].
  destruct (contribute_all_returns nb fd P Hf HP ps 0 (repeat n0 nb) H2 H3) as (tot & l & -> & B); [apply repeat_length|lia|lia|].
  cbn [bind]. unfold fits_int. replace ((- 2 ^ 31 <=? tot - 1) && (tot - 1 <? 2 ^ 31)) with true by lia. eauto.
Qed.

Lemma predict_returns {L : Libm R} f32 (mp : mapper R) nb f1 f2 f3 f4 : can_predict mp -> (forall n o, mp = MLattice n o -> n = nb) ->
  length f1 = nb -> length f2 = nb -> length f3 = nb -> length f4 = nb -> exists q, predict_quality f32 mp f1 f2 f3 f4 = Ret q.
Proof.
  intros C HN L1 L2 L3 L4. destruct mp as [s|[m|]|n [l|]]; cbn [predict_quality can_predict] in *; eauto; try contradiction.
  pose proof (HN n _ eq_refl) as ->. destruct C as [C1 C2].
  destruct (lattice_slots l f32 nb f1 f2 f3 f4 L1 L2 L3 L4) as (env & E & _); [|rewrite E; eauto].
  intros s I. apply in_all_names in I. destruct I as [->|(k & b & Hk & Hb & ->)]; [exact C1|].
  unfold feature_name. apply C2; [exact Hb|]. destruct k as [|[|[|[|k]]]]; try lia; cbn; tauto.
Qed.

Lemma summarise_returns {L : Libm R} f32 mp fd cfb (ps : list (psr R)) nb P : (0 < fd)%R -> 0 <= P -> ps <> [] -> Forall (shaped nb) ps -> Forall (spans fd P) ps ->
  P * Z.of_nat (length ps) < 2 ^ 31 -> Z.of_nat (length ps) < 2 ^ 31 -> can_predict mp -> (forall n o, mp = MLattice n o -> n = nb) ->
  exists r, summarise f32 mp fd cfb ps = Ret r.
Proof.
  intros Hf HP H1 H2 H3 H4 H5 C HN. unfold summarise. rewrite (calc_means_ret nb) by assumption. cbn [bind].
  destruct (quantile_returns nb ps H1 H2 H5) as (q & EQ). rewrite EQ. cbn [bind].
  destruct (stddevs_returns nb ps fd P Hf HP H1 H2 H3 H4) as (sd & ES). rewrite ES. cbn [bind].
  rewrite (calc_energy_ret nb) by assumption. cbn [bind].
  destruct (predict_returns f32 mp nb (map (fun b => average (map (fun p => band_of b (ps_means p)) ps)) (seq 0 nb)) q sd
    (map (fun b => average (map (fun p => band_of b (ps_energy p)) ps)) (seq 0 nb)) C HN) as (m & ->);
    [rewrite map_length, seq_length; reflexivity|exact (proj1 (calc_quantile_len nb ps _ q H1 H2 EQ))|exact (calc_stddevs_len nb ps fd sd H2 ES)|
     rewrite map_length, seq_length; reflexivity|]. cbn [bind]. eauto.
Qed.
Lemma populate_returns nb (x : sim_result R) lag : Forall (shaped nb) (sr_patches x) -> exists msg, populate x lag = Ret msg.
Proof.
  intros F. unfold populate.
  rewrite (sequence_map_ret populate_patch (fun p => MkPatchMsg (ps_sim p) (ps_ref_start p) (ps_ref_end p) (ps_deg_start p)
       (ps_deg_end p) (elems (ps_means p)))).
  - cbn [bind]. eauto.
  - intros p Hp. rewrite Forall_forall in F. destruct (F p Hp) as ((W & RR & C) & _). unfold populate_patch, m_to_vector.
    rewrite C. cbn [Nat.ltb Nat.leb bind]. f_equal. f_equal. unfold col_list.
    apply (list_ext _ _ n0); [rewrite map_length, seq_length; unfold wf in W; rewrite W, C; lia|].
    intros i Hi. rewrite map_length, seq_length in Hi. rewrite nth_map_seq by exact Hi. unfold at_, mget. f_equal.
Qed.

(** *** the patches *)
Lemma grid_count p first (idx : list Z) L : 1 <= p -> StronglySorted Z.lt idx -> (forall s, In s idx -> exists k : nat, s = first + Z.of_nat k * p /\ s + p <= L) ->
  0 <= first -> idx <> [] -> p * Z.of_nat (length idx) <= L.
Proof.
  intros Hp HS HG Hf Hne.
  assert (F : forall l lo, StronglySorted Z.lt l -> (forall s, In s l -> lo <= s /\ (exists k : nat, s = first + Z.of_nat k * p) /\ s + p <= L) -> l <> [] ->
    lo + p * Z.of_nat (length l) <= L).
  { induction l as [|s t IH]; intros lo S1 HI N1; [congruence|]. inversion S1 as [|? ? S2 S3]; subst. cbn [length].
    destruct (HI s (or_introl eq_refl)) as (A1 & (k & A2) & A3). destruct t as [|s' t]; [cbn; lia|].
    assert (B : s + p + p * Z.of_nat (length (s' :: t)) <= L).
    { apply IH; [exact S2| |discriminate]. intros x Hx. destruct (HI x (or_intror Hx)) as (B1 & (k' & B2) & B3). split; [|split; [exists k'; exact B2|exact B3]].
      rewrite Forall_forall in S3. specialize (S3 x Hx). assert (k < k')%nat by nia. nia. }
    cbn [length] in *. lia. }
  specialize (F idx 0 HS). rewrite Z.add_0_l in F. apply F; [|exact Hne]. intros s Hs. destruct (HG s Hs) as (k & A & B).
  split; [nia|]. split; [eauto|exact B].
Qed.

Lemma sorted_map_seq (f : nat -> Z) : (forall i j, (i < j)%nat -> f i < f j) -> forall n a, StronglySorted Z.lt (map f (seq a n)).
Proof.
  intros H. induction n as [|n IH]; intros a; cbn [seq map]; constructor; [apply IH|]. apply Forall_forall. intros x Hx. apply in_map_iff in Hx.
  destruct Hx as (i & <- & Hi). apply in_seq in Hi. apply H. lia.
Qed.

Definition enough_frames (speech : bool) (n : nat) : Prop := if speech then (29 <= n)%nat else (45 <= n)%nat.
Lemma indices_return (speech : bool) nc (ref : audio R) (w : window R) h : 1 <= h -> (w_size w < length (au_data ref))%nat ->
  nc = (1 + (length (au_data ref) - w_size w) / Z.to_nat h)%nat ->
  Z.of_nat (length (au_data ref)) + 1 < 2 ^ 31 -> enough_frames speech nc ->
  (speech = true -> Z.of_nat (w_size w) = 4 * h /\ Z.of_nat (w_size w) < 2 ^ 24) ->
  exists idx, ref_patch_indices speech nc ref w = Ret idx /\ patch_starts (patch_size speech) (Z.of_nat nc) idx /\
    Z.of_nat (patch_size speech) * Z.of_nat (length idx) <= Z.of_nat nc.
Proof.
  intros Hh Hw EN HB EF HS. unfold ref_patch_indices.
  assert (NB : Z.of_nat nc < 2 ^ 31).
  { rewrite EN. pose proof (Nat.div_le_upper_bound (length (au_data ref) - w_size w) (Z.to_nat h) (length (au_data ref) - w_size w) ltac:(lia) ltac:(nia)).
    set (q := ((length (au_data ref) - w_size w) / Z.to_nat h)%nat) in *. lia. }
  destruct speech; cbn [enough_frames patch_size] in *.
  - destruct (HS eq_refl) as [W4 WB]. rewrite W4.
    assert (ENZ : Z.of_nat nc = 1 + (Z.of_nat (length (au_data ref)) - 4 * h) / h).
    { rewrite EN. rewrite Nat2Z.inj_add, Nat2Z.inj_div, Z2Nat.id, Nat2Z.inj_sub by lia. rewrite W4. reflexivity. }
    assert (NH : Z.of_nat nc * (4 * h) <= 2 ^ 31 * 2 ^ 24) by (apply Z.mul_le_mono_nonneg; lia).
    assert (NL : Z.of_nat (length (au_data ref)) * (4 * h) <= 2 ^ 31 * 2 ^ 24) by (apply Z.mul_le_mono_nonneg; lia).
    assert (NT : Z.of_nat nc * (Z.of_nat 20 * (4 * h)) < two64) by (unfold two64; lia).
    destruct (vad_inside_R 20 h (au_data ref) (Z.of_nat nc)) as (idx & EI); try lia; try assumption.
    assert (SP : patch_starts 20 (Z.of_nat nc) idx) by (eapply (speech_starts 20 (Z.of_nat nc)); [lia| | | |exact EI]; [lia|cbn; lia|exact NT]).
    exists idx. split; [exact EI|]. split; [exact SP|].
    destruct (vad_indices_R 20 (Z.of_nat nc) (au_data ref) (4 * h) idx) as (m & _ & _ & _ & S1 & S2 & S3); try lia; try exact EI.
    apply (grid_count (Z.of_nat 20) 9 idx (Z.of_nat nc)); [lia|exact S1| |lia|destruct idx; [discriminate|congruence]].
    intros s Hs. pose proof (proj2 (proj2 SP) s Hs) as [_ B]. apply S2 in Hs. destruct Hs as (k & _ & -> & _). exists k. split; [reflexivity|exact B].
  - change (Z.of_nat 30) with 30. pose proof (create_ref_patch_indices_closed 30 (Z.of_nat nc) ltac:(lia) ltac:(unfold two64; cbn; lia)) as EI.
    eexists. split; [exact EI|]. pose proof (audio_starts 30 (Z.of_nat nc) _ ltac:(lia) ltac:(unfold two64; lia) EI) as SP. split; [exact SP|].
    apply (grid_count 30 14 _ (Z.of_nat nc)); [lia|exact (proj1 SP)| |lia|].
    + intros s Hs. pose proof (proj2 (proj2 SP) s Hs) as [_ B]. apply in_map_iff in Hs. destruct Hs as (k & <- & _). exists k. split; [reflexivity|exact B].
    + pose proof (patch_number_pos 30 (Z.of_nat nc)). destruct (patch_number 30 (Z.of_nat nc)); [lia|discriminate].
Qed.

(** *** the lengths of the reference parts *)
Lemma sims_span (refs : list (mat R)) idx (S : mat R) p fd radius l : (0 <= fd)%R -> shapes refs S p ->
  find_most_optimal_deg_patches measure_patch_similarity refs idx S fd radius = Ret l -> Forall (spans fd (Z.of_nat p)) l.
Proof.
  intros Hf Sh EM. apply Forall_forall. intros x Hx. apply In_nth_error in Hx. destruct Hx as (i & Ei).
  destruct (matched_results measure_patch_similarity _ _ _ _ _ _ _ Sh EM) as (off & lost & F1 & F2 & F3 & F4 & _).
  assert (Hi : (i < length l)%nat) by (apply nth_error_Some; congruence).
  destruct (F4 i Hi) as (_ & r & _ & Ex). rewrite Ex in Ei. injection Ei as <-.
  unfold spans. assert (0 <= IZR (Z.of_nat p))%R by (apply IZR_le; lia).
  assert (0 <= fd * IZR (Z.of_nat p))%R by (apply Rmult_le_pos; lra).
  unfold with_times. destruct (lost i); cbn [ps_ref_start ps_ref_end nadd nmul nofZ NumR]; lra.
Qed.

Lemma realigned_span (pf : pffft R) (ref deg : audio R) h p r r' : keeps_length pf -> 1 <= h -> 20 <= p -> p * h + 2 < 2 ^ 30 -> 1 <= au_sr ref < 2 ^ 31 -> au_sr deg = au_sr ref ->
  Z.of_nat (length (au_data ref)) < 2 ^ 30 -> Z.of_nat (length (au_data deg)) < 2 ^ 30 -> h < 2 ^ 31 -> p < 2 ^ 31 ->
  timed h (au_sr ref) p (Z.of_nat (length (au_data ref))) (Z.of_nat (length (au_data deg))) r ->
  spans (IZR h / IZR (au_sr ref)) p r -> realigned pf ref deg r r' -> spans (IZR h / IZR (au_sr ref)) p r'.
Proof.
  intros K Hh Hp Hph Hsr Hs Hr Hd Hh' Hp' TM SP [->|(NL & _ & ra & da & ra' & da' & lag & E1 & E2 & E3 & _ & _ & E4 & _)]; [exact SP|].
  destruct TM as [C|(i & j & Hi & Hi' & Hj & Hj' & S1 & S2 & S3 & S4)]; [congruence|].
  rewrite S1, S2 in E1. rewrite S3, S4 in E2.
  destruct (slice_close ref 0 h p i ltac:(lia) Hh ltac:(lia)) as (ra0 & Ea & Sa & La & La'); [apply times_R'; lia|exact Hi|lia|nia|].
  rewrite Ea in E1. injection E1 as <-.
  destruct (slice_close deg 0 h p j ltac:(lia) Hh ltac:(lia)) as (da0 & Ed & Sd & Ld & _); [rewrite Hs; apply times_R'; lia|exact Hj|nia|lia|].
  rewrite Hs in Ed. rewrite Ed in E2. injection E2 as <-.
  assert (P20 : 20 * h <= p * h) by nia.
  destruct (align_outcome pf ra0 da0 (half_exact_R _) lag_back_R lag_back_neg_R zero_back_R K) as [(x & y & t & EA & X1 & X2 & X3 & X4)|[EA LT]]; try lia;
    try (rewrite EA in E3; discriminate).
  assert (EQ : x = ra') by congruence. subst x.
  destruct (align_and_truncate_equal pf ra0 da0 ra' da' lag) as (al & G1 & _ & (o & PA) & _); [congruence|unfold two64; lia| |exact E3|].
  { intros d t' G. apply (globally_align_cases pf ra0 da0 d t' (half_exact_R _) K) in G; [|lia|lia]. apply aligned_by_length in G. unfold two64. lia. }
  assert (LE : Z.of_nat (length (au_data ra')) <= p * h).
  { apply (f_equal (@length R)) in PA. rewrite firstn_length, skipn_length in PA. lia. }
  unfold spans. rewrite E4. cbn [nadd ndiv NumR]. rewrite nofnat_INR, INR_IZR_INZ. rewrite X1, Sa. cbn [nofZ NumR].
  assert (0 < IZR (au_sr ref))%R by (apply IZR_lt; lia).
  assert (0 <= IZR (Z.of_nat (length (au_data ra'))) <= IZR p * IZR h)%R by (rewrite <- mult_IZR; split; apply IZR_le; lia).
  assert (0 < / IZR (au_sr ref))%R by (apply Rinv_0_lt_compat; lra).
  unfold Rdiv. split; nra.
Qed.

(** *** a comparison *)
Lemma similarity_returns {L : Libm R} (pf : pffft R) st (w : window R) (ref deg : audio R) k h :
  keeps_length pf -> make_window (au_sr ref) = Ret w -> hop_size w = Some h -> 1 <= h -> 1 <= au_sr ref < 2 ^ 31 -> au_sr deg = au_sr ref ->
  Z.of_nat (length (au_data ref)) < 2 ^ 30 -> Z.of_nat (length (au_data deg)) < 2 ^ 30 -> bk_bands k = num_bands (st_speech st) ->
  (w_size w < length (au_data ref))%nat -> (w_size w < length (au_data deg))%nat ->
  let frames := (1 + (length (au_data ref) - w_size w) / Z.to_nat h)%nat in
  enough_frames (st_speech st) frames -> 1 <= st_radius st -> Z.of_nat frames + st_radius st * Z.of_nat (patch_size (st_speech st)) <= 2 ^ 31 ->
  (st_speech st = true -> Z.of_nat (w_size w) = 4 * h /\ Z.of_nat (w_size w) < 2 ^ 24) ->
  can_predict (st_mapper st) -> (forall n o, st_mapper st = MLattice n o -> n = num_bands (st_speech st)) ->
  exists k' d' r, calculate_similarity measure_patch_similarity pf st w ref deg k = (k', d', Ret r) /\
    Forall (shaped (num_bands (st_speech st))) (sr_patches r).
Proof.
  intros K EW EH Hh Hsr Hs Hr Hd Hk Wr Wd frames EF Rad RB HW CP HN.
  destruct (window_R (au_sr ref) w h ltac:(lia) EW EH Hh) as (_ & h2 & W4). destruct (patch_size_facts (st_speech st)) as (P1 & P2 & P3).
  assert (NP : (0 < bk_bands k)%nat) by (rewrite Hk; apply num_bands_pos).
  assert (EX : exists k' d' r, calculate_similarity measure_patch_similarity pf st w ref deg k = (k', d', Ret r)).
  { unfold calculate_similarity.
    assert (LD : length (au_data (scale_to_match_spl ref deg)) = length (au_data deg)) by (unfold scale_to_match_spl; cbn [au_data]; apply map_length).
    assert (SD : au_sr (scale_to_match_spl ref deg) = au_sr ref) by (unfold scale_to_match_spl; cbn [au_sr]; exact Hs).
    set (d := scale_to_match_spl ref deg) in *. clearbody d.
    destruct (build_ret (st_speech st) k ref w h EH Hh Wr) as (R1 & B1 & W1 & N1 & C1 & _).
    pose proof (build_depends (st_speech st) k k ref w eq_refl eq_refl) as (_ & K1 & K1').
    destruct (build (st_speech st) k ref w) as [k1 rs] eqn:EB1. cbn [fst snd] in B1, K1, K1'. subst rs.
    destruct (build_ret (st_speech st) k1 d w h EH Hh ltac:(lia)) as (R2 & B2 & W2 & N2 & C2 & _).
    pose proof (build_depends (st_speech st) k1 k1 d w eq_refl eq_refl) as (_ & K2 & K2').
    destruct (build (st_speech st) k1 d w) as [k2 ds] eqn:EB2. cbn [fst snd] in B2, K2, K2'. subst ds.
    unfold compare_spectrograms.
    destruct (prepare_ret (sp_data R1) (sp_data R2) W1 W2) as (A & B & EP & _ & _ & [NA CA] & [NB CB]);
      [lia|lia|rewrite C1; apply le_n_S, Nat.le_0_l|rewrite C2; apply le_n_S, Nat.le_0_l|].
    rewrite EP. cbn [bind]. fold frames in C1. rewrite C1 in CA.
    destruct (indices_return (st_speech st) (ncols A) ref w h Hh Wr CA ltac:(lia) ltac:(rewrite CA; exact EF) HW) as (idx & EI & PS & CI).
    rewrite EI. cbn [bind].
    assert (FB : Z.of_nat frames < 2 ^ 31) by lia.
    assert (FD : calc_frame_duration w (au_sr ref) = Ret (IZR h / IZR (au_sr ref))%R).
    { unfold calc_frame_duration. rewrite EH. replace (0 <=? h) with true by lia. reflexivity. }
    rewrite FD. cbn [bind].
    destruct (create_patches_spec (Z.of_nat (patch_size (st_speech st))) A idx) as (refs & ER & _); [lia| |].
    { intros s Hs'. destruct (proj2 (proj2 PS) s Hs'). unfold two64. lia. }
    rewrite ER. cbn [bind].
    assert (CB' : 1 <= Z.of_nat (ncols B) < 2 ^ 31).
    { rewrite CB, C2. pose proof (Nat.div_le_upper_bound (length (au_data d) - w_size w) (Z.to_nat h) (length (au_data d) - w_size w) ltac:(lia) ltac:(nia)).
      set (q := ((length (au_data d) - w_size w) / Z.to_nat h)%nat) in *. lia. }
    destruct (matching_returns_R (st_speech st) A B idx refs (IZR h / IZR (au_sr ref))%R (st_radius st)) as (sims & ES).
    { lia. } { rewrite CA. exact FB. } { exact CB'. } { lia. }
    { replace (if st_speech st then 20%nat else 30%nat) with (patch_size (st_speech st)) by reflexivity. exact PS. }
    { exact ER. } { exact Rad. } { rewrite CA. exact RB. }
    rewrite ES. cbn [bind].
    pose proof (create_patches_inv (Z.of_nat (patch_size (st_speech st))) A ltac:(lia) ltac:(lia) idx refs ER) as [L1 L2]. rewrite Nat2Z.id in L2.
    assert (Sh : shapes refs B (patch_size (st_speech st))).
    { constructor; [eapply find_some; exact ES| |lia|lia]. intros q Hq. destruct (L2 q Hq). split; lia. }
    assert (FDP : (0 < IZR h / IZR (au_sr ref))%R).
    { apply Rdiv_lt_0_compat; apply (IZR_lt 0); lia. }
    pose proof (sims_span refs idx B (patch_size (st_speech st)) _ (st_radius st) sims (Rlt_le _ _ FDP) Sh ES) as SS.
    destruct (find_shaped refs idx B (patch_size (st_speech st)) _ (st_radius st) sims ltac:(lia) Sh ES) as [F1 F2].
    replace (nrows B) with (num_bands (st_speech st)) in F2 by lia.
    destruct (matched_results measure_patch_similarity _ _ _ _ _ _ _ Sh ES) as (_ & _ & _ & LI & _).
    assert (LB : length sims = length sims -> Z.of_nat (patch_size (st_speech st)) * Z.of_nat (length sims) < 2 ^ 31).
    { intros _. destruct (matched_results measure_patch_similarity _ _ _ _ _ _ _ Sh ES) as (off & lost & Q1 & Q2 & Q3 & _). nia. }
    specialize (LB eq_refl).
    assert (FA : exists k3 al, (if st_no_realign st then (k2, Ret sims) else finely_align measure_patch_similarity pf (st_speech st) w ref d k2 sims) = (k3, Ret al) /\
      al <> [] /\ Forall (shaped (num_bands (st_speech st))) al /\ Forall (spans (IZR h / IZR (au_sr ref)) (Z.of_nat (patch_size (st_speech st)))) al /\ length al = length sims).
    { destruct (st_no_realign st); [exists k2, sims; auto|].
      destruct (second_alignment (half_exact_R _) lag_back_R lag_back_neg_R zero_back_R nan_free_R pf (st_speech st) (st_radius st) w ref d k k1 k2 R1 R2 A B
        (patch_size (st_speech st)) idx refs (IZR h / IZR (au_sr ref))%R sims 0 h) as [(al & EL)|[X _]]; try assumption; try lia; [apply times_R'; lia|].
      destruct (finely_align _ pf (st_speech st) w ref d k2 sims) as [k3 al'] eqn:EQ. cbn [snd] in EL. subst al'. exists k3, al. split; [reflexivity|].
      pose proof (align_shaped pf (st_speech st) w ref d sims k2 k3 al ltac:(lia)) as AS. replace (bk_bands k2) with (num_bands (st_speech st)) in AS by lia.
      destruct (AS F2 EQ) as [AS1 AS2]. split; [destruct al, sims; cbn in AS2; congruence|]. split; [exact AS1|]. split; [|exact AS2].
      destruct (sims_timed nan_free_R measure_patch_similarity w h (au_sr ref) (patch_size (st_speech st)) (length (au_data ref)) (length (au_data d)) A B idx refs (st_radius st) sims) as [PB TM];
        try lia; try assumption.
      pose proof (finely_align_spec measure_patch_similarity pf (st_speech st) w ref d sims k2 k3 al EQ) as F.
      clear - F TM SS K Hh P1 PB Hsr SD Hr Hd LD h2 P3. induction F as [|a b la lb Hab Hf IH]; [constructor|].
      inversion TM; subst. inversion SS; subst. constructor; [|apply IH; assumption].
      eapply (realigned_span pf ref d h (Z.of_nat (patch_size (st_speech st))) a b); try assumption; lia. }
    destruct FA as (k3 & al & -> & A1 & A2 & A3 & A4). cbn [bind].
    destruct (summarise_returns (pf_f32 pf) (st_mapper st) (IZR h / IZR (au_sr ref))%R (sp_cfb R1) al (num_bands (st_speech st)) (Z.of_nat (patch_size (st_speech st))))
      as (r & ->); try assumption; try lia; try (rewrite A4; exact LB); eauto. }
  destruct EX as (k' & d' & r & E). exists k', d', r. split; [exact E|].
  destruct (similarity_inv pf st w ref deg k k' d' r NP ltac:(lia) ltac:(lia) E) as (_ & fd & cfb & ps & S1 & _ & S3 & S4 & _).
  rewrite Hk in S4. apply (summarise_inv (num_bands (st_speech st))) in S1; [|exact S3|exact S4]. destruct S1 as (-> & _). exact S4.
Qed.

(** *** a run *)
Lemma run_returns {L : Libm R} (w : world R) (m : manager R) ref deg (win : window R) h : keeps_length (w_fft w) -> mg_init m = true -> reachable m ->
  au_sr ref = au_sr deg -> 1 <= au_sr ref < 2 ^ 31 -> make_window (au_sr ref) = Ret win -> hop_size win = Some h -> 1 <= h ->
  Z.of_nat (length (au_data ref)) < 2 ^ 29 -> Z.of_nat (length (au_data deg)) < 2 ^ 29 ->
  (w_size win < length (au_data ref))%nat -> (length (au_data ref) + 2 * w_size win < 2 * length (au_data deg))%nat ->
  let frames := (1 + (length (au_data ref) - w_size win) / Z.to_nat h)%nat in
  let st := mg_settings m in
  enough_frames (st_speech st) frames -> 1 <= st_radius st -> Z.of_nat frames + st_radius st * Z.of_nat (patch_size (st_speech st)) <= 2 ^ 31 ->
  (st_speech st = true -> Z.of_nat (w_size win) = 4 * h /\ Z.of_nat (w_size win) < 2 ^ 24) -> can_predict (st_mapper st) ->
  exists msg, snd (run w m ref deg) = Ret msg.
Proof.
  intros K I HR ES Hsr EW EH Hh Lr Ld Wr Wd frames st EF Rad RB HW CP.
  pose proof (bank_invariant m HR) as [KB _].
  assert (HN : forall n o, st_mapper st = MLattice n o -> n = num_bands (st_speech st)).
  { intros n o E. pose proof (mapper_invariant m HR) as MF. fold st in MF. unfold mapper_fits in MF. rewrite E in MF. destruct (st_speech st); [|destruct MF; discriminate]. exact MF. }
  assert (G : exists d lag, (if mg_no_global m then Ret (deg, n0) else globally_align (w_fft w) ref deg) = Ret (d, lag) /\
    au_sr d = au_sr ref /\ Z.of_nat (length (au_data d)) < 2 ^ 30 /\ (w_size win < length (au_data d))%nat).
  { destruct (mg_no_global m); [exists deg, n0; split; [reflexivity|]; split; [congruence|]; split; lia|].
    assert (GA : exists d lag, globally_align (w_fft w) ref deg = Ret (d, lag)).
    { unfold globally_align.
      destruct (envelope_returns (w_fft w) (au_data ref) K ltac:(lia)) as (re & RE & RL).
      destruct (envelope_returns (w_fft w) (au_data deg) K ltac:(lia)) as (de & DE & DL).
      rewrite RE, DE. cbn [bind].
      destruct (lag_returns (w_fft w) re de K ltac:(lia) ltac:(lia)) as (g & G & GB). rewrite G. cbn [bind].
      exact (apply_lag_returns ref deg g (half_exact_R _) ltac:(lia) ltac:(lia) ltac:(lia) ltac:(lia)). }
    destruct GA as (d & lag & GA). exists d, lag. split; [exact GA|].
    apply (globally_align_cases _ _ _ _ _ (half_exact_R _) K) in GA; [|lia|lia].
    split; [destruct GA as [(-> & _)|[(q & _ & _ & _ & -> & _)|(q & _ & _ & _ & -> & _)]]; congruence|].
    destruct GA as [(-> & _)|[(q & Q1 & Q2 & Q3 & _)|(q & Q1 & Q2 & Q3 & _)]]; [lia| |].
    - rewrite Q3, skipn_length. lia.
    - rewrite Q3, app_length, repeat_length. lia. }
  destruct G as (d & lag & EG & SD & LD & WD).
  unfold run. rewrite I. cbn [negb]. unfold validate. replace (au_sr ref =? au_sr deg) with true by lia.  rewrite EG. rewrite EW.
  destruct (similarity_returns (w_fft w) st win ref d (mg_bank m) h K EW EH Hh Hsr SD ltac:(lia) LD KB Wr WD EF Rad RB HW CP HN) as (k' & d' & r & E & SH).
  fold st. rewrite E. cbn [snd bind]. exact (populate_returns _ r lag SH).
Qed.

Lemma run_returns_at {L : Libm R} (w : world R) (m : manager R) ref deg : keeps_length (w_fft w) -> mg_init m = true -> reachable m ->
  let sr := au_sr ref in let st := mg_settings m in
  au_sr deg = sr -> 44 <= sr < 2 ^ 31 ->
  Z.of_nat (length (au_data ref)) < 2 ^ 29 -> Z.of_nat (length (au_data deg)) < 2 ^ 29 ->
  Z.of_nat (length (au_data ref)) + 2 * window_samples sr < 2 * Z.of_nat (length (au_data deg)) ->
  (if st_speech st then 29 else 45) <= frames_in sr (length (au_data ref)) ->
  (st_speech st = true -> window_samples sr mod 4 = 0 /\ window_samples sr < 2 ^ 24) ->
  1 <= st_radius st -> frames_in sr (length (au_data ref)) + st_radius st * (if st_speech st then 20 else 30) <= 2 ^ 31 ->
  can_predict (st_mapper st) -> exists msg, snd (run w m ref deg) = Ret msg.
Proof.
  intros K I HR sr st ES Hsr Lr Ld Wd EF HW Rad RB CP. subst sr st.
  assert (W4 : 4 <= window_samples (au_sr ref)) by (unfold window_samples; lia).
  assert (H1 : 1 <= hop_samples (au_sr ref)) by (unfold hop_samples; lia).
  assert (Wr : window_samples (au_sr ref) < Z.of_nat (length (au_data ref))).
  { unfold frames_in in EF. destruct (Z.lt_ge_cases (window_samples (au_sr ref)) (Z.of_nat (length (au_data ref)))); [assumption|].
    assert ((Z.of_nat (length (au_data ref)) - window_samples (au_sr ref)) / hop_samples (au_sr ref) < 1) by (apply Z.div_lt_upper_bound; lia).
    destruct (st_speech _); lia. }
  pose proof (make_window_R (au_sr ref) ltac:(lia)) as EW. fold (window_samples (au_sr ref)) in EW.
  set (win := @MkWin R (Z.to_nat (window_samples (au_sr ref))) kOverlap) in *.
  assert (EH : hop_size win = Some (hop_samples (au_sr ref))).
  { unfold win. rewrite hop_size_R. rewrite Z2Nat.id by lia. reflexivity. }
  assert (EFR : Z.of_nat (1 + (length (au_data ref) - w_size win) / Z.to_nat (hop_samples (au_sr ref))) = frames_in (au_sr ref) (length (au_data ref))).
  { unfold frames_in, win. cbn [w_size]. rewrite Nat2Z.inj_add, Nat2Z.inj_div, Nat2Z.inj_sub by lia. rewrite !Z2Nat.id by lia. reflexivity. }
  apply (run_returns w m ref deg win (hop_samples (au_sr ref)) K I HR); try assumption; try lia.
  - unfold win; cbn [w_size]; lia.
  - unfold win; cbn [w_size]; lia.
  - unfold enough_frames. destruct (st_speech _); lia.
  - rewrite EFR. unfold patch_size. destruct (st_speech _); exact RB.
  - intros S. destruct (HW S) as [W1 W2]. unfold win; cbn [w_size]. rewrite Z2Nat.id by lia. split; [|exact W2]. unfold hop_samples. lia.
Qed.

Lemma run_audio_48000 {L : Libm R} (w : world R) (m : manager R) ref deg : keeps_length (w_fft w) -> mg_init m = true -> reachable m ->
  st_speech (mg_settings m) = false -> st_radius (mg_settings m) = 60 -> can_predict (st_mapper (mg_settings m)) ->
  au_sr ref = 48000 -> au_sr deg = 48000 -> 46080 <= Z.of_nat (length (au_data ref)) < 2 ^ 29 -> Z.of_nat (length (au_data deg)) < 2 ^ 29 ->
  Z.of_nat (length (au_data ref)) + 7680 < 2 * Z.of_nat (length (au_data deg)) -> exists msg, snd (run w m ref deg) = Ret msg.
Proof.
  intros K I HR S Rad CP R1 R2 L1 L2 L3.
  assert (W : window_samples (au_sr ref) = 3840) by (rewrite R1; reflexivity).
  assert (H : hop_samples (au_sr ref) = 960) by (rewrite R1; reflexivity).
  pose proof (run_returns_at w m ref deg K I HR) as X. cbv zeta in X. unfold frames_in in X. rewrite W, H, S, Rad in X.
  apply X; try lia; (intros; discriminate) || exact CP.
Qed.
