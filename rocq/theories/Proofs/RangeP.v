(** The range of every number in a result, in exact arithmetic (C85). *)
From Coq Require Import ZArith List Bool Reals Lra Lia Permutation Sorted.
From Coq Require Import ZifyBool ZifyNat.
From Verif Require Import Base.Res Base.Num Base.NumR Base.Mat Base.Lists Model.Amatrix Model.MiscMath Model.MiscAudio Model.PatchCreator Model.FilterBank Model.Window
  Model.Spectrogram Model.Nsim Model.Fft Model.Alignment Model.Selector Model.Mappers Model.Visqol Model.Manager
  Spec.StatSpec Spec.AggSpec Spec.MatchSpec Spec.ManagerSpec Spec.RangeSpec
  Proofs.RealP Proofs.ConvP Proofs.StatP Proofs.NsimP Proofs.PatchCreatorP Proofs.MatchAllP Proofs.ShapeP Proofs.AggregateP Proofs.AggregateRP Proofs.AggCasesP Proofs.MapperP Proofs.MapperRP Proofs.MapperCasesP.
Import ListNotations.
Open Scope nat_scope.

(** a patch result whose numbers are in range *)
Definition ranged (nb : nat) (p : psr R) : Prop :=
  shaped nb p /\ (-1 <= ps_sim p <= 1)%R /\
  forall b, b < nb -> (-1 <= band_of b (ps_means p) <= 1)%R /\ (0 <= band_of b (ps_stddevs p))%R /\ (0 <= band_of b (ps_energy p))%R.
Definition nonneg (M : mat R) : Prop := forall x, In x (elems M) -> (0 <= x)%R.
Lemma nonneg_at M r c : nonneg M -> (0 <= at_ M r c)%R.
Proof.
  intros H. unfold at_, mget. destruct (Nat.lt_ge_cases (c * nrows M + r) (length (elems M))) as [C|C].
  - apply H, nth_In, C.
  - rewrite nth_overflow by exact C. apply Rle_refl.
Qed.
Lemma prepare_nonneg {L : Libm R} (A B A' B' : mat R) : prepare_spectrograms A B = Ret (A', B') -> nonneg B'.
Proof.
  unfold prepare_spectrograms. intros H. apply bind_ret in H. destruct H as ([A1 B1] & _ & H).
  apply bind_ret in H. destruct H as (ra & _ & H). apply bind_ret in H. destruct H as (rb & EB & H).
  apply (f_equal (fun x => match x with Ret y => snd y | _ => B' end)) in H. cbn [snd] in H. subst B'.
  intros x Hx. unfold subtract_floor, mmap in Hx. cbn [elems] in Hx. apply in_map_iff in Hx. destruct Hx as (y & <- & Hy).
  destruct (min_elem_spec _ _ EB) as [_ M]. pose proof (M y Hy). unfold nmin. cbn [nltb nsub NumR].
  destruct (Rltb_spec rb ra) as [D|D]; lra.
Qed.
Lemma frames_nonneg (M : mat R) o p : nonneg M -> nonneg (frames_at n0 M o p).
Proof.
  intros H x Hx. unfold frames_at, tab in Hx. cbn [elems] in Hx. apply in_flat_map in Hx. destruct Hx as (c & _ & Hx).
  apply in_map_iff in Hx. destruct Hx as (r & <- & _). destruct (_ && _); [apply (nonneg_at M), H|apply Rle_refl].
Qed.
Lemma ranged_shaped nb ps : Forall (ranged nb) ps -> Forall (shaped nb) ps.
Proof. apply Forall_impl. intros p H. apply H. Qed.

Lemma rsum_pos l : (forall x, In x l -> 0 <= x)%R -> (0 <= rsum l)%R.
Proof. induction l as [|x l IH]; intros H; cbn [rsum]; [lra|]. pose proof (H x (or_introl eq_refl)). specialize (IH (fun y Hy => H y (or_intror Hy))). lra. Qed.
Lemma measure_ranged (A B : mat R) r : 0 < nrows A -> 0 < ncols A -> 0 < nrows B -> 0 < ncols B -> nonneg B ->
  measure_patch_similarity A B = Ret r -> ranged (nrows A) r.
Proof.
  intros H1 H2 H3 H4 HN H. pose proof (measure_shaped A B r H1 H2 H3 H4 H) as (E1 & E2 & HS).
  destruct (measure_bounded A B H1 H2 (eq_sym E1) (eq_sym E2)) as (S & p & ES & EP & _ & GM & GS).
  assert (p = r) by congruence. subst p.
  destruct (nsim_map_R A B H1 H2 (eq_sym E1) (eq_sym E2)) as (S' & ES' & _ & R1 & C1 & _).
  assert (S' = S) by congruence. subst S'.
  destruct (measure_R A B S ES ltac:(lia)) as (p & EP' & _ & _ & _ & _ & _ & _ & _ & GD & _).
  assert (p = r) by congruence. subst p.
  split; [exact HS|]. split; [exact GS|]. intros b Hb. split; [exact (GM b Hb)|split].
  - specialize (GD b ltac:(lia)). change (band_of b (ps_stddevs r)) with (at_ (ps_stddevs r) b 0). rewrite GD. apply sqrt_pos.
  - unfold measure_patch_similarity in H. rewrite ES in H. cbn [bind] in H.
    apply (f_equal (fun x => match x with Ret y => ps_energy y | _ => ps_energy r end)) in H. cbn [ps_energy] in H. rewrite <- H.
    change (band_of b (m_mean_rows B)) with (at_ (m_mean_rows B) b 0). unfold m_mean_rows.
    replace (Nat.eqb (ncols B) 0) with false by (symmetry; apply Nat.eqb_neq; lia). rewrite at_tab by lia.
    rewrite vmean_R. unfold Rdiv. apply Rmult_le_pos.
    + apply rsum_pos. intros x Hx. unfold row_list in Hx. apply in_map_iff in Hx. destruct Hx as (c & <- & _). apply (nonneg_at B), HN.
    + apply Rlt_le, Rinv_0_lt_compat, lt_0_INR. rewrite row_list_length. exact H4.
Qed.

Lemma with_times_ranged nb r lost o i fd pd : ranged nb r -> ranged nb (with_times r lost o i fd pd).
Proof.
  intros ((M1 & M2 & M3) & HS & HB). unfold with_times. destruct lost.
  - destruct M1 as (_ & -> & ->). split; [split; [apply column_tab|split; [exact M2|exact M3]]|].
    cbn [ps_sim ps_means ps_stddevs]. split; [change (-1 <= 0 <= 1)%R; lra|]. intros b Hb. split; [|apply HB, Hb].
    change (band_of b (m_filled nb 1 n0)) with (at_ (tab nb 1 (fun _ _ => 0%R)) b 0). rewrite at_tab by lia. lra.
  - split; [split; [exact M1|split; [exact M2|exact M3]]|]. split; [exact HS|exact HB].
Qed.

Lemma find_ranged refs idx (S : mat R) p fd radius l : 0 < nrows S -> nonneg S -> shapes refs S p ->
  find_most_optimal_deg_patches measure_patch_similarity refs idx S fd radius = Ret l -> Forall (ranged (nrows S)) l.
Proof.
  intros HS HN Sh H. destruct (matched_results _ _ _ _ _ _ _ _ Sh H) as (off & lost & H1 & H2 & _ & H3 & _).
  apply Forall_forall. intros x Hx. apply In_nth_error in Hx. destruct Hx as (i & Ei).
  assert (Hi : i < length l) by (apply nth_error_Some; congruence).
  destruct (H3 i Hi) as (Ho & r & Er & Ex). rewrite Ex in Ei. injection Ei as <-.
  destruct (sh_ref _ _ _ Sh (ref_at refs i)) as [R1 R2]; [apply nth_In; lia|].
  pose proof (sh_p _ _ _ Sh).
  apply measure_ranged in Er; [|lia|lia|unfold frames_at; rewrite tab_nrows; lia|unfold frames_at; rewrite tab_ncols; lia|apply frames_nonneg, HN].
  rewrite R1 in Er. apply with_times_ranged, Er.
Qed.

(** *** the number of patches *)
Lemma select_sorted p vad : forall is start l, (0 < p) -> select_blocks p vad start is = Ret l ->
  NoDup l /\ forall x, In x l -> (start <= x)%Z.
Proof.
  induction is as [|i t IH]; intros start l Hp H; cbn [select_blocks] in H.
  - injection H as <-. split; [constructor|intros x []].
  - apply bind_ret in H. destruct H as (b & _ & H). apply bind_ret in H. destruct H as (rest & ER & H).
    destruct (IH _ _ Hp ER) as [D B]. destruct b; injection H as <-.
    + split; [constructor; [intros I; apply B in I; lia|exact D]|]. intros x [<-|I]; [lia|apply B in I; lia].
    + split; [exact D|]. intros x I. apply B in I. lia.
Qed.
Lemma patches_inside {T} {N : Num T} p (M : mat T) : forall idx refs, create_patches p M idx = Ret refs -> (1 <= p < 2 ^ 31)%Z ->
  (Z.of_nat (ncols M) < 2 ^ 31)%Z -> forall i, In i idx -> (0 <= i < Z.of_nat (ncols M))%Z.
Proof.
  induction idx as [|a t IH]; intros refs H Hp Hc i Hi; [destruct Hi|]. cbn [create_patches] in H.
  apply bind_ret in H. destruct H as (P & EP & H). apply bind_ret in H. destruct H as (rest & ER & H).
  destruct Hi as [<-|Hi]; [|exact (IH _ ER Hp Hc i Hi)].
  unfold m_cols in EP. destruct (_ && _) eqn:E; [|discriminate]. lia.
Qed.
Lemma nodup_bound (l : list Z) n : NoDup l -> (forall i, In i l -> (0 <= i < Z.of_nat n)%Z) -> length l <= n.
Proof.
  intros D H. rewrite <- (seq_length n 0), <- (map_length Z.of_nat). apply NoDup_incl_length; [exact D|].
  intros i Hi. apply H in Hi. apply in_map_iff. exists (Z.to_nat i). split; [lia|]. apply in_seq. lia.
Qed.
Lemma indices_nodup {T} {N : Num T} speech n (ref : audio T) w idx : (Z.of_nat n < 2 ^ 31)%Z ->
  ref_patch_indices speech n ref w = Ret idx -> NoDup idx.
Proof.
  intros Hn. unfold ref_patch_indices. destruct speech.
  - unfold vad_create_ref_patch_indices. intros H. apply bind_ret in H. destruct H as (norm & _ & H).
    destruct (ntrunc _); [|discriminate]. destruct (ntrunc _); [|discriminate]. cbv zeta in H.
    apply bind_ret in H. destruct H as (u & _ & H). apply bind_ret in H. destruct H as (vad & _ & H).
    apply select_sorted in H; [apply H|cbn; lia].
  - intros H. destruct (Z_lt_le_dec (Z.of_nat n) 45) as [C|C].
    + unfold create_ref_patch_indices in H. change (Z.of_nat (patch_size false)) with 30%Z in H. change (30 + 30 / 2)%Z with 45%Z in H.
      destruct (_ <? _)%Z eqn:E in H; [discriminate|lia].
    + change (Z.of_nat (patch_size false)) with 30%Z in H. rewrite create_ref_patch_indices_closed in H by (unfold two64; change (30 + 30 / 2)%Z with 45%Z; lia).
      apply (f_equal (fun x => match x with Ret y => y | _ => idx end)) in H. rewrite <- H. apply FinFun.Injective_map_NoDup; [|apply seq_NoDup]. intros a b E. cbv beta in E. lia.
Qed.

Section Range.
  Context {L : Libm R}.
  Lemma align_one_ranged (pf : pffft R) speech w ref deg k r k' r' : 0 < bk_bands k -> ranged (bk_bands k) r ->
    finely_align_one measure_patch_similarity pf speech w ref deg k r = (k', Ret r') ->
    bk_bands k' = bk_bands k /\ ranged (bk_bands k) r'.
  Proof.
    intros Hk Hr. unfold finely_align_one. destruct (is_lost r).
    { intros H. injection H as <- <-. auto. }
    destruct (do ra <- slice ref (ps_ref_start r) (ps_ref_end r); _) as [[[ra da] lag]| | |]; try discriminate.
    destruct (build speech k ra w) as [k1 [rspec| | |]] eqn:E1; try discriminate.
    destruct (build speech k1 da w) as [k2 [dspec| | |]] eqn:E2; cbn [bind]; try discriminate.
    intros H. injection H as <- H. apply bind_ret in H. destruct H as ([A B] & EP & H).
    apply bind_ret in H. destruct H as (new & EM & H). injection H as <-.
    apply build_inv in E1, E2. destruct E1 as (A1 & A2 & _ & A3 & A4 & _). destruct E2 as (B1 & B2 & _ & B3 & B4 & _).
    pose proof (prepare_nonneg _ _ _ _ EP) as NB. apply prepare_inv in EP. apply measure_ranged in EM; try lia; [|exact NB].
    replace (nrows A) with (bk_bands k) in EM by lia.
    split; [congruence|]. unfold merge_result. destruct (nltb _ _); [exact Hr|exact EM].
  Qed.
  Lemma align_ranged (pf : pffft R) speech w ref deg : forall rs k k' l, 0 < bk_bands k -> Forall (ranged (bk_bands k)) rs ->
    finely_align measure_patch_similarity pf speech w ref deg k rs = (k', Ret l) -> Forall (ranged (bk_bands k)) l.
  Proof.
    induction rs as [|r t IH]; intros k k' l Hk Hf H; cbn [finely_align] in H.
    - injection H as <- <-. auto.
    - inversion Hf as [|? ? Hr Ht]; subst.
      destruct (finely_align_one _ pf speech w ref deg k r) as [k1 [r'| | |]] eqn:E1; try discriminate.
      apply align_one_ranged in E1; [|exact Hk|exact Hr]. destruct E1 as (K1 & K3).
      destruct (finely_align _ pf speech w ref deg k1 t) as [k2 y] eqn:E2.
      destruct y as [y| | |]; cbn [bind] in H; try discriminate. injection H as <- <-.
      pose proof (IH k1 k2 y ltac:(lia) ltac:(rewrite K1; exact Ht) E2) as F1.
      constructor; [exact K3|rewrite K1 in F1; exact F1].
  Qed.

  Lemma similarity_ranged (pf : pffft R) st w ref deg k k' deg' r :
    0 < bk_bands k -> (Z.of_nat (length (au_data ref)) + 1 < 2 ^ 31)%Z -> (Z.of_nat (length (au_data deg)) + 1 < 2 ^ 31)%Z ->
    calculate_similarity measure_patch_similarity pf st w ref deg k = (k', deg', Ret r) ->
    exists fd cfb ps, summarise (pf_f32 pf) (st_mapper st) fd cfb ps = Ret r /\ ps <> [] /\ Forall (ranged (bk_bands k)) ps /\
      (Z.of_nat (length ps) < 2 ^ 31)%Z.
  Proof.
    intros Hk Hr Hd. unfold calculate_similarity.
    assert (LD : length (au_data (scale_to_match_spl ref deg)) = length (au_data deg)).
    { unfold scale_to_match_spl. cbn [au_data]. now rewrite map_length. }
    set (d := scale_to_match_spl ref deg) in *. clearbody d.
    destruct (build (st_speech st) k ref w) as [k1 [rs| | |]] eqn:E1; try discriminate.
    destruct (build (st_speech st) k1 d w) as [k2 [ds| | |]] eqn:E2; try discriminate.
    apply build_inv in E1, E2. destruct E1 as (A1 & A2 & A3 & A4 & A5 & _). destruct E2 as (B1 & B2 & _ & B4 & B5 & _).
    unfold compare_spectrograms.
    match goal with |- context [match ?e with Ret _ => _ | Err _ => _ | Throw => _ | Ub => _ end] =>
      destruct e as [[fd sims]| | |] eqn:EC end; try discriminate.
    apply bind_ret in EC. destruct EC as ([A B] & EP & EC). apply bind_ret in EC. destruct EC as (idx & EI & EC).
    apply bind_ret in EC. destruct EC as (fd' & EF & EC). apply bind_ret in EC. destruct EC as (refs & ER & EC).
    apply bind_ret in EC. destruct EC as (sims' & ES & EC). injection EC as -> ->.
    pose proof (prepare_nonneg _ _ _ _ EP) as NB. apply prepare_inv in EP.
    set (p := patch_size (st_speech st)) in *.
    assert (Hp : (1 <= Z.of_nat p < 2 ^ 31)%Z) by (unfold p, patch_size; destruct (st_speech st); lia).
    pose proof (indices_nodup (st_speech st) (ncols A) ref w idx ltac:(lia) EI) as ND.
    pose proof (nodup_bound idx (ncols A) ND (patches_inside (Z.of_nat p) A idx refs ER Hp ltac:(lia))) as LI.
    apply create_patches_inv in ER; [|exact Hp|lia]. destruct ER as [L1 L2]. rewrite Nat2Z.id in L2.
    assert (SH : shapes refs B p).
    { constructor; [eapply find_some; exact ES| |exact Hp|lia]. intros q Hq. destruct (L2 q Hq). split; lia. }
    pose proof (find_ranged refs idx B p fd (st_radius st) sims ltac:(lia) NB SH ES) as F2.
    destruct (find_shaped refs idx B p fd (st_radius st) sims ltac:(lia) SH ES) as [F1 _].
    replace (nrows B) with (bk_bands k) in F2 by lia.
    assert (LS : length sims <= length idx).
    { destruct (matched_results measure_patch_similarity _ _ _ _ _ _ _ SH ES) as (off & lost & _ & _ & Q3 & _). exact Q3. }
    assert (G : forall k3 al, (if st_no_realign st then (k2, Ret sims)
        else finely_align measure_patch_similarity pf (st_speech st) w ref d k2 sims) = (k3, Ret al) ->
        al <> [] /\ Forall (ranged (bk_bands k)) al /\ (Z.of_nat (length al) < 2 ^ 31)%Z).
    { intros k3 al. destruct (st_no_realign st); intros H.
      - injection H as _ <-. split; [assumption|split; [assumption|lia]].
      - pose proof H as H'. apply align_ranged in H; [|lia|replace (bk_bands k2) with (bk_bands k) by congruence; exact F2].
        apply align_shaped in H'; [|lia|replace (bk_bands k2) with (bk_bands k) by congruence; apply ranged_shaped, F2].
        replace (bk_bands k2) with (bk_bands k) in H by congruence. destruct H' as [_ H2]. split; [|split; [exact H|lia]].
        destruct al, sims; cbn in H2; congruence. }
    destruct (if st_no_realign st then _ else _) as [k3 al] eqn:EA. intros H.
    injection H as _ _ H. apply bind_ret in H. destruct H as (ps & -> & H).
    exists fd, (sp_cfb rs), ps. destruct (G k3 ps eq_refl) as (G1 & G2 & G3). auto.
  Qed.
End Range.

Open Scope R_scope.
Lemma mean_in (l : list R) lo hi : l <> [] -> (forall x, In x l -> lo <= x <= hi) -> lo <= mean l <= hi.
Proof.
  intros Hl H. rewrite mean_rsum. destruct (rsum_bound l lo hi H) as [A B].
  assert (0 < INR (length l)) by (apply lt_0_INR; destruct l; [congruence|cbn; lia]).
  split; apply Rmult_le_reg_r with (INR (length l)); try assumption; unfold Rdiv; rewrite Rmult_assoc, Rinv_l by lra; lra.
Qed.
Lemma pooled_pos total (c mu : R) : 0 <= pooled total c mu.
Proof.
  unfold pooled. match goal with |- context [if nltb ?d n0 then _ else _] => generalize d; intros x end.
  destruct (nltb x n0); [apply Rle_refl|apply sqrt_pos].
Qed.
Lemma stddevs_pos (ps : list (psr R)) fd l : calc_stddevs ps fd = Ret l -> forall x, In x l -> 0 <= x.
Proof.
  unfold calc_stddevs. destruct ps as [|p0 t]; [discriminate|]. intros H.
  apply bind_ret in H. destruct H as (mm & _ & H). apply bind_ret in H. destruct H as ([tot c] & _ & H).
  destruct (fits_int _); [|discriminate]. injection H as <-. intros x Hx. apply in_map_iff in Hx. destruct Hx as (b & <- & _).
  apply pooled_pos.
Qed.
Close Scope R_scope.

Section Run.
  Context {L : Libm R}.
  Lemma run_ranged w (m : manager R) ref deg m' deg' msg : reachable m ->
    (Z.of_nat (length (au_data ref)) + 1 < 2 ^ 31)%Z -> (Z.of_nat (length (au_data deg')) + 1 < 2 ^ 31)%Z ->
    run w m ref deg = (m', deg', Ret msg) -> in_range msg.
  Proof.
    intros HR H1 H2 H. destruct (run_inv _ _ _ _ _ _ _ HR H1 H2 H)
      as (_ & _ & win & al & lag & r & fd0 & cfb0 & ps0 & _ & _ & _ & HD & (k' & HC) & _ & HP & _ & _ & _).
    pose proof (proj1 (bank_invariant m HR)) as KB. pose proof (num_bands_pos (st_speech (mg_settings m))) as NP.
    assert (LA : length (au_data deg') = length (au_data al)).
    { rewrite HD. unfold scale_to_match_spl. cbn [au_data]. now rewrite map_length. }
    destruct (similarity_ranged (w_fft w) (mg_settings m) win ref al (mg_bank m) k' deg' r ltac:(rewrite KB; exact NP) H1 ltac:(lia) HC) as (fd & cfb & ps & HS & Hne & HRg & HN).
    rewrite KB in HRg. set (nb := num_bands (st_speech (mg_settings m))) in *.
    pose proof (ranged_shaped _ _ HRg) as Hsh.
    destruct (summarise_inv nb _ _ _ _ _ _ Hne Hsh HS) as (S1 & S2 & S3 & S4 & S5 & S5' & S6 & S6' & S7 & _).
    destruct (populate_inv nb r lag msg) as (P1 & P2 & P3 & P4 & P5 & P6 & P7 & _ & _ & _ & P11); [now rewrite S1|exact HP|].
    rewrite Forall_forall in HRg.
    assert (VB : forall b, b < nb -> forall x, In x (map (fun p => band_of b (ps_means p)) ps) -> (-1 <= x <= 1)%R).
    { intros b Hb x Hx. apply in_map_iff in Hx. destruct Hx as (p & <- & Hp). apply (HRg p Hp), Hb. }
    assert (VN : forall b, map (fun p => band_of b (ps_means p)) ps <> []) by (intros b; destruct ps; [congruence|discriminate]).
    assert (A : Forall a_similarity (sr_fvnsim r)).
    { rewrite S3. apply Forall_map, Forall_forall. intros b Hb. apply in_seq in Hb. unfold a_similarity. rewrite average_mean.
      apply mean_in; [apply VN|apply VB; lia]. }
    assert (D : forall b, b < nb -> a_similarity (nth b (sr_fvnsim10 r) 0%R) /\
        (nth b (sr_fvnsim10 r) 0 <= mean (map (fun p => band_of b (ps_means p)) ps))%R).
    { intros b Hb. set (v := map (fun p => band_of b (ps_means p)) ps) in *.
      destruct (quantile_spec nb ps (sr_fvnsim10 r) b (isort v) Hne Hsh HN S5 Hb (isort_ascending v)) as (Q1 & Q2 & _). fold v in Q2.
      split; [|exact Q2]. rewrite Q1. pose proof (isort_ascending v) as [PV _]. apply mean_in.
      - assert (0 < length (isort v)) by (rewrite <- (Permutation_length PV); unfold v; rewrite map_length; destruct ps; [congruence|cbn; lia]).
        destruct (isort v); [cbn in *; lia|]. unfold decile_size. destruct (Nat.max 1 (length ps / 10)) eqn:E; [lia|]. discriminate.
      - intros x Hx. apply (VB b Hb). fold v. apply (Permutation_in x (Permutation_sym PV)).
        rewrite <- (firstn_skipn (decile_size (length ps)) (isort v)). apply in_or_app. now left. }
    unfold in_range. rewrite P2, P3, P4, P5, P6, P11, S1. split.
    { rewrite S7. unfold a_similarity. rewrite average_mean. apply mean_in.
      - rewrite S3. destruct nb; [lia|discriminate].
      - intros x Hx. rewrite Forall_forall in A. exact (A x Hx). }
    split; [exact A|]. split.
    { apply Forall_forall. intros x Hx. apply (In_nth _ _ 0%R) in Hx. destruct Hx as (b & Hb & <-). apply D. lia. }
    split.
    { apply Forall_map, Forall_forall. intros p Hp. cbn [pm_sim pm_means]. destruct (HRg p Hp) as (HS1 & HS2 & HS3). split; [exact HS2|].
      apply Forall_forall. intros x Hx. apply (In_nth _ _ 0%R) in Hx. destruct Hx as (b & Hb & <-). apply (HS3 b).
      destruct HS1 as (C1 & _). rewrite (column_elems _ _ C1) in Hb. exact Hb. }
    split; [apply Forall_forall; apply (stddevs_pos _ _ _ S6)|]. split.
    { rewrite S4. apply Forall_map, Forall_forall. intros b Hb. apply in_seq in Hb. rewrite average_mean.
      unfold mean. apply Rmult_le_pos; [|apply Rlt_le, Rinv_0_lt_compat, lt_0_INR; rewrite map_length; destruct ps; [congruence|cbn; lia]].
      change (0 <= rsum (map (fun p => band_of b (ps_energy p)) ps))%R. apply rsum_pos. intros x Hx. apply in_map_iff in Hx.
      destruct Hx as (p & <- & Hp). apply (HRg p Hp). lia. }
    assert (G : forall l l' : list R, length l = length l' -> (forall b, b < length l -> (nth b l 0 <= nth b l' 0)%R) -> Forall2 Rle l l').
    { clear. induction l as [|x l IH]; intros [|y l'] HL HN; try discriminate; constructor.
      - exact (HN 0 ltac:(cbn; lia)).
      - apply IH; [cbn in HL; lia|]. intros b Hb. exact (HN (S b) ltac:(cbn; lia)). }
    apply G; [rewrite S3, map_length, seq_length; exact S5'|]. intros b Hb. rewrite S5' in Hb. rewrite S3, nth_map_seq by exact Hb.
    rewrite average_mean. apply D, Hb.
  Qed.

  Lemma clamp_svr (model : svr_model R) f : (1 <= svr_predict model f <= 5)%R.
  Proof.
    unfold svr_predict. generalize (model (convert_observation f)). intros x. unfold nmax, nmin. cbn [nltb nofZ NumR].
    destruct (Rltb_spec x 5) as [A|A]; [destruct (Rltb_spec 1 x) as [B|B]|destruct (Rltb_spec 1 5) as [B|B]]; lra.
  Qed.
  Lemma clamp_speech sc f : (1 <= speech_predict sc f <= 5)%R.
  Proof.
    unfold speech_predict. match goal with |- context [nmul ?a ?b] => generalize (nmul a b); intros x end.
    unfold nmax, nmin, n1. cbn [nltb nofZ NumR].
    destruct (Rltb_spec x 1) as [A|A]; [destruct (Rltb_spec 5 1) as [B|B]|destruct (Rltb_spec 5 x) as [B|B]]; lra.
  Qed.
  Lemma run_score w (m : manager R) ref deg m' deg' msg : (forall n o, st_mapper (mg_settings m) <> MLattice n o) ->
    run w m ref deg = (m', deg', Ret msg) -> (1 <= ms_moslqo msg <= 5)%R.
  Proof.
    intros NL H. apply reported_score in H. destruct H as (mos & P & A & B).
    destruct (nltb (ms_vnsim msg) (ndec 15 2)) eqn:E; [rewrite (A eq_refl); cbn [nofZ NumR]; lra|]. rewrite (B eq_refl). clear A B E.
    destruct (st_mapper (mg_settings m)) as [sc|[f|]|n o]; cbn [predict_quality] in P; [| |discriminate|destruct (NL n o eq_refl)];
      apply (f_equal (fun z => match z with Ret q => q | _ => mos end)) in P; rewrite <- P; [apply clamp_speech|apply clamp_svr].
  Qed.
End Run.
