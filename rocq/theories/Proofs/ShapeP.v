(** Sizes of everything between the audio and the reported result, for any number type. *)
From Coq Require Import ZArith List Bool Lia ZifyBool ZifyNat.
From Verif Require Import Base.Res Base.Num Base.Lists Base.Mat Model.Amatrix Model.MiscMath Model.PatchCreator
  Model.Window Model.FilterBank Model.Spectrogram Model.Nsim Model.Fft Model.Alignment Model.Selector
  Model.MiscAudio Model.Mappers Model.Visqol Spec.MatchSpec
  Proofs.ConvP Proofs.NsimP Proofs.BankP Proofs.SelectorP Proofs.MatchP Proofs.MatchAllP.
Import ListNotations.
Open Scope nat_scope.
Ltac Zify.zify_post_hook ::= Z.div_mod_to_equations.

Section Shape.
  Context {T : Type} {N : Num T} {L : Libm T}.

  Definition column (n : nat) (M : mat T) : Prop := wf M /\ nrows M = n /\ ncols M = 1.
  (** the three per-band columns of a patch result *)
  Definition shaped (nb : nat) (p : psr T) : Prop :=
    column nb (ps_means p) /\ column nb (ps_stddevs p) /\ column nb (ps_energy p).

  Lemma column_tab n f : column n (tab n 1 f).
  Proof. split; [apply tab_wf|split; reflexivity]. Qed.

  Lemma column_elems n (M : mat T) : column n M -> length (elems M) = n.
  Proof. intros (W & R & C). unfold wf in W. rewrite W, R, C. lia. Qed.

  Lemma bind_ret {A B} (x : res A) (f : A -> res B) b : bind x f = Ret b -> exists a, x = Ret a /\ f a = Ret b.
  Proof. destruct x; cbn [bind]; try discriminate. intros H. eauto. Qed.

  Lemma measure_shaped (A B : mat T) r :
    0 < nrows A -> 0 < ncols A -> 0 < nrows B -> 0 < ncols B ->
    measure_patch_similarity A B = Ret r -> nrows B = nrows A /\ ncols B = ncols A /\ shaped (nrows A) r.
  Proof.
    intros HA HA' HB HB' H.
    destruct (Nat.eq_dec (nrows A) (nrows B)) as [ER|NR];
      [destruct (Nat.eq_dec (ncols A) (ncols B)) as [EC|NC]|].
    - split; [lia|]. split; [lia|]. unfold measure_patch_similarity in H.
      pose proof (nsim_map_spec A B HA HA' ER EC) as E. cbv zeta in E. rewrite E in H. cbn [bind] in H.
      injection H as <-. unfold shaped. cbn [ps_means ps_stddevs ps_energy].
      unfold m_mean_rows, m_stddev_rows. rewrite tab_nrows, tab_ncols, <- ER, <- EC.
      replace (Nat.eqb (ncols A) 0) with false by (symmetry; apply Nat.eqb_neq; lia).
      repeat split; try apply tab_wf.
    - exfalso. unfold measure_patch_similarity in H. apply bind_ret in H. destruct H as (S & E & _).
      unfold nsim_map in E. rewrite !conv2d_spec in E by (try reflexivity; lia). cbn [bind] in E.
      unfold m_pmul at 1 in E. unfold m_zip at 1, same_size in E. rewrite !tab_nrows, !tab_ncols in E.
      rewrite !Nat.eqb_refl in E. cbn [andb bind] in E.
      unfold m_pmul at 1 in E. unfold m_zip at 1, same_size in E. rewrite !tab_nrows, !tab_ncols in E.
      rewrite !Nat.eqb_refl in E. cbn [andb bind] in E.
      unfold m_pmul at 1 in E. unfold m_zip at 1, same_size in E. rewrite !tab_nrows, !tab_ncols in E.
      replace (Nat.eqb (ncols A) (ncols B)) with false in E by lia. rewrite andb_false_r in E. discriminate.
    - exfalso. unfold measure_patch_similarity in H. apply bind_ret in H. destruct H as (S & E & _).
      unfold nsim_map in E. rewrite !conv2d_spec in E by (try reflexivity; lia). cbn [bind] in E.
      unfold m_pmul at 1 in E. unfold m_zip at 1, same_size in E. rewrite !tab_nrows, !tab_ncols in E.
      rewrite !Nat.eqb_refl in E. cbn [andb bind] in E.
      unfold m_pmul at 1 in E. unfold m_zip at 1, same_size in E. rewrite !tab_nrows, !tab_ncols in E.
      rewrite !Nat.eqb_refl in E. cbn [andb bind] in E.
      unfold m_pmul at 1 in E. unfold m_zip at 1, same_size in E. rewrite !tab_nrows, !tab_ncols in E.
      replace (Nat.eqb (nrows A) (nrows B)) with false in E by lia. discriminate.
  Qed.

  Lemma set_col_inv (M M' : mat T) c v : m_set_col M c v = Ret M' -> nrows M' = nrows M /\ ncols M' = ncols M.
  Proof. unfold m_set_col. destruct (_ && _); [|discriminate]. intros H. injection H as <-. split; reflexivity. Qed.

  Lemma raise_frames_inv thr : forall is (A B A' B' : mat T), raise_frames thr (A, B) is = Ret (A', B') ->
    (nrows A' = nrows A /\ ncols A' = ncols A) /\ (nrows B' = nrows B /\ ncols B' = ncols B).
  Proof.
    induction is as [|i t IH]; intros A B A' B' H; cbn [raise_frames] in H.
    - injection H as <- <-. auto.
    - apply bind_ret in H. destruct H as ([A1 B1] & E & H). apply IH in H.
      unfold raise_frame in E. apply bind_ret in E. destruct E as (ma & _ & E).
      apply bind_ret in E. destruct E as (mb & _ & E). apply bind_ret in E. destruct E as (A2 & EA & E).
      apply bind_ret in E. destruct E as (B2 & EB & E). injection E as <- <-.
      apply set_col_inv in EA, EB. lia.
  Qed.

  Lemma prepare_inv (A B A' B' : mat T) : prepare_spectrograms A B = Ret (A', B') ->
    (nrows A' = nrows A /\ ncols A' = ncols A) /\ (nrows B' = nrows B /\ ncols B' = ncols B).
  Proof.
    unfold prepare_spectrograms. intros H. apply bind_ret in H. destruct H as ([A1 B1] & E & H).
    apply bind_ret in H. destruct H as (ra & _ & H). apply bind_ret in H. destruct H as (rb & _ & H).
    injection H as <- <-. apply raise_frames_inv in E. cbn [nrows ncols subtract_floor mmap] in *.
    unfold to_db, raise_floor in E. cbn [nrows ncols mmap] in E. exact E.
  Qed.

  Lemma build_inv speech (k k' : bank T) s w S : build speech k s w = (k', Ret S) ->
    nrows (sp_data S) = bk_bands k /\ 1 <= ncols (sp_data S) <= 1 + length (au_data s) /\
    length (sp_cfb S) = bk_bands k /\ bk_bands k' = bk_bands k /\ bk_min k' = bk_min k /\
    exists h, hop_size w = Some h /\ (1 <= h)%Z /\ w_size w < length (au_data s) /\
      ncols (sp_data S) = 1 + (length (au_data s) - w_size w) / Z.to_nat h.
  Proof.
    intros H. pose proof (build_depends speech k k s w eq_refl eq_refl) as (_ & K1 & K2). rewrite H in K1, K2.
    cbn [fst] in K1, K2.
    destruct (hop_size w) as [h|] eqn:E.
    2:{ unfold build in H. destruct (prepared_bank speech k (au_sr s)). rewrite E in H. discriminate. }
    assert (C : (1 <= h)%Z /\ w_size w < length (au_data s)).
    { unfold build in H. destruct (prepared_bank speech k (au_sr s)). rewrite E in H.
      destruct (Nat.leb _ _) eqn:E1; [discriminate|]. destruct (h <=? 0)%Z eqn:E2; [discriminate|]. lia. }
    destruct C as [C1 C2]. destruct (build_ret speech k s w h E C1 C2) as (S' & E' & _ & R1 & R2 & R3 & _).
    rewrite H in E'. cbn [snd] in E'. injection E' as <-.
    split; [exact R1|]. split.
    { rewrite R2. split; [lia|]. pose proof (Nat.div_le_upper_bound (length (au_data s) - w_size w) (Z.to_nat h) (length (au_data s) - w_size w)).
      assert ((length (au_data s) - w_size w) / Z.to_nat h <= length (au_data s) - w_size w) by (apply H0; nia). lia. }
    split. { rewrite R3, rev_length. apply make_filters_length. }
    split; [exact K1|]. split; [exact K2|]. exists h. auto.
  Qed.

  Lemma create_patches_inv p (S : mat T) : (1 <= p < 2 ^ 31)%Z -> (Z.of_nat (ncols S) < 2 ^ 31)%Z ->
    forall idx refs, create_patches p S idx = Ret refs ->
    length refs = length idx /\ forall ref, In ref refs -> nrows ref = nrows S /\ ncols ref = Z.to_nat p.
  Proof.
    intros Hp Hc. induction idx as [|i t IH]; intros refs H; cbn [create_patches] in H.
    - injection H as <-. split; [reflexivity|]. intros ? [].
    - apply bind_ret in H. destruct H as (P & EP & H). apply bind_ret in H. destruct H as (rest & ER & H).
      injection H as <-. destruct (IH _ ER) as [IL IH']. split; [cbn; lia|]. intros ref [<-|Hin]; [|now apply IH'].
      unfold m_cols in EP. destruct (_ && _) eqn:E; [|discriminate]. injection EP as <-.
      cbn [nrows ncols tab]. split; [reflexivity|]. unfold size_of, two64 in *. lia.
  Qed.

  Lemma find_some measure refs idx (S : mat T) fd radius l :
    find_most_optimal_deg_patches measure refs idx S fd radius = Ret l -> refs <> [].
  Proof. destruct refs; [discriminate|congruence]. Qed.

  Lemma find_shaped refs idx (S : mat T) p fd radius l : 0 < nrows S -> shapes refs S p ->
    find_most_optimal_deg_patches measure_patch_similarity refs idx S fd radius = Ret l ->
    l <> [] /\ Forall (shaped (nrows S)) l.
  Proof.
    intros HS Sh H. destruct (matched_results _ _ _ _ _ _ _ _ Sh H) as (off & lost & H1 & H2 & _ & H3 & _).
    split; [destruct l; [cbn in H1; lia|congruence]|].
    apply Forall_forall. intros x Hx. apply In_nth_error in Hx. destruct Hx as (i & Ei).
    assert (Hi : i < length l) by (apply nth_error_Some; congruence).
    destruct (H3 i Hi) as (Ho & r & Er & Ex). rewrite Ex in Ei. injection Ei as <-.
    destruct (sh_ref _ _ _ Sh (ref_at refs i)) as [R1 R2]; [apply nth_In; lia|].
    pose proof (sh_p _ _ _ Sh).
    apply measure_shaped in Er; [|lia|lia|unfold frames_at; rewrite tab_nrows; lia|unfold frames_at; rewrite tab_ncols; lia].
    destruct Er as (_ & _ & Er). rewrite R1 in Er.
    destruct Er as (M1 & M2 & M3). unfold with_times. destruct (lost i); [|split; [exact M1|split; [exact M2|exact M3]]].
    split; [|split; [exact M2|exact M3]]. cbn [ps_means]. destruct M1 as (_ & -> & ->). apply column_tab.
  Qed.

  Lemma align_one_shaped (pf : pffft T) speech w ref deg k r k' r' : 0 < bk_bands k -> shaped (bk_bands k) r ->
    finely_align_one measure_patch_similarity pf speech w ref deg k r = (k', Ret r') ->
    bk_bands k' = bk_bands k /\ bk_min k' = bk_min k /\ shaped (bk_bands k) r'.
  Proof.
    intros Hk Hr. unfold finely_align_one. destruct (is_lost r).
    { intros H. injection H as <- <-. auto. }
    destruct (do ra <- slice ref (ps_ref_start r) (ps_ref_end r); _) as [[[ra da] lag]| | |]; try discriminate.
    destruct (build speech k ra w) as [k1 [rspec| | |]] eqn:E1; try discriminate.
    destruct (build speech k1 da w) as [k2 [dspec| | |]] eqn:E2; cbn [bind]; try discriminate.
    intros H. injection H as <- H. apply bind_ret in H. destruct H as ([A B] & EP & H).
    apply bind_ret in H. destruct H as (new & EM & H). injection H as <-.
    apply build_inv in E1, E2. destruct E1 as (A1 & A2 & _ & A3 & A4 & _). destruct E2 as (B1 & B2 & _ & B3 & B4 & _).
    apply prepare_inv in EP. apply measure_shaped in EM; try lia.
    destruct EM as (_ & _ & EM). replace (nrows A) with (bk_bands k) in EM by lia.
    split; [congruence|]. split; [congruence|]. unfold merge_result. destruct (nltb _ _); [exact Hr|exact EM].
  Qed.

  Lemma align_one_bank measure (pf : pffft T) speech w ref deg k r :
    bk_bands (fst (finely_align_one measure pf speech w ref deg k r)) = bk_bands k /\
    bk_min (fst (finely_align_one measure pf speech w ref deg k r)) = bk_min k.
  Proof.
    unfold finely_align_one. destruct (is_lost r); [auto|].
    destruct (do ra <- slice ref (ps_ref_start r) (ps_ref_end r); _) as [[[ra da] lag]| | |]; auto.
    pose proof (build_depends speech k k ra w eq_refl eq_refl) as (_ & K1 & K2).
    destruct (build speech k ra w) as [k1 [rspec| | |]]; auto. cbn [fst] in *.
    pose proof (build_depends speech k1 k1 da w eq_refl eq_refl) as (_ & K3 & K4).
    destruct (build speech k1 da w) as [k2 x]. cbn [fst] in *. split; congruence.
  Qed.

  Lemma align_shaped (pf : pffft T) speech w ref deg : forall rs k k' l, 0 < bk_bands k -> Forall (shaped (bk_bands k)) rs ->
    finely_align measure_patch_similarity pf speech w ref deg k rs = (k', Ret l) ->
    Forall (shaped (bk_bands k)) l /\ length l = length rs.
  Proof.
    induction rs as [|r t IH]; intros k k' l Hk Hf H; cbn [finely_align] in H.
    - injection H as <- <-. auto.
    - inversion Hf as [|? ? Hr Ht]; subst.
      destruct (finely_align_one _ pf speech w ref deg k r) as [k1 [r'| | |]] eqn:E1; try discriminate.
      apply align_one_shaped in E1; [|exact Hk|exact Hr]. destruct E1 as (K1 & K2 & K3).
      destruct (finely_align _ pf speech w ref deg k1 t) as [k2 y] eqn:E2.
      destruct y as [y| | |]; cbn [bind] in H; try discriminate. injection H as <- <-.
      destruct (IH k1 k2 y ltac:(lia) ltac:(rewrite K1; exact Ht) E2) as [F1 F2].
      split; [constructor; [exact K3|rewrite K1 in F1; exact F1]|cbn; lia].
  Qed.

  Lemma align_bank measure (pf : pffft T) speech w ref deg : forall rs k,
    bk_bands (fst (finely_align measure pf speech w ref deg k rs)) = bk_bands k /\
    bk_min (fst (finely_align measure pf speech w ref deg k rs)) = bk_min k.
  Proof.
    induction rs as [|r t IH]; intros k; cbn [finely_align]; [auto|].
    pose proof (align_one_bank measure pf speech w ref deg k r) as [K1 K2].
    destruct (finely_align_one measure pf speech w ref deg k r) as [k1 [r'| | |]]; cbn [fst] in *; auto.
    specialize (IH k1). destruct (finely_align measure pf speech w ref deg k1 t) as [k2 y]. cbn [fst] in *.
    destruct IH. split; congruence.
  Qed.

  (** the bank keeps its size and lowest frequency *)
  Lemma similarity_bank measure (pf : pffft T) st w ref deg k k' deg' x :
    calculate_similarity measure pf st w ref deg k = (k', deg', x) -> bk_bands k' = bk_bands k /\ bk_min k' = bk_min k.
  Proof.
    unfold calculate_similarity. set (d := scale_to_match_spl ref deg).
    pose proof (build_depends (st_speech st) k k ref w eq_refl eq_refl) as (_ & K1 & K2).
    destruct (build (st_speech st) k ref w) as [k1 rs]. cbn [fst] in *.
    destruct rs as [rspec| | |]; try (intros H; injection H as <- _ _; split; assumption).
    pose proof (build_depends (st_speech st) k1 k1 d w eq_refl eq_refl) as (_ & K3 & K4).
    destruct (build (st_speech st) k1 d w) as [k2 ds]. cbn [fst] in *.
    destruct ds as [dspec| | |]; try (intros H; injection H as <- _ _; split; congruence).
    unfold compare_spectrograms.
    match goal with |- context [match ?e with Ret _ => _ | Err _ => _ | Throw => _ | Ub => _ end] => destruct e as [[fd sims]| | |] end;
      try (intros H; injection H as <- _ _; split; congruence).
    destruct (st_no_realign st); [intros H; injection H as <- _ _; split; congruence|].
    pose proof (align_bank measure pf (st_speech st) w ref d sims k2) as [K5 K6].
    destruct (finely_align measure pf (st_speech st) w ref d k2 sims) as [k3 al]. cbn [fst] in *.
    intros H; injection H as <- _ _; split; congruence.
  Qed.

  (** everything a successful comparison went through *)
  Lemma similarity_inv (pf : pffft T) st w ref deg k k' deg' r :
    0 < bk_bands k -> (Z.of_nat (length (au_data ref)) + 1 < 2 ^ 31)%Z -> (Z.of_nat (length (au_data deg)) + 1 < 2 ^ 31)%Z ->
    calculate_similarity measure_patch_similarity pf st w ref deg k = (k', deg', Ret r) ->
    deg' = scale_to_match_spl ref deg /\
    exists fd cfb ps, summarise (pf_f32 pf) (st_mapper st) fd cfb ps = Ret r /\
      length cfb = bk_bands k /\ ps <> [] /\ Forall (shaped (bk_bands k)) ps /\
      calc_frame_duration w (au_sr ref) = Ret fd.
  Proof.
    intros Hk Hr Hd. unfold calculate_similarity.
    assert (LD : length (au_data (scale_to_match_spl ref deg)) = length (au_data deg)).
    { unfold scale_to_match_spl. cbn [au_data]. now rewrite map_length. }
    set (d := scale_to_match_spl ref deg) in *. clearbody d.
    destruct (build (st_speech st) k ref w) as [k1 [rs| | |]] eqn:E1; try discriminate.
    destruct (build (st_speech st) k1 d w) as [k2 [ds| | |]] eqn:E2; try discriminate.
    apply build_inv in E1, E2. destruct E1 as (A1 & A2 & A3 & A4 & A5 & _). destruct E2 as (B1 & B2 & _ & B4 & B5 & _).
    unfold compare_spectrograms.
    match goal with |- context [match ?e with Ret _ => _ | Err _ => _ | Throw => _ | Ub => _ end] =>
      destruct e as [[fd sims]| | |] eqn:EC end; try discriminate.
    apply bind_ret in EC. destruct EC as ([A B] & EP & EC). apply bind_ret in EC. destruct EC as (idx & EI & EC).
    apply bind_ret in EC. destruct EC as (fd' & EF & EC). apply bind_ret in EC. destruct EC as (refs & ER & EC).
    apply bind_ret in EC. destruct EC as (sims' & ES & EC). injection EC as -> ->.
    apply prepare_inv in EP.
    set (p := patch_size (st_speech st)) in *.
    assert (Hp : (1 <= Z.of_nat p < 2 ^ 31)%Z) by (unfold p, patch_size; destruct (st_speech st); lia).
    apply create_patches_inv in ER; [|exact Hp|lia]. destruct ER as [L1 L2]. rewrite Nat2Z.id in L2.
    destruct (find_shaped refs idx B p fd (st_radius st) sims) as [F1 F2]; [lia| |exact ES|].
    { constructor; [eapply find_some; exact ES| |exact Hp|lia]. intros q Hq. destruct (L2 q Hq). split; lia. }
    replace (nrows B) with (bk_bands k) in F2 by lia.
    assert (G : forall k3 al, (if st_no_realign st then (k2, Ret sims)
        else finely_align measure_patch_similarity pf (st_speech st) w ref d k2 sims) = (k3, Ret al) ->
        al <> [] /\ Forall (shaped (bk_bands k)) al).
    { intros k3 al. destruct (st_no_realign st); intros H.
      - injection H as _ <-. split; assumption.
      - apply align_shaped in H; [|lia|replace (bk_bands k2) with (bk_bands k) by congruence; exact F2].
        destruct H as [H1 H2]. replace (bk_bands k2) with (bk_bands k) in H1 by congruence. split; [|exact H1].
        destruct al, sims; cbn in H2; congruence. }
    destruct (if st_no_realign st then _ else _) as [k3 al] eqn:EA. intros H.
    assert (Hd' : deg' = d) by (injection H; congruence).
    injection H as _ _ H. apply bind_ret in H. destruct H as (ps & -> & H).
    split; [exact Hd'|]. exists fd, (sp_cfb rs), ps. destruct (G k3 ps eq_refl) as [G1 G2]. auto.
  Qed.
End Shape.
