(** Restatements for Props/ResultProps.v (C12-C16, C66, C67). *)
From Coq Require Import ZArith List Bool Reals Lra Lia ZifyBool ZifyNat Sorted Permutation Floats.
From Verif Require Import Base.Res Base.Num Base.NumR Base.NumF Base.Lists Base.Mat Model.Amatrix Model.MiscMath Model.PatchCreator Model.RmsVad Model.SignalFilter Model.Spectrogram Model.FilterBank
  Model.Window Model.Nsim Model.Fft Model.Alignment Model.Selector Model.MiscAudio Model.Mappers Model.Visqol Model.Manager
  Spec.StatSpec Spec.AggSpec Spec.MatchSpec Spec.ManagerSpec
  Proofs.RealP Proofs.StatP Proofs.NsimP Proofs.ShapeP Proofs.MatchAllP Proofs.MatchCasesP Proofs.AggregateP Proofs.AggregateRP Proofs.AggFloatP
  Proofs.B64P Proofs.AlignCasesP.
Import ListNotations.
Open Scope nat_scope.

(** *** C12 *)
Section Any.
  Context {T : Type} {N : Num T} {L : Libm T}.
  Lemma run_summary w (m : manager T) ref deg m' deg' msg : run w m ref deg = (m', deg', Ret msg) ->
    exists r fd cfb ps lag, summarise (pf_f32 (w_fft w)) (st_mapper (mg_settings m)) fd cfb ps = Ret r /\ populate r lag = Ret msg.
  Proof.
    unfold run. destruct (negb _); [discriminate|]. destruct (validate _ _); [discriminate|].
    destruct (if mg_no_global m then _ else _) as [[d lag]| | |]; try discriminate.
    destruct (make_window (au_sr ref)) as [win| | |]; try discriminate.
    destruct (calculate_similarity _ _ _ _ _ _ _) as [[k d'] r] eqn:E. intros H.
    assert (HP : (do x <- r; populate x lag) = Ret msg) by congruence. clear H.
    apply bind_ret in HP. destruct HP as (r0 & -> & HP). exists r0.
    unfold calculate_similarity in E. destruct (build _ _ ref win) as [k1 rs]. destruct rs as [rs| | |]; try discriminate.
    destruct (build _ k1 _ win) as [k2 ds]. destruct ds as [ds| | |]; try discriminate.
    destruct (compare_spectrograms _ _ _ _ _ _ _ _ _) as [k3 r1] eqn:E1. assert (r1 = Ret r0) as -> by congruence. clear E.
    unfold compare_spectrograms in E1. destruct (bind _ _) as [[fd sims]| | |]; try discriminate.
    destruct (if st_no_realign _ then _ else _) as [k4 al].
    assert (HS : (do ps <- al; summarise (pf_f32 (w_fft w)) (st_mapper (mg_settings m)) fd (sp_cfb rs) ps) = Ret r0) by congruence.
    apply bind_ret in HS. destruct HS as (ps & _ & HS). exists fd, (sp_cfb rs), ps, lag. split; [exact HS|exact HP].
  Qed.
  Lemma reported_score w (m : manager T) ref deg m' deg' msg : run w m ref deg = (m', deg', Ret msg) ->
    exists mos, predict_quality (pf_f32 (w_fft w)) (st_mapper (mg_settings m)) (ms_fvnsim msg) (ms_fvnsim10 msg)
                                (ms_fstdnsim msg) (ms_fvdegenergy msg) = Ret mos /\
      (nltb (ms_vnsim msg) (ndec 15 2) = true -> ms_moslqo msg = nofZ 1) /\
      (nltb (ms_vnsim msg) (ndec 15 2) = false -> ms_moslqo msg = mos).
  Proof.
    intros H. apply run_summary in H. destruct H as (r & fd & cfb & ps & lag & HS & HP).
    unfold populate in HP. apply bind_ret in HP. destruct HP as (v & _ & HP).
    match type of HP with Ret ?a = Ret ?b => assert (E : a = b) by congruence end. clear HP. rewrite <- E.
    cbn [ms_fvnsim ms_fvnsim10 ms_fstdnsim ms_fvdegenergy ms_vnsim ms_moslqo]. clear E msg v.
    unfold summarise in HS.
    apply bind_ret in HS. destruct HS as (a1 & _ & HS). apply bind_ret in HS. destruct HS as (a2 & _ & HS).
    apply bind_ret in HS. destruct HS as (a3 & _ & HS). apply bind_ret in HS. destruct HS as (a4 & _ & HS).
    apply bind_ret in HS. destruct HS as (mos & EM & HS).
    match type of HS with Ret ?a = Ret ?b => assert (E : a = b) by congruence end. clear HS. rewrite <- E.
    cbn [sr_fvnsim sr_fvnsim10 sr_fstdnsim sr_fvdegenergy sr_vnsim sr_moslqo]. exists mos. split; [exact EM|].
    unfold alter_for_extremes. destruct (nltb _ _); split; intros; try discriminate; reflexivity.
  Qed.

  (** *** C13 *)
  Lemma message_means w (m : manager T) ref deg m' deg' msg : reachable m ->
    (Z.of_nat (length (au_data ref)) + 1 < 2 ^ 31)%Z -> (Z.of_nat (length (au_data deg')) + 1 < 2 ^ 31)%Z ->
    run w m ref deg = (m', deg', Ret msg) ->
    let bands := if st_speech (mg_settings m) then 21 else 32 in
    length (ms_fvnsim msg) = bands /\ length (ms_fvnsim10 msg) = bands /\ length (ms_fstdnsim msg) = bands /\
    length (ms_fvdegenergy msg) = bands /\ length (ms_cfb msg) = bands /\
    ms_patches msg <> [] /\ (forall p, In p (ms_patches msg) -> length (pm_means p) = bands) /\
    ms_vnsim msg = average (ms_fvnsim msg) /\
    forall b, b < bands -> nth b (ms_fvnsim msg) n0 = average (map (fun p => nth b (pm_means p) n0) (ms_patches msg)).
  Proof.
    intros HR H1 H2 H bands. destruct (run_inv _ _ _ _ _ _ _ HR H1 H2 H)
      as (_ & _ & win & al & lag & r & fd & cfb & ps & _ & _ & _ & _ & _ & HS & HP & Lc & Hne & Hsh).
    change (num_bands (st_speech (mg_settings m))) with bands in *.
    destruct (summarise_inv bands _ _ _ _ _ _ Hne Hsh HS) as (S1 & S2 & S3 & S4 & S5 & S6 & S7 & S8 & S9 & _).
    destruct (populate_inv bands r lag msg) as (P1 & P2 & P3 & P4 & P5 & P6 & P7 & _ & _ & _ & P11); [now rewrite S1|exact HP|].
    rewrite P2, P3, P4, P5, P6, P7, P11, S1. split; [rewrite S3, map_length, seq_length; reflexivity|].
    split; [exact S6|]. split; [exact S8|]. split; [rewrite S4, map_length, seq_length; reflexivity|].
    split; [rewrite S2; exact Lc|]. split; [destruct ps; [congruence|discriminate]|]. split.
    - intros p Hp. apply in_map_iff in Hp. destruct Hp as (x & <- & Hx). cbn [pm_means].
      rewrite Forall_forall in Hsh. apply column_elems. apply (Hsh x Hx).
    - split; [exact S9|]. intros b Hb. rewrite S3, nth_map_seq by exact Hb. rewrite map_map. reflexivity.
  Qed.
End Any.

Section Any2.
  Context {T : Type} {N : Num T} {L : Libm T}.
  Lemma result_energy pf st win ref deg (k : bank T) k' deg' r :
    0 < bk_bands k ->
    (Z.of_nat (length (au_data ref)) + 1 < 2 ^ 31)%Z -> (Z.of_nat (length (au_data deg)) + 1 < 2 ^ 31)%Z ->
    calculate_similarity measure_patch_similarity pf st win ref deg k = (k', deg', Ret r) ->
    length (sr_fvdegenergy r) = bk_bands k /\
    forall b, b < bk_bands k ->
      nth b (sr_fvdegenergy r) n0 = average (map (fun p => nth b (elems (ps_energy p)) n0) (sr_patches r)).
  Proof.
    intros HK H1 H2 H. apply similarity_inv in H; [|assumption..]. destruct H as (_ & fd & cfb & ps & HS & _ & Hne & Hsh & _).
    destruct (summarise_inv _ _ _ _ _ _ _ Hne Hsh HS) as (S1 & _ & _ & S4 & _). rewrite S1, S4. split.
    - now rewrite map_length, seq_length.
    - intros b Hb. now rewrite nth_map_seq by exact Hb.
  Qed.
End Any2.

(** *** C14 *)
Lemma decile_total nb (ps : list (psr R)) : ps <> [] ->
  (forall p, In p ps -> ncols (ps_means p) = 1 /\ nrows (ps_means p) = nb /\ length (elems (ps_means p)) = nb) ->
  (Z.of_nat (length ps) < 2 ^ 31)%Z ->
  exists l, calc_quantile ps (ndec 10 2) = Ret l /\ length l = nb.
Proof.
  intros Hne H Hlen. unfold calc_quantile. destruct ps as [|p0 t] eqn:E; [congruence|]. rewrite <- E in *.
  assert (nrows (ps_means p0) = nb) as -> by (apply (H p0); rewrite E; now left).
  assert (C : Forall (column nb) (map ps_means ps)).
  { apply Forall_map, Forall_forall. intros p Hp. destruct (H p Hp) as (A & B & D). unfold column, wf. repeat split; lia. }
  assert (X : forall b, b < nb -> exists v, quantile_band (map ps_means ps) (ndec 10 2) b = Ret v).
  { intros b Hb. unfold quantile_band. rewrite (band_values nb) by assumption. cbn [bind]. unfold std_sort. rewrite no_nan. cbn [bind].
    set (v := map _ _). assert (Lv : length (isort v) = length ps).
    { rewrite <- (Permutation_length (proj1 (isort_ascending v))). unfold v. now rewrite !map_length. }
    rewrite Lv, tenth. unfold fits_int. assert (0 < length ps) by (rewrite E; cbn; lia).
    assert (0 <= Z.of_nat (length ps) / 10 <= Z.of_nat (length ps))%Z by (split; [apply Z.div_pos; lia|apply Z.div_le_upper_bound; lia]).
    destruct (_ && _) eqn:C1 in |- *; [|exfalso; lia]. cbn [bind].
    destruct (_ <? _)%Z eqn:C2 in |- *; [exfalso; lia|]. eexists. reflexivity. }
  exists (map (fun b => match quantile_band (map ps_means ps) (ndec 10 2) b with Ret v => v | _ => n0 end) (seq 0 nb)).
  split; [|now rewrite map_length, seq_length]. apply sequence_map_ret. intros b Hb. apply in_seq in Hb.
  destruct (X b ltac:(lia)) as [v ->]. reflexivity.
Qed.

Definition plain (nb : nat) (ps : list (psr R)) : Prop :=
  forall p, In p ps -> ncols (ps_means p) = 1 /\ nrows (ps_means p) = nb /\ length (elems (ps_means p)) = nb.

Lemma calc_quantile_means {T} {N : Num T} (ps ps' : list (psr T)) q : map ps_means ps = map ps_means ps' ->
  calc_quantile ps q = calc_quantile ps' q.
Proof.
  intros E. destruct ps as [|p t], ps' as [|p' t']; cbn [map] in E; try discriminate; [reflexivity|].
  unfold calc_quantile. cbn [map]. rewrite E. injection E as -> _. reflexivity.
Qed.
(** only the means matter; give the other columns any shape *)
Definition means_only (p : psr R) : psr R := MkPsr (ps_means p) (ps_means p) (ps_means p) 0%R 0%R 0%R 0%R 0%R.
Lemma means_only_eq ps : map ps_means (map means_only ps) = map ps_means ps.
Proof. rewrite map_map. reflexivity. Qed.
Lemma means_only_shaped nb ps : plain nb ps -> Forall (shaped nb) (map means_only ps).
Proof.
  intros H. apply Forall_map, Forall_forall. intros p Hp. destruct (H p Hp) as (A & B & C).
  unfold shaped, means_only, column, wf. cbn. repeat split; lia.
Qed.

Lemma decile_summary nb (ps : list (psr R)) : ps <> [] -> plain nb ps -> (Z.of_nat (length ps) < 2 ^ 31)%Z ->
  exists l, calc_quantile ps (ndec 10 2) = Ret l /\ length l = nb /\
    forall b, b < nb ->
      let v := map (fun p => nth b (elems (ps_means p)) 0%R) ps in
      (forall s, ascending v s -> nth b l 0%R = mean (firstn (decile_size (length ps)) s)) /\
      (nth b l 0 <= mean v)%R /\
      (length ps < 20 -> In (nth b l 0%R) v /\ forall x, In x v -> (nth b l 0 <= x)%R).
Proof.
  intros Hne H Hlen. destruct (decile_total nb ps Hne H Hlen) as (l & E & Ll). exists l. split; [exact E|]. split; [exact Ll|].
  intros b Hb v. set (ps' := map means_only ps).
  assert (E' : calc_quantile ps' (ndec 10 2) = Ret l) by (rewrite <- E; apply calc_quantile_means, means_only_eq).
  assert (Lp : length ps' = length ps) by (unfold ps'; apply map_length).
  assert (Q : forall s, ascending v s -> nth b l 0%R = mean (firstn (decile_size (length ps)) s) /\ (nth b l 0 <= mean v)%R /\
    (length ps < 20 -> In (nth b l 0%R) v /\ forall x, In x v -> (nth b l 0 <= x)%R)).
  { intros s Hs. pose proof (quantile_spec nb ps' l b s) as Q. rewrite Lp in Q. cbv zeta in Q.
    replace (map (fun p : psr R => band_of b (ps_means p)) ps') with v in Q by (unfold ps', v; rewrite map_map; reflexivity).
    apply Q; auto; [unfold ps'; now apply map_ne|now apply means_only_shaped]. }
  destruct (Q _ (isort_ascending v)) as (_ & Q2 & Q3). split; [|split; assumption]. intros s Hs. apply (Q s Hs).
Qed.
Lemma decile_order nb (ps ps' : list (psr R)) : ps <> [] -> plain nb ps -> Permutation ps ps' ->
  calc_quantile ps (ndec 10 2) = calc_quantile ps' (ndec 10 2).
Proof.
  intros Hne H P. rewrite <- (calc_quantile_means _ _ _ (means_only_eq ps)), <- (calc_quantile_means _ _ _ (means_only_eq ps')).
  apply (quantile_perm nb); [now apply map_ne|now apply means_only_shaped|]. now apply Permutation_map.
Qed.

Lemma message_decile {L : Libm PrimFloat.float} w (m : manager PrimFloat.float) ref deg m' deg' msg : reachable m ->
  (Z.of_nat (length (au_data ref)) + 1 < 2 ^ 31)%Z -> (Z.of_nat (length (au_data deg')) + 1 < 2 ^ 31)%Z ->
  run w m ref deg = (m', deg', Ret msg) -> (Z.of_nat (length (ms_patches msg)) < 2 ^ 31)%Z ->
  forall b, b < (if st_speech (mg_settings m) then 21 else 32) ->
  exists s, Permutation (map (fun p => nth b (pm_means p) n0) (ms_patches msg)) s /\
    Sorted (fun x y => nltb y x = false) s /\
    nth b (ms_fvnsim10 msg) n0 = average (firstn (decile_size (length (ms_patches msg))) s).
Proof.
  intros HR H1 H2 H HN b Hb. destruct (run_inv _ _ _ _ _ _ _ HR H1 H2 H)
    as (_ & _ & win & al & lag & r & fd & cfb & ps & _ & _ & _ & _ & _ & HS & HP & Lc & Hne & Hsh).
  set (bands := if st_speech (mg_settings m) then 21 else 32) in *.
  change (num_bands (st_speech (mg_settings m))) with bands in *.
  destruct (summarise_inv bands _ _ _ _ _ _ Hne Hsh HS) as (S1 & S2 & S3 & S4 & S5 & _).
  destruct (populate_inv bands r lag msg) as (P1 & P2 & P3 & P4 & P5 & P6 & P7 & _ & _ & _ & P11); [now rewrite S1|exact HP|].
  rewrite P4. rewrite P11, S1, map_length in HN |- *. rewrite map_map. cbn [pm_means].
  apply (quantile_F bands ps _ b Hne Hsh HN S5 Hb).
Qed.

(** *** C15, C16 *)
Lemma pooled_frames fd nb xs : (0 < fd)%R -> xs <> [] -> Forall (fun x => pooled_ok fd x nb) xs ->
  (2 <= count_all xs < 2 ^ 31)%Z ->
  (forall b, b < nb -> mean (map (fun x => mean (nth b (fst (snd x)) [])) xs) =
                       mean (concat (map (fun x => nth b (fst (snd x)) []) xs))) ->
  exists l, calc_stddevs (map fst xs) fd = Ret l /\ length l = nb /\
    forall b, b < nb -> nth b l 0%R = stddev (concat (map (fun x => nth b (fst (snd x)) []) xs)).
Proof.
  intros Hf Hne H Hc HM. destruct (stddevs_pooled fd nb xs Hf Hne H Hc) as (l & E & Ll & G). exists l. split; [exact E|].
  split; [exact Ll|]. intros b Hb. specialize (G b Hb). cbv zeta in G. rewrite (HM b Hb) in G. rewrite G.
  set (all := concat _). rewrite (Rminus_diag_eq (mean all * mean all)) by reflexivity.
  rewrite Rmult_0_r, Rplus_0_r. rewrite Rmax_right by apply variance_nonneg. reflexivity.
Qed.

Lemma zip_frames fd nb (ps : list (psr R)) frames :
  Forall2 (fun p f => exists len, 1 <= len /\ of_frames p f len /\ length f = nb /\ (ps_ref_end p - ps_ref_start p = INR len * fd)%R) ps frames ->
  exists xs, map fst xs = ps /\ (forall b, map (fun x => nth b (fst (snd x)) []) xs = map (fun f => nth b f []) frames) /\
    Forall (fun x => pooled_ok fd x nb) xs.
Proof.
  induction 1 as [|p f ps frames (len & H1 & H2 & H3 & H4) _ (xs & I1 & I2 & I3)].
  - exists []. repeat split; constructor.
  - exists ((p, (f, len)) :: xs). cbn [map fst snd]. split; [now rewrite I1|]. split; [intros b; now rewrite I2|].
    constructor; [|exact I3]. repeat split; auto; apply H2.
Qed.

Lemma pooled_any fd nb (ps : list (psr R)) frames : (0 < fd)%R -> ps <> [] -> 0 < nb ->
  Forall2 (fun p f => exists len, 1 <= len /\ of_frames p f len /\ length f = nb /\ (ps_ref_end p - ps_ref_start p = INR len * fd)%R) ps frames ->
  (2 <= Z.of_nat (length (concat (map (fun f => nth 0 f []) frames))) < 2 ^ 31)%Z ->
  (forall b, b < nb -> mean (map (fun f => mean (nth b f [])) frames) = mean (concat (map (fun f => nth b f []) frames))) ->
  exists l, calc_stddevs ps fd = Ret l /\ length l = nb /\
    forall b, b < nb -> nth b l 0%R = stddev (concat (map (fun f => nth b f []) frames)).
Proof.
  intros Hf Hne Hb H Hc HM. destruct (zip_frames fd nb ps frames H) as (xs & <- & E & HX).
  assert (Hx : xs <> []) by (intros ->; now apply Hne).
  rewrite <- E, (length_concat_frames xs nb fd 0 HX Hb) in Hc.
  destruct (pooled_frames fd nb xs Hf Hx HX Hc) as (l & L1 & L2 & L3).
  - intros b Hb'. rewrite E, <- (HM b Hb'). f_equal.
    rewrite <- (map_map (fun f => nth b f []) mean), <- E, map_map. reflexivity.
  - exists l. split; [exact L1|]. split; [exact L2|]. intros b Hb'. rewrite <- E. now apply L3.
Qed.

Lemma pooled_same fd nb len (ps : list (psr R)) frames : (0 < fd)%R -> ps <> [] -> 0 < nb -> 1 <= len ->
  Forall2 (fun p f => of_frames p f len /\ length f = nb /\ (ps_ref_end p - ps_ref_start p = INR len * fd)%R) ps frames ->
  (2 <= Z.of_nat (length ps * len) < 2 ^ 31)%Z ->
  exists l, calc_stddevs ps fd = Ret l /\ length l = nb /\
    forall b, b < nb -> nth b l 0%R = stddev (concat (map (fun f => nth b f []) frames)).
Proof.
  intros Hf Hne Hb Hl H Hc.
  assert (LF : length ps = length frames) by (clear - H; induction H; cbn; congruence).
  assert (HF : forall f b, In f frames -> b < nb -> length (nth b f []) = len).
  { clear - H. induction H as [|p f ps frames (H1 & H2 & _) _ IH]; intros g b Hg Hb; [destruct Hg|].
    destruct Hg as [<-|Hg]; [|now apply IH]. destruct H1 as [H1 _]. apply H1, nth_In. lia. }
  apply pooled_any; auto.
  - clear - H Hl. induction H as [|p f ps frames (A & B & C) _ IH]; constructor; [|exact IH]. exists len. auto.
  - assert (E : length (concat (map (fun f => nth 0 f []) frames)) = length frames * len).
    { clear - HF Hb. induction frames as [|f t IH]; [reflexivity|]. cbn [map concat length]. rewrite app_length, IH.
      - rewrite (HF f 0) by (auto; now left). lia.
      - intros g b Hg. apply HF. now right. }
    rewrite E, <- LF. exact Hc.
  - intros b Hb'. rewrite <- (map_map (fun f => nth b f []) mean). apply (same_length_mean _ len Hl).
    + destruct frames; [|discriminate]. destruct ps; [congruence|discriminate].
    + intros x Hx. apply in_map_iff in Hx. destruct Hx as (f & <- & Hf'). auto.
Qed.

(** a patch given by its frames *)
Definition patch_of (fd : R) (frames : list (list R)) (len : nat) : psr R :=
  MkPsr (MkMat (length frames) 1 (map mean frames)) (MkMat (length frames) 1 (map stddev frames))
        (MkMat (length frames) 1 (map mean frames)) 0%R 0%R (INR len * fd)%R 0%R (INR len * fd)%R.
Lemma patch_of_ok fd frames len : (forall f, In f frames -> length f = len) ->
  of_frames (patch_of fd frames len) frames len /\
  (ps_ref_end (patch_of fd frames len) - ps_ref_start (patch_of fd frames len) = INR len * fd)%R.
Proof. intros H. split; [repeat split; auto|]. cbn. lra. Qed.

Lemma unequal_lengths :
  exists (fd : R) (ps : list (psr R)) frames l, (0 < fd)%R /\
    Forall2 (fun p f => exists len, 1 <= len /\ of_frames p f len /\ length f = 1 /\ (ps_ref_end p - ps_ref_start p = INR len * fd)%R) ps frames /\
    calc_stddevs ps fd = Ret l /\
    nth 0 l 0%R <> stddev (concat (map (fun f => nth 0 f []) frames)).
Proof.
  set (f1 := [[0; 0]%R]). set (f2 := [[1; 1; 1; 1]%R]).
  assert (O1 : forall f, In f f1 -> length f = 2) by (intros f [<-|[]]; reflexivity).
  assert (O2 : forall f, In f f2 -> length f = 4) by (intros f [<-|[]]; reflexivity).
  set (xs := [(patch_of 1 f1 2, (f1, 2)); (patch_of 1 f2 4, (f2, 4))]).
  assert (HX : Forall (fun x => pooled_ok 1 x 1) xs).
  { constructor; [|constructor; [|constructor]]; cbn [pooled_ok].
    - destruct (patch_of_ok 1 f1 2 O1). repeat split; auto; apply H.
    - destruct (patch_of_ok 1 f2 4 O2). repeat split; auto; try lia; apply H. }
  destruct (stddevs_pooled 1 1 xs ltac:(lra) ltac:(discriminate) HX ltac:(cbn; lia)) as (l & E & Ll & G).
  exists 1%R, (map fst xs), [f1; f2], l. split; [lra|]. split.
  - constructor; [|constructor; [|constructor]].
    + exists 2. destruct (patch_of_ok 1 f1 2 O1). repeat split; auto.
    + exists 4. destruct (patch_of_ok 1 f2 4 O2). repeat split; auto.
  - split; [exact E|]. specialize (G 0 ltac:(lia)). cbv zeta in G. cbn [xs map fst snd nth concat f1 f2 app] in G |- *.
    set (all := [0; 0; 1; 1; 1; 1]%R) in *.
    assert (V : variance all = (4 / 15)%R). { unfold variance, mean, all, total. cbn. field. }
    assert (M : mean all = (2 / 3)%R) by (unfold mean, all, total; cbn; field).
    assert (M1 : mean [0; 0]%R = 0%R) by (unfold mean, total; cbn; field).
    assert (M2 : mean [1; 1; 1; 1]%R = 1%R) by (unfold mean, total; cbn; field).
    rewrite M1, M2 in G. replace (mean [0; 1]%R) with (1 / 2)%R in G by (unfold mean, total; cbn; field).
    rewrite V, M in G. replace (INR (length all)) with 6%R in G by (cbn; lra).
    unfold stddev. rewrite V, G. intros C. apply R_sqrt.sqrt_inj in C; [|apply Rmax_l|lra].
    rewrite Rmax_right in C by lra. lra.
Qed.

(** *** the patches found by matching *)
Lemma measured_frames (A B : mat R) (M : mat R) p : 0 < nrows M -> 0 < ncols M -> nsim_map A B = Ret M ->
  measure_patch_similarity A B = Ret p ->
  of_frames p (map (row_list M) (seq 0 (nrows M))) (ncols M).
Proof.
  intros H0 HC E Ep. destruct (measure_R A B M E HC) as (p' & Ep' & W1 & R1 & C1 & W2 & R2 & C2 & G1 & G2 & _).
  assert (p' = p) as -> by congruence. unfold of_frames. rewrite map_length, seq_length. split.
  - intros f Hf. apply in_map_iff in Hf. destruct Hf as (r & <- & _). unfold row_list. now rewrite map_length, seq_length.
  - split.
    + apply (mat_ext 0%R); auto; [unfold wf; cbn; rewrite !map_length, seq_length; lia|]. intros r c Hr Hc. rewrite R1 in Hr. rewrite C1 in Hc.
      assert (c = 0) as -> by lia. change (mget 0%R (ps_means p) r 0) with (at_ (ps_means p) r 0). rewrite G1 by exact Hr.
      unfold mget. cbn [elems ncols nrows]. rewrite map_map. replace (0 * nrows M + r) with r by lia. rewrite nth_map_seq by lia. apply vmean_mean.
    + apply (mat_ext 0%R); auto; [unfold wf; cbn; rewrite !map_length, seq_length; lia|]. intros r c Hr Hc. rewrite R2 in Hr. rewrite C2 in Hc.
      assert (c = 0) as -> by lia. change (mget 0%R (ps_stddevs p) r 0) with (at_ (ps_stddevs p) r 0). rewrite G2 by exact Hr.
      unfold mget. cbn [elems ncols nrows]. rewrite map_map. replace (0 * nrows M + r) with r by lia. rewrite nth_map_seq by lia. apply stddev_vvar.
Qed.

Lemma collect {A} (P : nat -> A -> Prop) n : (forall i, i < n -> exists a, P i a) -> exists l, length l = n /\ forall i d, i < n -> P i (nth i l d).
Proof.
  induction n as [|n IH]; intros H; [exists []; split; [reflexivity|intros; lia]|].
  destruct IH as (l & E & G); [intros i Hi; apply H; lia|]. destruct (H n ltac:(lia)) as [a Ha].
  exists (l ++ [a]). rewrite app_length, E. split; [cbn; lia|]. intros i d Hi. destruct (Nat.eq_dec i n) as [->|Ne].
  - rewrite app_nth2, E, Nat.sub_diag by lia. exact Ha.
  - rewrite app_nth1 by lia. apply G. lia.
Qed.

Lemma matched_stddevs refs idx (S : mat R) p fd radius l :
  refs <> [] -> (forall ref, In ref refs -> nrows ref = nrows S /\ ncols ref = p) -> 1 <= nrows S ->
  (1 <= Z.of_nat p < 2 ^ 31)%Z -> (1 <= Z.of_nat (ncols S) < 2 ^ 31)%Z -> (0 < fd)%R ->
  find_most_optimal_deg_patches measure_patch_similarity refs idx S fd radius = Ret l ->
  (forall x, In x l -> ps_deg_end x <> 0%R) -> (2 <= Z.of_nat (length l * p) < 2 ^ 31)%Z ->
  exists maps sd, calc_stddevs l fd = Ret sd /\ length maps = length l /\ length sd = nrows S /\
    (forall i, i < length l -> exists o, o < ncols S /\
       nsim_map (nth i refs (MkMat 0 0 [])) (frames_at 0%R S (Z.of_nat o) p) = Ret (nth i maps (MkMat 0 0 []))) /\
    forall b, b < nrows S -> nth b sd 0%R = stddev (concat (map (fun M => row_list M b) maps)).
Proof.
  intros H1 H2 H0 H3 H4 Hf H Hl Hn. pose proof (MkShapes refs S p H1 H2 H3 H4) as Sh.
  destruct (matched_results _ _ _ _ _ _ _ _ Sh H) as (off & lost & L1 & L2 & L3 & G & _).
  assert (X : forall i, i < length l -> exists M, (exists o, o < ncols S /\
     nsim_map (nth i refs (MkMat 0 0 [])) (frames_at 0%R S (Z.of_nat o) p) = Ret M) /\ nrows M = nrows S /\ ncols M = p /\
     exists x, nth_error l i = Some x /\ of_frames x (map (row_list M) (seq 0 (nrows S))) p /\
       (ps_ref_end x - ps_ref_start x = INR p * fd)%R).
  { intros i Hi. destruct (G i Hi) as (Ho & r & Em & En). unfold ref_at in Em.
    destruct (H2 (nth i refs (MkMat 0 0 []))) as [R1 C1]; [apply nth_In; lia|].
    destruct (nsim_map_R (nth i refs (MkMat 0 0 [])) (frames_at 0%R S (Z.of_nat (off i)) p)) as (M & EM & WM & RM & CM & _);
      [lia|lia|exact R1|exact C1|].
    exists M. split; [exists (off i); split; [exact Ho|exact EM]|]. split; [congruence|]. split; [congruence|].
    pose proof (measured_frames _ _ M r ltac:(lia) ltac:(lia) EM Em) as OF. rewrite RM, R1, CM, C1 in OF.
    destruct (lost i).
    - exfalso. refine (Hl _ (nth_error_In _ _ En) _). reflexivity.
    - eexists. split; [exact En|]. split; [exact OF|]. cbn. rewrite <- INR_IZR_INZ. lra. }
  destruct (collect _ (length l) X) as (maps & Lm & GM). exists maps.
  set (frames := map (fun M => map (row_list M) (seq 0 (nrows S))) maps).
  destruct (pooled_same fd (nrows S) p l frames Hf) as (sd & S1 & S2 & S3); try lia.
  - destruct l; [cbn in L1; lia|discriminate].
  - assert (F : forall i, i < length l -> exists x, nth_error l i = Some x /\
      of_frames x (nth i frames []) p /\ length (nth i frames []) = nrows S /\ (ps_ref_end x - ps_ref_start x = INR p * fd)%R).
    { intros i Hi. destruct (GM i (MkMat 0 0 []) Hi) as (_ & RM & CM & x & E1 & E2 & E3). exists x. split; [exact E1|].
      assert (EF : nth i frames [] = map (row_list (nth i maps (MkMat 0 0 []))) (seq 0 (nrows S))).
      { unfold frames. rewrite (nth_indep _ [] ((fun M => map (row_list M) (seq 0 (nrows S))) (MkMat 0 0 []))) by (rewrite map_length; lia).
        now rewrite (map_nth (fun M => map (row_list M) (seq 0 (nrows S)))). }
      rewrite EF. split; [exact E2|]. split; [now rewrite map_length, seq_length|exact E3]. }
    assert (LF : length frames = length l) by (unfold frames; now rewrite map_length).
    clear - F LF. revert F LF. generalize frames. induction l as [|x t IH]; intros fr F LF; destruct fr as [|f fr]; try discriminate; [constructor|].
    constructor.
    + destruct (F 0) as (y & E & A & B & C); [cbn; lia|]. cbn in E. injection E as <-. cbn [nth] in *. auto.
    + apply IH; [|cbn in LF; lia]. intros i Hi. apply (F (Datatypes.S i)). cbn. lia.
  - exists sd. split; [exact S1|]. split; [exact Lm|]. split; [exact S2|]. split.
    + intros i Hi. destruct (GM i (MkMat 0 0 []) Hi) as ((o & Ho & E) & _). exists o. split; [exact Ho|exact E].
    + intros b Hb. rewrite S3 by exact Hb. f_equal. f_equal. unfold frames. rewrite map_map. apply map_ext_in. intros M HM.
      now rewrite nth_map_seq by exact Hb.
Qed.
