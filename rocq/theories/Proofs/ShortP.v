(** Signals that are too short (C04, C07, C08). *)
From Coq Require Import ZArith List Bool Lia ZifyBool ZifyNat.
From Verif Require Import Base.Res Base.Num Base.Lists Base.Mat Model.Amatrix Model.MiscMath Model.Window Model.PatchCreator Model.FilterBank Model.Fft
  Model.Alignment Model.MiscAudio Model.Spectrogram Model.Nsim Model.Selector Model.Mappers Model.Visqol Model.Manager
  Spec.ManagerSpec Spec.ApiSpec
  Proofs.BankP Proofs.ShapeP Proofs.AggregateP Proofs.CodesP Proofs.ApiP Proofs.PatchCreatorP.
Import ListNotations.
Open Scope nat_scope.

Section Short.
  Context {T : Type} {N : Num T} {L : Libm T}.

  (** *** the preparation of two spectrograms always returns *)
  Lemma max_elem_ret (l : list T) : l <> [] -> exists x, max_elem l = Ret x.
  Proof. destruct l; [congruence|]. intros _. eexists. reflexivity. Qed.
  Lemma min_elem_ret (l : list T) : l <> [] -> exists x, min_elem l = Ret x.
  Proof. destruct l; [congruence|]. intros _. eexists. reflexivity. Qed.
  Lemma set_col_ret (M : mat T) i v : i < ncols M -> length v = nrows M -> 1 <= nrows M ->
    exists M', m_set_col M (Z.of_nat i) v = Ret M' /\ wf M' /\ nrows M' = nrows M /\ ncols M' = ncols M.
  Proof.
    intros Hi Hv Hr. unfold m_set_col.
    match goal with |- context [if ?b then _ else _] => destruct b eqn:E end.
    - eexists. split; [reflexivity|]. split; [apply tab_wf|]. split; reflexivity.
    - exfalso. lia.
  Qed.
  Lemma raise_frames_ret thr : forall is (A B : mat T), 1 <= nrows A -> 1 <= nrows B -> wf A -> wf B ->
    (forall i, In i is -> i < ncols A /\ i < ncols B) ->
    exists A' B', raise_frames thr (A, B) is = Ret (A', B') /\ wf A' /\ wf B' /\
      (nrows A' = nrows A /\ ncols A' = ncols A) /\ (nrows B' = nrows B /\ ncols B' = ncols B).
  Proof.
    induction is as [|i t IH]; intros A B HA HB WA WB H; cbn [raise_frames].
    - exists A, B. auto 10.
    - destruct (H i (or_introl eq_refl)) as [IA IB]. unfold raise_frame.
      assert (NA : col_list A i <> []). { intros E. apply (f_equal (@length T)) in E. unfold col_list in E. rewrite map_length, seq_length in E. cbn in E. lia. }
      assert (NB : col_list B i <> []). { intros E. apply (f_equal (@length T)) in E. unfold col_list in E. rewrite map_length, seq_length in E. cbn in E. lia. }
      destruct (max_elem_ret _ NA) as [ma ->]. destruct (max_elem_ret _ NB) as [mb ->]. cbn [bind].
      destruct (set_col_ret A i (map (nmax (nsub (nmax ma mb) thr)) (col_list A i)) IA) as (A1 & EA & W1 & R1 & C1);
        [unfold col_list; rewrite !map_length, seq_length; reflexivity|exact HA|].
      destruct (set_col_ret B i (map (nmax (nsub (nmax ma mb) thr)) (col_list B i)) IB) as (B1 & EB & W2 & R2 & C2);
        [unfold col_list; rewrite !map_length, seq_length; reflexivity|exact HB|].
      rewrite EA. cbn [bind]. rewrite EB. cbn [bind].
      destruct (IH A1 B1) as (A2 & B2 & E & W3 & W4 & S1 & S2); try lia; auto.
      { intros j Hj. destruct (H j (or_intror Hj)). lia. }
      exists A2, B2. split; [exact E|]. split; [exact W3|]. split; [exact W4|]. lia.
  Qed.
  Lemma prepare_ret (A B : mat T) : wf A -> wf B -> 1 <= nrows A -> 1 <= nrows B -> 1 <= ncols A -> 1 <= ncols B ->
    exists A' B', prepare_spectrograms A B = Ret (A', B') /\ wf A' /\ wf B' /\
      (nrows A' = nrows A /\ ncols A' = ncols A) /\ (nrows B' = nrows B /\ ncols B' = ncols B).
  Proof.
    intros WA WB HA HB CA CB. unfold prepare_spectrograms, raise_floor_per_frame.
    set (A0 := raise_floor kNoiseFloorAbsoluteDb (to_db A)). set (B0 := raise_floor kNoiseFloorAbsoluteDb (to_db B)).
    assert (SA : wf A0 /\ nrows A0 = nrows A /\ ncols A0 = ncols A).
    { unfold A0, raise_floor, to_db, mmap, wf in *. cbn [nrows ncols elems]. rewrite !map_length. auto. }
    assert (SB : wf B0 /\ nrows B0 = nrows B /\ ncols B0 = ncols B).
    { unfold B0, raise_floor, to_db, mmap, wf in *. cbn [nrows ncols elems]. rewrite !map_length. auto. }
    destruct (raise_frames_ret kNoiseFloorRelativeToPeakDb (seq 0 (Nat.min (ncols A0) (ncols B0))) A0 B0) as (A1 & B1 & E & W1 & W2 & S1 & S2);
      try lia; try tauto.
    { intros i Hi. apply in_seq in Hi. lia. }
    rewrite E. cbn [bind]. unfold spec_min.
    assert (NA : elems A1 <> []). { intros X. unfold wf in W1. rewrite X in W1. cbn in W1. nia. }
    assert (NB : elems B1 <> []). { intros X. unfold wf in W2. rewrite X in W2. cbn in W2. nia. }
    destruct (min_elem_ret _ NA) as [ra ->]. destruct (min_elem_ret _ NB) as [rb ->]. cbn [bind].
    eexists _, _. split; [reflexivity|]. unfold subtract_floor, mmap, wf in *. cbn [nrows ncols elems]. rewrite !map_length. lia.
  Qed.

  (** *** where InvalidArgument comes from *)
  Definition only_cancelled (c : code) : Prop := c = Cancelled.
  Lemma only_c : only_cancelled Cancelled. Proof. reflexivity. Qed.

  Lemma build_invalid speech (k : bank T) s w : snd (build speech k s w) = Err InvalidArgument -> length (au_data s) <= w_size w.
  Proof.
    intros H. destruct (hop_size w) as [h|] eqn:E.
    2:{ unfold build in H. destruct (prepared_bank speech k (au_sr s)). rewrite E in H. discriminate. }
    destruct (Nat.leb_spec (length (au_data s)) (w_size w)) as [|C]; [assumption|]. exfalso.
    assert (h <= 0 \/ 1 <= h)%Z as [C1|C1] by lia.
    - unfold build in H. destruct (prepared_bank speech k (au_sr s)). rewrite E in H. destruct (Nat.leb_spec (length (au_data s)) (w_size w)); [lia|].
      destruct (Z.leb_spec h 0); [|lia]. discriminate.
    - destruct (build_ret speech k s w h E C1 C) as (S & E' & _). congruence.
  Qed.
  Lemma indices_invalid speech n ref w : ref_patch_indices speech n ref w = Err InvalidArgument -> speech = false /\ n < 45.
  Proof.
    unfold ref_patch_indices. destruct speech.
    - intros H. exfalso. pose proof (coded_vad_indices only_cancelled _ _ _ _ _ H) as C. discriminate.
    - intros H. split; [reflexivity|]. unfold create_ref_patch_indices in H.
      change (Z.of_nat (patch_size false)) with 30%Z in H. destruct (Z.ltb_spec (Z.of_nat n) (30 + 30 / 2)) as [C|]; [change (30/2)%Z with 15%Z in C; lia|].
      destruct (index_loop _ _ _ _); discriminate.
  Qed.
  Lemma summarise_invalid f32 (m : mapper T) fd cfb ps : summarise f32 m fd cfb ps <> Err InvalidArgument.
  Proof. intros H. pose proof (coded_summarise only_cancelled _ _ _ _ _ _ H). discriminate. Qed.

  Lemma bind_err {A B} (x : res A) (f : A -> res B) c : bind x f = Err c -> x = Err c \/ exists a, x = Ret a /\ f a = Err c.
  Proof. destruct x; cbn [bind]; intros H; try discriminate; [right; eauto|left; congruence]. Qed.

  (** number of frames of a signal of n samples *)
  Definition frame_number (n w : nat) (h : Z) : nat := 1 + (n - w) / Z.to_nat h.

  Lemma compare_invalid (pf : pffft T) st w ref deg k rs ds : st_no_realign st = true ->
    snd (compare_spectrograms measure_patch_similarity pf st w ref deg k rs ds) = Err InvalidArgument ->
    st_speech st = false /\ ncols (sp_data rs) < 45.
  Proof.
    intros NR. unfold compare_spectrograms. rewrite NR. destruct (bind _ _) as [[fd sims]|c| |] eqn:E; cbn [snd]; try discriminate.
    - cbn [bind]. intros H. destruct (summarise_invalid _ _ _ _ _ H).
    - intros H. assert (c = InvalidArgument) as -> by congruence. clear H.
      apply bind_err in E. destruct E as [E|([A B] & EP & E)]; [pose proof (coded_prepare only_cancelled _ _ _ E); discriminate|].
      apply prepare_inv in EP. destruct EP as [[_ EC] _]. rewrite <- EC.
      apply bind_err in E. destruct E as [E|(idx & EI & E)]; [exact (indices_invalid _ _ _ _ E)|].
      apply bind_err in E. destruct E as [E|(fd & EF & E)]; [unfold calc_frame_duration in E; destruct (hop_size w) as [hh|]; [destruct (0 <=? hh)%Z|]; discriminate|].
      apply bind_err in E. destruct E as [E|(pt & EQ & E)]; [pose proof (coded_create_patches only_cancelled _ _ _ _ E); discriminate|].
      apply bind_err in E. destruct E as [E|(sims & EM & E)]; [|discriminate].
      pose proof (coded_find only_cancelled only_c _ _ _ _ _ _ E). discriminate.
  Qed.

  Lemma run_invalid w (m : manager T) ref deg : mg_init m = true -> au_sr ref = au_sr deg -> st_no_realign (mg_settings m) = true ->
    snd (run w m ref deg) = Err InvalidArgument ->
    exists win aligned lag, make_window (au_sr ref) = Ret win /\
      (if mg_no_global m then Ret (deg, n0) else globally_align (w_fft w) ref deg) = Ret (aligned, lag) /\
      (length (au_data ref) <= w_size win \/ length (au_data aligned) <= w_size win \/
       (st_speech (mg_settings m) = false /\
        exists h, hop_size win = Some h /\ (1 <= h)%Z /\ frame_number (length (au_data ref)) (w_size win) h < 45)).
  Proof.
    intros I ES NR. unfold run. rewrite I. cbn [negb]. unfold validate. rewrite ES, Z.eqb_refl.
    destruct (if mg_no_global m then _ else _) as [[d lag]|c| |] eqn:EG; cbn [snd]; try discriminate.
    2:{ intros H. exfalso. assert (C : coded only_cancelled (if mg_no_global m then Ret (deg, n0) else globally_align (w_fft w) ref deg)).
        { destruct (mg_no_global m); [apply coded_ret|apply coded_align]. } rewrite EG in C. pose proof (C _ eq_refl) as Q. unfold only_cancelled in Q. congruence. }
    destruct (make_window (au_sr deg)) as [win|c| |] eqn:EW; cbn [snd]; try discriminate.
    2:{ intros H. exfalso. pose proof (coded_window only_cancelled (au_sr deg)) as C. rewrite EW in C. pose proof (C _ eq_refl) as Q. unfold only_cancelled in Q. congruence. }
    unfold calculate_similarity. set (dd := scale_to_match_spl ref d).
    assert (LD : length (au_data dd) = length (au_data d)) by (unfold dd, scale_to_match_spl; cbn; apply map_length).
    clearbody dd. intros H. exists win, d, lag. split; [reflexivity|]. split; [reflexivity|]. revert H.
    destruct (build (st_speech (mg_settings m)) (mg_bank m) ref win) as [k1 rs] eqn:B1.
    destruct rs as [rs|c| |]; cbn [snd bind]; try discriminate.
    2:{ intros H. left. apply (build_invalid (st_speech (mg_settings m)) (mg_bank m)). rewrite B1. cbn. congruence. }
    destruct (build (st_speech (mg_settings m)) k1 dd win) as [k2 ds] eqn:B2.
    destruct ds as [ds|c| |]; cbn [snd bind]; try discriminate.
    2:{ intros H. right. left. rewrite <- LD. apply (build_invalid (st_speech (mg_settings m)) k1). rewrite B2. cbn. congruence. }
    pose proof (compare_invalid (w_fft w) (mg_settings m) win ref dd k2 rs ds NR) as C.
    destruct (compare_spectrograms _ _ _ _ _ _ _ _ _) as [k3 r]. cbn [snd] in C |- *. intros H. right. right.
    destruct r as [r|c| |]; cbn [bind] in H; try discriminate.
    - pose proof (coded_populate only_cancelled r lag _ H). discriminate.
    - destruct (C ltac:(congruence)) as [C1 C2]. split; [exact C1|]. apply build_inv in B1. destruct B1 as (_ & _ & _ & _ & _ & h & H1 & H2 & _ & H3).
      exists h. split; [exact H1|]. split; [exact H2|]. unfold frame_number. lia.
  Qed.

  Lemma long_not_invalid w (m : manager T) ref deg win aligned lag h : mg_init m = true -> au_sr ref = au_sr deg ->
    st_no_realign (mg_settings m) = true -> make_window (au_sr ref) = Ret win -> hop_size win = Some h ->
    (if mg_no_global m then Ret (deg, n0) else globally_align (w_fft w) ref deg) = Ret (aligned, lag) ->
    w_size win < length (au_data ref) -> w_size win < length (au_data aligned) ->
    (st_speech (mg_settings m) = false -> 45 <= frame_number (length (au_data ref)) (w_size win) h) ->
    snd (run w m ref deg) <> Err InvalidArgument.
  Proof.
    intros I ES NR EW EH EG C1 C2 C3 H. apply run_invalid in H; auto. destruct H as (win' & al & lg & EW' & EG' & C).
    rewrite EW in EW'. injection EW' as <-. rewrite EG in EG'. assert (al = aligned) as -> by congruence.
    destruct C as [C|[C|(C & h' & EH' & _ & F)]]; try lia. rewrite EH in EH'. injection EH' as <-. specialize (C3 C). lia.
  Qed.

  (** *** too short in audio mode *)
  Lemma short_audio w (m : manager T) ref deg win aligned lag h : mg_init m = true -> reachable m -> au_sr ref = au_sr deg ->
    st_speech (mg_settings m) = false -> make_window (au_sr ref) = Ret win -> hop_size win = Some h -> (1 <= h)%Z ->
    (if mg_no_global m then Ret (deg, n0) else globally_align (w_fft w) ref deg) = Ret (aligned, lag) ->
    length (au_data ref) <= w_size win \/ length (au_data aligned) <= w_size win \/ frame_number (length (au_data ref)) (w_size win) h < 45 ->
    snd (run w m ref deg) = Err InvalidArgument.
  Proof.
    intros I HR ES SP EW EH H1 EG C. apply bank_invariant in HR. destruct HR as [KB KM]. rewrite SP in KB.
    unfold run. rewrite I. cbn [negb]. unfold validate. rewrite ES, Z.eqb_refl. rewrite EG. rewrite ES in EW. rewrite EW.
    unfold calculate_similarity. set (dd := scale_to_match_spl ref aligned).
    assert (LD : length (au_data dd) = length (au_data aligned)) by (unfold dd, scale_to_match_spl; cbn; apply map_length).
    clearbody dd.
    destruct (Nat.leb_spec (length (au_data ref)) (w_size win)) as [C1|C1].
    { pose proof (build_short (st_speech (mg_settings m)) (mg_bank m) ref win h EH C1) as B.
      destruct (build _ (mg_bank m) ref win) as [k1 rs]. cbn [snd] in B. rewrite B. reflexivity. }
    destruct (build_ret (st_speech (mg_settings m)) (mg_bank m) ref win h EH H1 C1) as (S1 & B1 & W1 & R1 & N1 & _).
    pose proof (build_depends (st_speech (mg_settings m)) (mg_bank m) (mg_bank m) ref win eq_refl eq_refl) as (_ & K1 & K2).
    destruct (build _ (mg_bank m) ref win) as [k1 rs]. cbn [fst snd] in B1, K1, K2. rewrite B1.
    destruct (Nat.leb_spec (length (au_data aligned)) (w_size win)) as [C2|C2].
    { pose proof (build_short (st_speech (mg_settings m)) k1 dd win h EH ltac:(lia)) as B.
      destruct (build _ k1 dd win) as [k2 ds]. cbn [snd] in B. rewrite B. reflexivity. }
    destruct (build_ret (st_speech (mg_settings m)) k1 dd win h EH H1 ltac:(lia)) as (S2 & B2 & W2 & R2 & N2 & _).
    destruct (build _ k1 dd win) as [k2 ds]. cbn [snd] in B2. rewrite B2.
    assert (F : frame_number (length (au_data ref)) (w_size win) h < 45) by lia. unfold frame_number in F.
    unfold compare_spectrograms. cbn [num_bands] in KB.
    destruct (prepare_ret (sp_data S1) (sp_data S2)) as (A & B & EP & _ & _ & [_ NA] & _); try lia; auto; [rewrite N1; apply le_n_S, Nat.le_0_l|rewrite N2; apply le_n_S, Nat.le_0_l|].
    rewrite EP. cbn [bind]. unfold ref_patch_indices. rewrite SP. change (Z.of_nat (patch_size false)) with 30%Z.
    rewrite create_ref_patch_indices_short; [reflexivity|]. change (30 / 2)%Z with 15%Z. lia.
  Qed.

  (** *** no more than a window, in either mode *)
  Lemma short_window w (m : manager T) ref deg win aligned lag h : mg_init m = true -> au_sr ref = au_sr deg ->
    make_window (au_sr ref) = Ret win -> hop_size win = Some h -> (1 <= h)%Z ->
    (if mg_no_global m then Ret (deg, n0) else globally_align (w_fft w) ref deg) = Ret (aligned, lag) ->
    length (au_data ref) <= w_size win \/ length (au_data aligned) <= w_size win ->
    snd (run w m ref deg) = Err InvalidArgument.
  Proof.
    intros I ES EW EH H1 EG C.
    unfold run. rewrite I. cbn [negb]. unfold validate. rewrite ES, Z.eqb_refl. rewrite EG. rewrite ES in EW. rewrite EW.
    unfold calculate_similarity. set (dd := scale_to_match_spl ref aligned).
    assert (LD : length (au_data dd) = length (au_data aligned)) by (unfold dd, scale_to_match_spl; cbn; apply map_length).
    clearbody dd.
    destruct (Nat.leb_spec (length (au_data ref)) (w_size win)) as [C1|C1].
    { pose proof (build_short (st_speech (mg_settings m)) (mg_bank m) ref win h EH C1) as B.
      destruct (build _ (mg_bank m) ref win) as [k1 rs]. cbn [snd] in B. rewrite B. reflexivity. }
    destruct (build_ret (st_speech (mg_settings m)) (mg_bank m) ref win h EH H1 C1) as (S1 & B1 & _).
    destruct (build _ (mg_bank m) ref win) as [k1 rs]. cbn [snd] in B1. rewrite B1.
    pose proof (build_short (st_speech (mg_settings m)) k1 dd win h EH ltac:(lia)) as B.
    destruct (build _ k1 dd win) as [k2 ds]. cbn [snd] in B. rewrite B. reflexivity.
  Qed.

  (** *** too short in speech mode *)
  Lemma vad_short n (sig : list T) w psl flen : sig <> [] -> n < 29 ->
    ntrunc (nmul (nofnat 20) (nmul (nofZ w) (ndec 25 2))) = Some psl -> ntrunc (nmul (nofZ w) (ndec 25 2)) = Some flen ->
    vad_create_ref_patch_indices 20 (Z.of_nat n) sig w = Throw.
  Proof.
    intros HS Hn E1 E2. unfold vad_create_ref_patch_indices. unfold normalize. destruct (max_elem_ret sig HS) as [mx ->]. cbn [bind].
    rewrite E1, E2. cbv zeta. change (Z.of_nat 20) with 20%Z. change (size_of (20 / 2 - 1)) with 9%Z.
    assert (n < 9 \/ 9 <= n) as [C|C] by lia.
    - replace (size_of (Z.of_nat n - 9)) with (two64 + Z.of_nat n - 9)%Z.
      2:{ unfold size_of. apply Z.mod_unique with (-1)%Z; unfold two64; lia. }
      assert (2 ^ 57 <= (two64 + Z.of_nat n - 9) / 20)%Z by (apply Z.div_le_lower_bound; unfold two64; lia).
      unfold reserve. destruct (Z.ltb_spec ((two64 + Z.of_nat n - 9) / 20) (2 ^ 57)); [lia|]. reflexivity.
    - replace (size_of (Z.of_nat n - 9)) with (Z.of_nat n - 9)%Z by (symmetry; apply size_of_small; unfold two64; lia).
      replace ((Z.of_nat n - 9) / 20)%Z with 0%Z by (symmetry; apply Z.div_small; lia).
      unfold reserve. cbn [bind]. unfold get_voice_activity. rewrite Z.mul_0_l. change (size_of (9 + size_of 0 - 1)) with 8%Z.
      unfold v_rows. cbn [Z.leb]. reflexivity.
  Qed.
  Lemma short_speech w (m : manager T) ref deg win aligned lag h psl : mg_init m = true -> reachable m -> au_sr ref = au_sr deg ->
    st_speech (mg_settings m) = true -> make_window (au_sr ref) = Ret win -> hop_size win = Some h -> (1 <= h)%Z ->
    w_overlap win = ndec 25 2 -> ntrunc (nmul (nofnat 20) (nmul (nofnat (w_size win)) (ndec 25 2))) = Some psl ->
    (if mg_no_global m then Ret (deg, n0) else globally_align (w_fft w) ref deg) = Ret (aligned, lag) ->
    w_size win < length (au_data ref) -> w_size win < length (au_data aligned) ->
    frame_number (length (au_data ref)) (w_size win) h < 29 ->
    snd (run w m ref deg) = Throw.
  Proof.
    intros I HR ES SP EW EH H1 EO EQ EG C1 C2 F. apply bank_invariant in HR. destruct HR as [KB KM]. rewrite SP in KB.
    unfold run. rewrite I. cbn [negb]. unfold validate. rewrite ES, Z.eqb_refl. rewrite EG. rewrite ES in EW. rewrite EW.
    unfold calculate_similarity. set (dd := scale_to_match_spl ref aligned).
    assert (LD : length (au_data dd) = length (au_data aligned)) by (unfold dd, scale_to_match_spl; cbn; apply map_length).
    clearbody dd.
    destruct (build_ret (st_speech (mg_settings m)) (mg_bank m) ref win h EH H1 C1) as (S1 & B1 & W1 & R1 & N1 & _).
    pose proof (build_depends (st_speech (mg_settings m)) (mg_bank m) (mg_bank m) ref win eq_refl eq_refl) as (_ & K1 & K2).
    destruct (build _ (mg_bank m) ref win) as [k1 rs]. cbn [fst snd] in B1, K1, K2. rewrite B1.
    destruct (build_ret (st_speech (mg_settings m)) k1 dd win h EH H1 ltac:(lia)) as (S2 & B2 & W2 & R2 & N2 & _).
    destruct (build _ k1 dd win) as [k2 ds]. cbn [snd] in B2. rewrite B2.
    unfold frame_number in F.
    unfold compare_spectrograms. cbn [num_bands] in KB.
    destruct (prepare_ret (sp_data S1) (sp_data S2)) as (A & B & EP & _ & _ & [_ NA] & _); try lia; auto; [rewrite N1; apply le_n_S, Nat.le_0_l|rewrite N2; apply le_n_S, Nat.le_0_l|].
    rewrite EP. cbn [bind]. unfold ref_patch_indices. rewrite SP. change (patch_size true) with 20. unfold hop_size in EH. rewrite EO in EH.
    rewrite (vad_short (ncols A) _ _ psl h); [reflexivity| |lia|exact EQ|exact EH].
    destruct (au_data ref); [cbn in C1; lia|discriminate].
  Qed.

End Short.
