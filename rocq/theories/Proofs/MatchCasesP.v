(** Matching applied to the patches the patch creators choose, and counterexamples (C24-C28). *)
From Coq Require Import ZArith List Bool Sorted Reals Lra Lia ZifyBool ZifyNat Floats.
From Verif Require Import Base.Res Base.Num Base.NumR Base.NumF Base.Lists Base.Mat Model.Amatrix Model.MiscMath
  Model.Window Model.FilterBank Model.Spectrogram Model.Nsim Model.Fft Model.Alignment Model.PatchCreator
  Model.Selector Spec.MatchSpec Spec.StatSpec
  Proofs.PatchCreatorP Proofs.VadRP Proofs.NsimP Proofs.SelectorP Proofs.MatchP Proofs.MatchAllP Proofs.B64P
  Proofs.OptimalP Proofs.ScoresP Proofs.FindP Proofs.SafeP.
Import ListNotations.
Open Scope nat_scope.
Ltac Zify.zify_post_hook ::= Z.div_mod_to_equations.

(** *** what both patch creators guarantee about the start frames *)

Lemma sorted_grid first p n : (0 < p)%Z -> forall k, StronglySorted Z.lt (map (fun k => first + Z.of_nat k * p)%Z (seq k n)).
Proof.
  intros Hp. induction n as [|n IH]; intros k; cbn [seq map]; constructor; [apply IH|].
  apply Forall_forall. intros x Hx. apply in_map_iff in Hx. destruct Hx as (j & <- & Hj). apply in_seq in Hj. nia.
Qed.
Lemma audio_starts p L idx : (2 <= p) -> (L < two64)%Z ->
  create_ref_patch_indices (Z.of_nat p) L = Ret idx -> patch_starts p L idx.
Proof.
  intros Hp HL H. destruct (Z_lt_ge_dec L (Z.of_nat p + Z.of_nat p / 2)) as [Hs|Hs].
  - rewrite create_ref_patch_indices_short in H by exact Hs. discriminate.
  - rewrite create_ref_patch_indices_closed in H by lia. injection H as <-. 
    pose proof (patch_number_pos (Z.of_nat p) L) as Hn. split; [|split].
    + apply sorted_grid. lia.
    + destruct (patch_number _ _) as [|n]; [lia|]. cbn [seq map hd_error]. f_equal. lia.
    + intros s Hin. apply in_map_iff in Hin. destruct Hin as (k & <- & Hk). apply in_seq in Hk.
      apply patch_number_fits; lia.
Qed.
Lemma speech_starts p L (sig : list R) w idx : 2 <= p -> (4 <= w)%Z ->
  (Z.of_nat p / 2 - 1 + Z.of_nat p <= L)%Z -> (L * (Z.of_nat p * w) < two64)%Z ->
  vad_create_ref_patch_indices p L sig w = Ret idx -> patch_starts p L idx.
Proof.
  intros Hp Hw HL Hb H. destruct (vad_indices_R p L sig w idx Hp Hw HL Hb H) as (m & _ & _ & _ & S1 & S2 & S3).
  split; [exact S1|]. split; [exact S3|]. intros s Hs. apply S2 in Hs. destruct Hs as (k & Hk & -> & _). 
  split; [nia|]. set (f := (Z.of_nat p / 2 - 1)%Z) in *.
  assert (Z.of_nat k + 1 <= (L - f) / Z.of_nat p)%Z by lia.
  pose proof (Z.mul_div_le (L - f) (Z.of_nat p) ltac:(lia)). nia.
Qed.

Lemma sorted_nth idx : StronglySorted Z.lt idx -> forall i j, i < j -> j < length idx -> (nth i idx 0 < nth j idx 0)%Z.
Proof.
  induction 1 as [|x l S IH F]; intros i j Hij Hj; [cbn in Hj; lia|].
  destruct j as [|j]; [lia|]. destruct i as [|i]; cbn [nth] in *.
  - rewrite Forall_forall in F. apply F. apply nth_In. cbn in Hj. lia.
  - apply IH; cbn in Hj; lia.
Qed.

(** *** C28 *)
Lemma scored_count {T} {N : Num T} (CE : counts_exact (T:=T)) p L idx nf :
  2 <= p -> (Z.of_nat p < 2 ^ 52)%Z -> (L < 2 ^ 52)%Z -> (0 <= nf < 2 ^ 52)%Z -> patch_starts p L idx ->
  exists n, calc_max_num_patches (T:=T) idx nf (Z.of_nat p) = Ret n /\ 1 <= n <= length idx /\
    forall j, j < length idx -> (j < n <-> (nth j idx 0 <= nf + Z.of_nat p / 2)%Z).
Proof.
  intros Hp Hp2 HL Hnf (S1 & S2 & S3).
  destruct (calc_max_num_patches_spec CE (Z.of_nat p) nf idx) as (n & E & Hn & H1 & H2); [lia|lia| | |].
  - apply Forall_forall. intros s Hs. specialize (S3 s Hs). lia.
  - apply Exists_exists. destruct idx as [|x l]; [discriminate|]. injection S2 as ->.
    eexists. split; [now left|]. lia.
  - exists n. split; [exact E|]. split; [exact Hn|]. intros j Hj. split.
    + intros Hjn. destruct (Nat.eq_dec j (n - 1)) as [->|]; [exact H1|].
      pose proof (sorted_nth idx S1 j (n - 1) ltac:(lia) ltac:(lia)). lia.
    + intros Hle. destruct (le_lt_dec n j) as [G|G]; [|exact G]. specialize (H2 j ltac:(lia)). lia.
Qed.
Lemma scored_audio {T} {N : Num T} (CE : counts_exact (T:=T)) p L idx nf :
  2 <= p -> (Z.of_nat p < 2 ^ 52)%Z -> (L < 2 ^ 52)%Z -> (0 <= nf < 2 ^ 52)%Z ->
  create_ref_patch_indices (Z.of_nat p) L = Ret idx ->
  exists n, calc_max_num_patches (T:=T) idx nf (Z.of_nat p) = Ret n /\ 1 <= n <= length idx /\
    forall j, j < length idx -> (j < n <-> (nth j idx 0 <= nf + Z.of_nat p / 2)%Z).
Proof.
  intros Hp Hp2 HL Hnf H. eapply (scored_count CE p L); auto. apply audio_starts; auto.
  unfold two64. lia.
Qed.
Lemma scored_speech p L (sig : list R) w idx nf :
  2 <= p -> (4 <= w)%Z -> (Z.of_nat p / 2 - 1 + Z.of_nat p <= L)%Z -> (L * (Z.of_nat p * w) < two64)%Z ->
  (L < 2 ^ 52)%Z -> (0 <= nf < 2 ^ 52)%Z ->
  vad_create_ref_patch_indices p L sig w = Ret idx ->
  exists n, calc_max_num_patches (T:=R) idx nf (Z.of_nat p) = Ret n /\ 1 <= n <= length idx /\
    forall j, j < length idx -> (j < n <-> (nth j idx 0 <= nf + Z.of_nat p / 2)%Z).
Proof.
  intros Hp Hw HL Hb HL2 Hnf H. eapply (scored_count counts_exact_R p L); auto; [lia|].
  eapply speech_starts; eauto.
Qed.

(** *** the selector on creator output *)
Section OnPatches.
  Context {T : Type} {N : Num T}.

  Lemma creator_shapes p (A B : mat T) idx refs :
    2 <= p -> (Z.of_nat (ncols A) < 2 ^ 31)%Z -> (1 <= Z.of_nat (ncols B) < 2 ^ 31)%Z -> nrows A = nrows B ->
    patch_starts p (Z.of_nat (ncols A)) idx -> create_patches (Z.of_nat p) A idx = Ret refs ->
    shapes refs B p /\ length idx = length refs /\
    (forall i, i < length idx -> nrows (ref_at refs i) = nrows A /\ ncols (ref_at refs i) = p) /\
    (forall i, i < length idx -> (0 <= idx_at idx i /\ idx_at idx i + Z.of_nat p <= Z.of_nat (ncols A))%Z) /\
    (forall i, S i < length idx -> (idx_at idx i <= idx_at idx (S i))%Z) /\
    (idx_at idx 0 = Z.of_nat p / 2 - 1)%Z /\ 1 <= length idx /\ length idx <= ncols A.
  Proof.
    intros Hp HA HB HR (S1 & S2 & S3) H.
    destruct (create_patches_spec (Z.of_nat p) A idx) as (ps & E & Hl & Hs); [lia|intros s Hin; specialize (S3 s Hin); unfold two64; lia|].
    rewrite E in H. injection H as <-.
    assert (Hpos : 1 <= length idx) by (destruct idx; [discriminate|cbn; lia]).
    assert (Hne : ps <> []) by (destruct ps; [cbn in Hl; lia|congruence]).
    assert (Hat : forall i, i < length idx -> (0 <= idx_at idx i /\ idx_at idx i + Z.of_nat p <= Z.of_nat (ncols A))%Z).
    { intros i Hi. apply S3. now apply nth_In. }
    assert (Hin0 : (idx_at idx 0 = Z.of_nat p / 2 - 1)%Z).
    { destruct idx; [discriminate|]. injection S2 as ->. reflexivity. }
    assert (Hsh : forall i, i < length idx -> nrows (ref_at ps i) = nrows A /\ ncols (ref_at ps i) = p).
    { intros i Hi. destruct (Hs i Hi) as (_ & R1 & R2 & _). split; [exact R1|]. unfold ref_at. rewrite R2. lia. }
    repeat match goal with |- _ /\ _ => split end; auto; try lia.
    - constructor; [exact Hne| |specialize (Hat 0 ltac:(lia)); lia|exact HB]. intros ref Hin. apply (In_nth _ _ (MkMat 0 0 [])) in Hin.
      destruct Hin as (k & Hk & <-). destruct (Hsh k ltac:(lia)) as [R1 R2]. unfold ref_at in R1, R2. split; congruence.
    - intros i Hi. pose proof (sorted_nth idx S1 i (S i) ltac:(lia) Hi). unfold idx_at. lia.
    - assert (G : forall i, i < length idx -> (Z.of_nat i <= idx_at idx i)%Z).
      { induction i as [|i IH]; intros Hi; [specialize (Hat 0 Hi); lia|].
        pose proof (sorted_nth idx S1 i (S i) ltac:(lia) Hi). specialize (IH ltac:(lia)). unfold idx_at in *. lia. }
      specialize (G (length idx - 1) ltac:(lia)). specialize (Hat (length idx - 1) ltac:(lia)). lia.
  Qed.
End OnPatches.

(** C27: matching returns *)
Lemma matching_returns {T} {N : Num T} (SC : scores T) (CE : counts_exact (T:=T))
  (measure : mat T -> mat T -> res (psr T)) p (A B : mat T) idx refs fd radius :
  2 <= p -> (Z.of_nat (ncols A) < 2 ^ 31)%Z -> (1 <= Z.of_nat (ncols B) < 2 ^ 31)%Z -> nrows A = nrows B ->
  patch_starts p (Z.of_nat (ncols A)) idx -> create_patches (Z.of_nat p) A idx = Ret refs ->
  (1 <= radius)%Z -> (Z.of_nat (ncols A) + radius * Z.of_nat p <= 2 ^ 31)%Z ->
  (forall P Q, nrows P = nrows A -> ncols P = p -> nrows Q = nrows A -> ncols Q = p ->
     exists r, measure P Q = Ret r /\ good SC (ps_sim r) /\ (Rabs (val SC (ps_sim r)) <= 2)%R) ->
  exists l, find_most_optimal_deg_patches measure refs idx B fd radius = Ret l.
Proof.
  intros Hp HA HB HR HS HC Hr Hb HM.
  destruct (creator_shapes p A B idx refs Hp HA HB HR HS HC) as (Sh & Hl & Hsh & Hat & Hinc & H0 & Hpos & Hle).
  apply (find_safe SC CE measure refs idx B p fd radius Sh Hl); try lia.
  - intros i Hi. specialize (Hat i Hi). lia.
  - intros i s Hi Hs. destruct (Hsh i Hi) as [R1 R2]. apply HM; auto.
Qed.
Lemma matching_returns_R speech_or_audio (A B : mat R) idx refs fd radius :
  let p := if speech_or_audio : bool then 20 else 30 in
  (1 <= nrows A) -> (Z.of_nat (ncols A) < 2 ^ 31)%Z -> (1 <= Z.of_nat (ncols B) < 2 ^ 31)%Z -> nrows A = nrows B ->
  patch_starts p (Z.of_nat (ncols A)) idx -> create_patches (Z.of_nat p) A idx = Ret refs ->
  (1 <= radius)%Z -> (Z.of_nat (ncols A) + radius * Z.of_nat p <= 2 ^ 31)%Z ->
  exists l, find_most_optimal_deg_patches measure_patch_similarity refs idx B fd radius = Ret l.
Proof.
  intros p Hn HA HB HR HS HC Hr Hb.
  assert (Hp : 2 <= p) by (unfold p; destruct speech_or_audio; lia).
  apply (matching_returns scoresR counts_exact_R _ p A B idx refs fd radius Hp HA HB HR HS HC Hr Hb).
  intros P Q P1 P2 Q1 Q2. destruct (measure_bounded P Q) as (_ & r & _ & E & _ & _ & Hb'); try lia.
  exists r. split; [exact E|]. split; [exact I|]. cbn. apply Rabs_le. lra.
Qed.

(** *** C24: time order over any two matched patches *)
Lemma ordered {T} {N : Num T} (measure : mat T -> mat T -> res (psr T)) refs idx S p fd radius l :
  shapes refs S p -> find_most_optimal_deg_patches measure refs idx S fd radius = Ret l ->
  exists (off : nat -> nat) (lost : nat -> bool),
    1 <= length l /\ length l <= length refs /\ length l <= length idx /\
    (forall i, i < length l -> off i < ncols S /\
       exists r, measure (nth i refs (MkMat 0 0 [])) (frames_at n0 S (Z.of_nat (off i)) p) = Ret r /\
         nth_error l i = Some (with_times r (lost i) (Z.of_nat (off i)) (nth i idx 0%Z) fd
                                          (nmul fd (nofZ (Z.of_nat p))))) /\
    (forall i j, i < j < length l -> lost j = false -> off i < off j).
Proof.
  intros Sh H. destruct (matched_results measure refs idx S p fd radius l Sh H) as (off & lost & H1 & H2 & H3 & H4 & H5).
  exists off, lost. repeat (split; [assumption|]).
  assert (Hle : forall j i, i <= j -> j < length l -> off i <= off j).
  { induction j as [|j IH]; intros i Hi Hj; [assert (i = 0) by lia; subst; lia|].
    destruct (Nat.eq_dec i (Datatypes.S j)) as [->|]; [lia|]. specialize (IH i ltac:(lia) ltac:(lia)).
    destruct (H5 j Hj) as [A B]. destruct (lost (Datatypes.S j)); [rewrite (A eq_refl)|specialize (B eq_refl)]; lia. }
  intros i j Hij Hlost. destruct j as [|j]; [lia|]. destruct (H5 j ltac:(lia)) as [_ B]. specialize (B Hlost).
  pose proof (Hle j i ltac:(lia) ltac:(lia)). lia.
Qed.

(** *** C25: the reported similarities add up to the score (exact reals) *)
Lemma reported_sum (RES : nat -> nat -> psr R) (off : nat -> nat) idx fd pd : forall l, 1 <= length l ->
  (forall i, i < length l -> nth_error l i = Some (with_times (RES i (off i)) (skipped off i) (Z.of_nat (off i)) (idx i) fd pd)) ->
  fold_right Rplus 0%R (map ps_sim l) = score (fun i s => ps_sim (RES i s)) off (length l - 1).
Proof.
  induction l as [|x l IH] using rev_ind; intros Hl H; [cbn in Hl; lia|].
  rewrite app_length in *. cbn [length] in *. replace (length l + 1 - 1) with (length l) by lia.
  rewrite map_app, fold_right_app. cbn [map fold_right].
  pose proof (H (length l) ltac:(lia)) as Hx. rewrite nth_error_app2, Nat.sub_diag in Hx by lia. cbn in Hx. injection Hx as ->.
  assert (G : forall (m : list R) a, fold_right Rplus a m = (fold_right Rplus 0 m + a)%R).
  { induction m as [|y m IHm]; intros a; cbn [fold_right]; [lra|]. rewrite IHm. lra. }
  rewrite G. destruct l as [|y l'] eqn:El.
  - cbn. lra.
  - rewrite <- El in *. assert (L1 : 1 <= length l) by (rewrite El; cbn; lia).
    rewrite IH; [|exact L1|intros i Hi; specialize (H i ltac:(lia)); rewrite nth_error_app1 in H by exact Hi; exact H].
    destruct (length l) as [|m] eqn:Em; [lia|]. replace (S m - 1) with m by lia. cbn [score].
    unfold with_times. destruct (skipped off (S m)); cbn [ps_sim n0 nofZ nadd NumR]; change (nofZ 0) with 0%R; lra.
Qed.

(** *** counterexamples, with the similarity measure of the code and binary64 numbers *)
Definition ridge : mat PrimFloat.float := MkMat 4 1 [0; 10; 0; 10]%float.
Definition valleys : mat PrimFloat.float := MkMat 4 10 (concat (repeat [10; 0; 10; 0]%float 10)).
Lemma outside_window :
  exists r0 r1, find_most_optimal_deg_patches measure_patch_similarity [ridge; ridge] [0; 5]%Z valleys 1%float 1 = Ret [r0; r1] /\
    ps_ref_start r0 = 0%float /\ ps_deg_start r0 = 4%float /\ ps_deg_end r0 = 5%float.
Proof. eexists _, _. split; [vm_compute; reflexivity|]. repeat split. Qed.

Definition pair_patch : mat PrimFloat.float := MkMat 1 2 [1; 2]%float.
Definition six_frames : mat PrimFloat.float := MkMat 1 6 [1; 2; 3; 4; 5; 6]%float.
Lemma bad_radii :
  find_most_optimal_deg_patches measure_patch_similarity [pair_patch; pair_patch] [0; 2]%Z six_frames 1%float (-1) = Ub /\
  find_most_optimal_deg_patches measure_patch_similarity [pair_patch; pair_patch] [0; 6]%Z six_frames 1%float 0 = Ub /\
  find_most_optimal_deg_patches measure_patch_similarity [pair_patch; pair_patch] [0; 6]%Z six_frames 1%float 1073741823 = Ub.
Proof. repeat split; vm_compute; reflexivity. Qed.

(** *** restatements used by Props/MatchProps.v *)

Lemma with_times_reports {T} {N : Num T} (r : psr T) lost offset idx fd pd :
  reports (with_times r lost offset idx fd pd) r lost offset idx fd pd.
Proof.
  unfold reports, with_times. destruct lost; cbn; repeat split; auto.
  intros v Hv. apply in_flat_map in Hv. destruct Hv as (c & _ & Hv). apply in_map_iff in Hv. now destruct Hv as (_ & <- & _).
Qed.
Lemma ordered_reports {T} {N : Num T} (measure : mat T -> mat T -> res (psr T)) refs idx S p fd radius l :
  refs <> [] -> (forall ref, In ref refs -> nrows ref = nrows S /\ ncols ref = p) ->
  (1 <= Z.of_nat p < 2 ^ 31)%Z -> (1 <= Z.of_nat (ncols S) < 2 ^ 31)%Z ->
  find_most_optimal_deg_patches measure refs idx S fd radius = Ret l ->
  exists (off : nat -> nat) (lost : nat -> bool),
    1 <= length l /\ length l <= length refs /\ length l <= length idx /\
    (forall i, i < length l -> off i < ncols S /\
       exists x r, nth_error l i = Some x /\
         measure (nth i refs (MkMat 0 0 [])) (frames_at n0 S (Z.of_nat (off i)) p) = Ret r /\
         reports x r (lost i) (Z.of_nat (off i)) (nth i idx 0%Z) fd (nmul fd (nofZ (Z.of_nat p)))) /\
    (forall i j, i < j < length l -> lost j = false -> off i < off j).
Proof.
  intros H1 H2 H3 H4 H. destruct (ordered measure refs idx S p fd radius l (MkShapes refs S p H1 H2 H3 H4) H)
    as (off & lost & A & B & C & D & E). exists off, lost. repeat (split; [assumption|]). split; [|exact E].
  intros i Hi. destruct (D i Hi) as (D1 & r & D2 & D3). split; [exact D1|]. eexists _, r.
  split; [exact D3|]. split; [exact D2|]. apply with_times_reports.
Qed.

(** search window: frames of the degraded spectrogram within [sw] frames of [i] *)
Lemma window_bounds (sw nc i : Z) s : (0 <= i)%Z -> (0 <= sw)%Z -> (i <= nc + sw - 1)%Z -> (1 <= nc)%Z ->
  (win_lo sw i <= s <= win_hi sw nc i <-> (Z.abs (Z.of_nat s - i) <= sw)%Z /\ (Z.of_nat s < nc)%Z).
Proof. unfold win_lo, win_hi. lia. Qed.

Lemma matching_assignment sw nc idx n off : (1 <= n) -> (1 <= nc)%Z -> (0 <= sw)%Z ->
  (forall i, i < n -> (0 <= nth i idx 0 <= nc + sw - 1)%Z) ->
  (matching sw nc idx n off <->
   assignment (fun i => win_lo sw (idx_at idx i)) (fun i => win_hi sw nc (idx_at idx i)) (n - 1) off).
Proof.
  intros Hn Hnc Hsw Hidx. unfold matching, assignment. split; intros [A B]; split; intros i Hi.
  - apply window_bounds; try (specialize (Hidx i ltac:(lia)); unfold idx_at; lia). apply A. lia.
  - apply B. lia.
  - apply (window_bounds sw nc (idx_at idx i)); try (specialize (Hidx i ltac:(lia)); unfold idx_at; lia). apply A. lia.
  - apply B. lia.
Qed.

Lemma optimal_reports {T} {N : Num T} (SC : scores T) (CE : counts_exact (T:=T))
  (measure : mat T -> mat T -> res (psr T)) p (A B : mat T) idx refs fd radius :
  2 <= p -> (Z.of_nat (ncols A) < 2 ^ 31)%Z -> (1 <= Z.of_nat (ncols B) < 2 ^ 31)%Z -> nrows A = nrows B ->
  patch_starts p (Z.of_nat (ncols A)) idx -> create_patches (Z.of_nat p) A idx = Ret refs ->
  let sw := (radius * Z.of_nat p)%Z in
  let nc := Z.of_nat (ncols B) in
  (1 <= radius)%Z -> (Z.of_nat (ncols A) + sw <= 2 ^ 31)%Z ->
  let RES i s := result_of (measure (nth i refs (MkMat 0 0 [])) (frames_at n0 B (Z.of_nat s) p)) in
  (forall i s, i < length idx -> s < ncols B ->
     measure (nth i refs (MkMat 0 0 [])) (frames_at n0 B (Z.of_nat s) p) = Ret (RES i s) /\
     good SC (ps_sim (RES i s)) /\ (Rabs (val SC (ps_sim (RES i s))) <= 2)%R) ->
  ((Z.of_nat (ncols A) <= sw /\ nc <= sw)%Z \/
   (forall i s, i < length idx -> s < ncols B -> (0 < val SC (ps_sim (RES i s)))%R)) ->
  exists l off, find_most_optimal_deg_patches measure refs idx B fd radius = Ret l /\
    1 <= length l <= length idx /\
    matching sw nc idx (length l) off /\
    (forall i, i < length l -> exists x, nth_error l i = Some x /\
       x = with_times (RES i (off i)) (skipped off i) (Z.of_nat (off i)) (nth i idx 0%Z) fd (nmul fd (nofZ (Z.of_nat p)))) /\
    forall off', matching sw nc idx (length l) off' ->
      (val SC (score (fun i s => ps_sim (RES i s)) off' (length l - 1)) <=
       val SC (score (fun i s => ps_sim (RES i s)) off (length l - 1)))%R.
Proof.
  intros Hp HA HB HR HS HC sw nc Hr Hb RES HM Hmode.
  destruct (creator_shapes p A B idx refs Hp HA HB HR HS HC) as (Sh & Hl & Hsh & Hat & Hinc & H0 & Hpos & Hle).
  destruct (find_optimal SC CE measure refs idx B p fd radius RES Sh Hl) as (l & off & E & E1 & E2 & E3 & E4 & E5 & E6);
    auto; try (unfold nc, sw in *; lia).
  - intros i Hi. specialize (Hat i Hi). fold sw. lia.
  - destruct Hmode as [M|M]; [left|right; exact M]. intros i Hi. specialize (Hat i Hi). fold sw nc. lia.
  - fold sw nc in E2, E4, E6.
    assert (Hmono : forall j i, i <= j -> j < length idx -> (idx_at idx i <= idx_at idx j)%Z).
    { induction j as [|j IH]; intros i Hi Hj; [assert (i = 0) by lia; subst; lia|].
      destruct (Nat.eq_dec i (S j)) as [->|]; [lia|]. specialize (IH i ltac:(lia) ltac:(lia)). specialize (Hinc j Hj). lia. }
    assert (Hw : forall i, i < length l -> (0 <= nth i idx 0 <= nc + sw - 1)%Z).
    { intros i Hi. specialize (Hat i ltac:(lia)). pose proof (Hmono (length l - 1) i ltac:(lia) ltac:(lia)).
      assert (Z.of_nat p <= sw)%Z by (unfold sw; nia). unfold idx_at in *. lia. }
    assert (Hsw : (0 <= sw)%Z) by (unfold sw; nia).
    exists l, off. split; [exact E|]. split; [exact E1|]. split; [|split].
    + apply matching_assignment; auto; lia.
    + intros i Hi. destruct (E5 i Hi) as [_ E5']. eauto.
    + intros off' H'. apply E6. apply (proj1 (matching_assignment sw nc idx (length l) off' ltac:(lia) ltac:(unfold nc; lia) Hsw Hw)). exact H'.
Qed.

(** exact reals, the code's similarity measure *)
Lemma optimal_R p (A B : mat R) idx refs fd radius :
  2 <= p -> 1 <= nrows A -> (Z.of_nat (ncols A) < 2 ^ 31)%Z -> (1 <= Z.of_nat (ncols B) < 2 ^ 31)%Z -> nrows A = nrows B ->
  patch_starts p (Z.of_nat (ncols A)) idx -> create_patches (Z.of_nat p) A idx = Ret refs ->
  let sw := (radius * Z.of_nat p)%Z in
  let nc := Z.of_nat (ncols B) in
  (1 <= radius)%Z -> (Z.of_nat (ncols A) + sw <= 2 ^ 31)%Z ->
  let sim i s := ps_sim (result_of (measure_patch_similarity (nth i refs (MkMat 0 0 [])) (frames_at 0%R B (Z.of_nat s) p))) in
  ((Z.of_nat (ncols A) <= sw /\ nc <= sw)%Z \/ (forall i s, i < length idx -> s < ncols B -> (0 < sim i s)%R)) ->
  exists l off, find_most_optimal_deg_patches measure_patch_similarity refs idx B fd radius = Ret l /\
    1 <= length l <= length idx /\
    matching sw nc idx (length l) off /\
    (forall i, i < length l -> exists x, nth_error l i = Some x /\
       ps_deg_start x = (if skipped off i then 0 else INR (off i) * fd)%R) /\
    fold_right Rplus 0%R (map ps_sim l) = score sim off (length l - 1) /\
    forall off', matching sw nc idx (length l) off' ->
      (score sim off' (length l - 1) <= fold_right Rplus 0 (map ps_sim l))%R.
Proof.
  intros Hp Hn HA HB HR HS HC sw nc Hr Hb sim Hmode.
  destruct (creator_shapes p A B idx refs Hp HA HB HR HS HC) as (Sh & Hl & Hsh & Hat & Hinc & H0 & Hpos & Hle).
  destruct (optimal_reports scoresR counts_exact_R measure_patch_similarity p A B idx refs fd radius Hp HA HB HR HS HC Hr Hb)
    as (l & off & E1 & E2 & E3 & E4 & E5).
  - intros i s Hi Hs. destruct (Hsh i Hi) as [R1 R2].
    destruct (measure_bounded (ref_at refs i) (frames_at n0 B (Z.of_nat s) p)) as (_ & r & _ & E & _ & _ & Hb');
      [rewrite R1; lia|rewrite R2; lia|rewrite R1; exact HR|exact R2|].
    unfold ref_at in E. rewrite E. cbn [result_of]. split; [reflexivity|]. split; [exact I|]. cbn. apply Rabs_le. lra.
  - exact Hmode.
  - exists l, off. split; [exact E1|]. split; [exact E2|]. split; [exact E3|].
    assert (Hsum : fold_right Rplus 0%R (map ps_sim l) = score sim off (length l - 1)).
    { apply (reported_sum _ off (fun i => nth i idx 0%Z) fd (nmul fd (nofZ (Z.of_nat p)))); [lia|].
      intros i Hi. destruct (E4 i Hi) as (x & X1 & X2). rewrite X1. f_equal. exact X2. }
    split; [|split; [exact Hsum|]].
    + intros i Hi. destruct (E4 i Hi) as (x & X1 & X2). exists x. split; [exact X1|]. rewrite X2.
      unfold with_times. destruct (skipped off i); cbn; [reflexivity|]. now rewrite INR_IZR_INZ.
    + intros off' H'. rewrite Hsum. apply (E5 off' H').
Qed.

(** binary64, any similarity measure with finite values of at most 2 *)
Lemma optimal_F (measure : mat PrimFloat.float -> mat PrimFloat.float -> res (psr PrimFloat.float)) p
  (A B : mat PrimFloat.float) idx refs fd radius :
  2 <= p -> (Z.of_nat (ncols A) < 2 ^ 31)%Z -> (1 <= Z.of_nat (ncols B) < 2 ^ 31)%Z -> nrows A = nrows B ->
  patch_starts p (Z.of_nat (ncols A)) idx -> create_patches (Z.of_nat p) A idx = Ret refs ->
  let sw := (radius * Z.of_nat p)%Z in
  let nc := Z.of_nat (ncols B) in
  (1 <= radius)%Z -> (Z.of_nat (ncols A) + sw <= 2 ^ 31)%Z ->
  let RES i s := result_of (measure (nth i refs (MkMat 0 0 [])) (frames_at n0 B (Z.of_nat s) p)) in
  let sim i s := ps_sim (RES i s) in
  (forall i s, i < length idx -> s < ncols B ->
     measure (nth i refs (MkMat 0 0 [])) (frames_at n0 B (Z.of_nat s) p) = Ret (RES i s) /\
     fin (sim i s) /\ (Rabs (FR (sim i s)) <= 2)%R) ->
  ((Z.of_nat (ncols A) <= sw /\ nc <= sw)%Z \/
   (forall i s, i < length idx -> s < ncols B -> (0 < FR (sim i s))%R)) ->
  exists l off, find_most_optimal_deg_patches measure refs idx B fd radius = Ret l /\
    1 <= length l <= length idx /\
    matching sw nc idx (length l) off /\
    (forall i, i < length l -> exists x, nth_error l i = Some x /\
       reports x (RES i (off i)) (skipped off i) (Z.of_nat (off i)) (nth i idx 0%Z) fd (nmul fd (nofZ (Z.of_nat p)))) /\
    forall off', matching sw nc idx (length l) off' ->
      (FR (score sim off' (length l - 1)) <= FR (score sim off (length l - 1)))%R.
Proof.
  intros Hp HA HB HR HS HC sw nc Hr Hb RES sim HM Hmode.
  destruct (optimal_reports scoresF counts_exact_F measure p A B idx refs fd radius Hp HA HB HR HS HC Hr Hb HM Hmode)
    as (l & off & E1 & E2 & E3 & E4 & E5).
  exists l, off. split; [exact E1|]. split; [exact E2|]. split; [exact E3|]. split; [|exact E5].
  intros i Hi. destruct (E4 i Hi) as (x & X1 & X2). exists x. split; [exact X1|]. rewrite X2. apply with_times_reports.
Qed.

Lemma one_ok : fin (nofZ 1) /\ (Rabs (FR (nofZ 1)) <= 2)%R /\ (0 < FR (nofZ 1))%R.
Proof. destruct (FR_ofZ 1 ltac:(lia)) as [E F]. change (nofZ 1) with (F_ofZ 1). rewrite E. split; [exact F|]. rewrite Rabs_pos_eq; lra. Qed.
Lemma one_ok' : fin (nofZ 1) /\ (0 < FR (nofZ 1) <= 2)%R.
Proof. destruct (FR_ofZ 1 ltac:(lia)) as [E F]. change (nofZ 1) with (F_ofZ 1). rewrite E. split; [exact F|]. lra. Qed.
Lemma outside_window' :
  exists r0 r1, find_most_optimal_deg_patches measure_patch_similarity [ridge; ridge] [0; 5]%Z valleys 1%float 1 = Ret [r0; r1] /\
    ncols ridge = 1 /\ ps_ref_start r0 = 0%float /\ ps_deg_start r0 = 4%float /\ ps_deg_end r0 = 5%float.
Proof. destruct outside_window as (r0 & r1 & H). exists r0, r1. tauto. Qed.

Lemma inside_window_F (measure : mat PrimFloat.float -> mat PrimFloat.float -> res (psr PrimFloat.float)) p
  (A B : mat PrimFloat.float) idx refs fd radius :
  2 <= p -> (Z.of_nat (ncols A) < 2 ^ 31)%Z -> (1 <= Z.of_nat (ncols B) < 2 ^ 31)%Z -> nrows A = nrows B ->
  patch_starts p (Z.of_nat (ncols A)) idx -> create_patches (Z.of_nat p) A idx = Ret refs ->
  (1 <= radius)%Z -> (Z.of_nat (ncols A) + radius * Z.of_nat p <= 2 ^ 31)%Z ->
  (forall i s, i < length idx -> s < ncols B ->
     exists r, measure (nth i refs (MkMat 0 0 [])) (frames_at n0 B (Z.of_nat s) p) = Ret r /\
       fin (ps_sim r) /\ (0 < FR (ps_sim r) <= 2)%R) ->
  exists l, find_most_optimal_deg_patches measure refs idx B fd radius = Ret l /\
    forall i x, nth_error l i = Some x -> exists o : Z,
      (Z.abs (o - nth i idx 0) <= radius * Z.of_nat p)%Z /\ (0 <= o < Z.of_nat (ncols B))%Z /\
      (ps_deg_start x = nmul (nofZ o) fd \/ (ps_sim x = n0 /\ ps_deg_start x = n0 /\ ps_deg_end x = n0)).
Proof.
  intros Hp HA HB HR HS HC Hr Hb HM.
  destruct (optimal_F measure p A B idx refs fd radius Hp HA HB HR HS HC Hr Hb) as (l & off & E1 & E2 & E3 & E4 & _).
  - intros i s Hi Hs. destruct (HM i s Hi Hs) as (r & -> & F & P). cbn [result_of]. split; [reflexivity|].
    split; [exact F|]. rewrite Rabs_pos_eq; lra.
  - right. intros i s Hi Hs. destruct (HM i s Hi Hs) as (r & -> & F & P). cbn [result_of]. lra.
  - exists l. split; [exact E1|]. intros i x Hx.
    assert (Hi : i < length l) by (apply nth_error_Some; congruence).
    destruct (E4 i Hi) as (y & Y1 & Y2). rewrite Hx in Y1. injection Y1 as <-.
    exists (Z.of_nat (off i)). destruct E3 as [E3 _]. destruct (E3 i Hi) as [W1 W2].
    split; [exact W1|]. split; [lia|]. unfold reports in Y2. destruct Y2 as (_ & _ & Y2).
    destruct (skipped off i); [right|left]; tauto.
Qed.

Lemma one_result {T} {N : Num T} (measure : mat T -> mat T -> res (psr T)) refs idx S p fd radius l i x :
  refs <> [] -> (forall ref, In ref refs -> nrows ref = nrows S /\ ncols ref = p) ->
  (1 <= Z.of_nat p < 2 ^ 31)%Z -> (1 <= Z.of_nat (ncols S) < 2 ^ 31)%Z ->
  find_most_optimal_deg_patches measure refs idx S fd radius = Ret l ->
  nth_error l i = Some x ->
  let pd := nmul fd (nofZ (Z.of_nat p)) in
  ps_ref_start x = nmul (nofZ (nth i idx 0%Z)) fd /\ ps_ref_end x = nadd (ps_ref_start x) pd /\
  ((ps_sim x = n0 /\ ps_deg_start x = n0 /\ ps_deg_end x = n0 /\ (forall v, In v (elems (ps_means x)) -> v = n0)) \/
   (exists o r, o < ncols S /\
      measure (nth i refs (MkMat 0 0 [])) (frames_at n0 S (Z.of_nat o) p) = Ret r /\
      ps_sim x = ps_sim r /\ ps_means x = ps_means r /\
      ps_deg_start x = nmul (nofZ (Z.of_nat o)) fd /\ ps_deg_end x = nadd (ps_deg_start x) pd)).
Proof.
  intros H1 H2 H3 H4 H Hx pd.
  destruct (ordered_reports measure refs idx S p fd radius l H1 H2 H3 H4 H) as (off & lost & _ & _ & _ & D & _).
  assert (Hi : i < length l) by (apply nth_error_Some; congruence).
  destruct (D i Hi) as (O & y & r & Y & M & Rp). rewrite Hx in Y. injection Y as <-.
  destruct Rp as (R1 & R2 & R3). split; [exact R1|]. split; [exact R2|].
  destruct (lost i); [left; tauto|right]. exists (off i), r. tauto.
Qed.
