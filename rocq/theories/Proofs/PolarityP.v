(** C84: polarity. *)
From Coq Require Import ZArith List Bool Reals Lra Lia.
From Verif Require Import Base.Res Base.Num Base.NumR Base.Lists Base.Mat Base.Cplx Model.Amatrix Model.MiscMath Model.Window Model.SignalFilter Model.Erb
  Model.FilterBank Model.Spectrogram Model.Nsim Model.Fft Model.Alignment Model.Selector Model.PatchCreator Model.MiscAudio Model.Mappers Model.Visqol Model.Manager
  Spec.PolaritySpec Proofs.ApiP.
Import ListNotations.
Open Scope R_scope.

Notation neg := (map Ropp).
Definition neg2 (p : list R * list R) : list R * list R := (neg (fst p), neg (snd p)).
Definition neg4 (f : list R * list R * list R * list R) : list R * list R * list R * list R :=
  let '(a, b, c, d) := f in (neg a, neg b, neg c, neg d).
Definition rmap {A B} (f : A -> B) (x : res A) : res B := do a <- x; Ret (f a).

Lemma neg_nth l i : nth i (neg l) 0 = - nth i l 0.
Proof. replace 0 with (- 0) at 1 by lra. apply map_nth. Qed.
Lemma neg_zeros n : neg (repeat 0 n) = repeat 0 n.
Proof. induction n as [|n IH]; [reflexivity|]. cbn. rewrite IH. f_equal. lra. Qed.

Lemma filter_cond_neg b a x y f : filter_cond b a (- x) (- y) (neg f) = neg (filter_cond b a x y f).
Proof.
  unfold filter_cond. rewrite map_length, map_map. apply map_ext. intros i. change (n0 : R) with 0. rewrite !neg_nth.
  destruct (Nat.ltb _ _); [|reflexivity]. cbn. lra.
Qed.
Lemma filter_loop_neg b a sig : forall f, filter_loop b a (neg sig) (neg f) = neg2 (filter_loop b a sig f).
Proof.
  induction sig as [|x t IH]; intros f; [reflexivity|]. cbn [map filter_loop]. change (n0 : R) with 0. rewrite neg_nth.
  replace (nadd (nmul (nth 0 b 0) (- x)) (- nth 0 f 0)) with (- (nadd (nmul (nth 0 b 0) x) (nth 0 f 0))) by (cbn; lra).
  rewrite filter_cond_neg, IH. destruct (filter_loop b a t _) as [ys f']. reflexivity.
Qed.
Lemma signal_filter_neg b a sig ic : signal_filter b a (neg sig) (neg ic) = rmap neg2 (signal_filter b a sig ic).
Proof.
  unfold signal_filter. rewrite map_length. destruct (_ || _); [reflexivity|]. change (n0 : R) with 0.
  rewrite <- (neg_zeros (length a - length ic)) at 1. rewrite <- map_app, filter_loop_neg.
  destruct (filter_loop b a sig _) as [ys f']. unfold neg2. cbn [fst snd rmap bind]. now rewrite firstn_map.
Qed.
Definition negb2 (p : list R * (list R * list R * list R * list R)) := (neg (fst p), neg4 (snd p)).
Lemma band_filter_neg c cond sig : band_filter c (neg4 cond) (neg sig) = rmap negb2 (band_filter c cond sig).
Proof.
  destruct cond as [[[f1 f2] f3] f4]. unfold band_filter. cbn [neg4]. rewrite signal_filter_neg.
  destruct (signal_filter _ _ sig f1) as [[y1 g1]| | |]; [|reflexivity..]. cbn [rmap bind neg2 fst snd]. rewrite signal_filter_neg.
  destruct (signal_filter _ _ y1 f2) as [[y2 g2]| | |]; [|reflexivity..]. cbn [rmap bind neg2 fst snd]. rewrite signal_filter_neg.
  destruct (signal_filter _ _ y2 f3) as [[y3 g3]| | |]; [|reflexivity..]. cbn [rmap bind neg2 fst snd]. rewrite signal_filter_neg.
  destruct (signal_filter _ _ y3 f4) as [[y4 g4]| | |]; reflexivity.
Qed.
Definition negs (p : list (list R) * list (list R * list R * list R * list R)) := (map neg (fst p), map neg4 (snd p)).
Lemma bands_filter_neg cs n sig : forall conds, bands_filter cs (map neg4 conds) n (neg sig) = rmap negs (bands_filter cs conds n sig).
Proof.
  revert cs. induction n as [|n IH]; intros cs conds; [destruct cs; reflexivity|]. destruct cs as [|c cs]; [reflexivity|]. destruct conds as [|f fs]; [reflexivity|].
  cbn [map bands_filter]. rewrite band_filter_neg. destruct (band_filter c f sig) as [[y f']| | |]; [|reflexivity..]. cbn [rmap bind negb2 fst snd].
  rewrite IH. destruct (bands_filter cs fs n sig) as [[ys fs']| | |]; reflexivity.
Qed.
Lemma zero_cond_neg n : map neg4 (repeat (@zero_cond R _) n) = repeat zero_cond n.
Proof.
  assert (E : neg4 zero_cond = @zero_cond R _).
  { unfold zero_cond, neg4. cbn [map]. change (n0 : R) with 0. now rewrite Ropp_0. }
  induction n as [|n IH]; [reflexivity|]. cbn [repeat map]. now rewrite IH, E.
Qed.
Lemma row_rms_neg y : row_rms (neg y) = row_rms y.
Proof. unfold row_rms. rewrite map_map. do 2 f_equal. apply map_ext. intros x. unfold nsq. cbn. lra. Qed.

(** the bank afterwards differs only in its conditions *)
Definition same_coef (k k' : bank R) : Prop := bk_bands k = bk_bands k' /\ bk_min k = bk_min k' /\ bk_coef k = bk_coef k'.
Lemma reset_same k k' : same_coef k k' -> reset_conditions k = reset_conditions k'.
Proof. intros (A & B & C). unfold reset_conditions. now rewrite A, B, C. Qed.
Lemma apply_filter_neg (k : bank R) sig :
  match apply_filter (reset_conditions k) (neg sig), apply_filter (reset_conditions k) sig with
  | Ret (ys', k'), Ret (ys, k'') => ys' = map neg ys /\ same_coef k' k'' /\ same_coef k'' k
  | a, b => rmap (fun _ => tt) a = rmap (fun _ => tt) b
  end.
Proof.
  unfold apply_filter, reset_conditions. cbn [bk_coef bk_cond bk_bands bk_min]. pose proof (bands_filter_neg (bk_coef k) (bk_bands k) sig (repeat zero_cond (bk_bands k))) as E. rewrite zero_cond_neg in E. rewrite E.
  destruct (bands_filter _ _ _ sig) as [[ys fs]| | |]; try reflexivity. cbn. unfold same_coef. cbn. auto.
Qed.
Lemma apply_hann_neg {L : Libm R} (w : window R) l : apply_hann w (neg l) = rmap neg (apply_hann w l).
Proof.
  unfold apply_hann. rewrite map_length. destruct (Nat.ltb _ _); [reflexivity|]. cbn [rmap bind]. apply (f_equal (@Ret _)). rewrite map_map. apply map_ext.
  intros i. change (n0 : R) with 0. rewrite neg_nth. destruct (Nat.ltb _ _); cbn; lra.
Qed.
Definition frames_agree (a b : res (list (list R) * bank R)) : Prop :=
  match a, b with
  | Ret (c, k), Ret (c', k') => c = c' /\ same_coef k k'
  | a, b => rmap (fun _ => tt) a = rmap (fun _ => tt) b
  end.
Lemma build_frames_neg {L : Libm R} (w : window R) hop sig is : forall k k', same_coef k k' ->
  frames_agree (build_frames w hop (neg sig) is k) (build_frames w hop sig is k').
Proof.
  induction is as [|i t IH]; intros k k' HK; [cbn; auto|]. cbn [build_frames]. rewrite map_length. destruct (Nat.ltb _ _); [reflexivity|].
  rewrite skipn_map, firstn_map, apply_hann_neg. destruct (apply_hann w _) as [wf| | |]; [|reflexivity..]. cbn [rmap bind].
  rewrite (reset_same k k' HK). pose proof (apply_filter_neg k' wf) as A.
  destruct (apply_filter (reset_conditions k') (neg wf)) as [[ys1 k1]| | |]; destruct (apply_filter (reset_conditions k') wf) as [[ys k2]| | |];
    try discriminate A; try (cbn in A |- *; congruence).
  destruct A as (-> & S1 & _). cbn [bind]. specialize (IH k1 k2 S1). unfold frames_agree in IH |- *.
  destruct (build_frames w hop (neg sig) t k1) as [[c1 q1]| | |]; destruct (build_frames w hop sig t k2) as [[c2 q2]| | |];
    cbn [bind] in *; try exact IH; try discriminate IH.
  destruct IH as [-> S2]. split; [|exact S2]. f_equal. rewrite map_map. apply map_ext. apply row_rms_neg.
Qed.
Lemma build_inverted {L : Libm R} speech k k' (s : audio R) w : alike k k' ->
  snd (build speech k (inverted s) w) = snd (build speech k' s w) /\ alike (fst (build speech k (inverted s) w)) (fst (build speech k' s w)).
Proof.
  intros A. destruct (build_alike speech k' k s w) as [E1 A1]; [destruct A; split; auto|]. rewrite E1.
  assert (X : snd (build speech k (inverted s) w) = snd (build speech k s w) /\ alike (fst (build speech k (inverted s) w)) (fst (build speech k s w))).
  { unfold build. unfold inverted. cbn [au_data au_sr]. destruct (prepared_bank speech k (au_sr s)) as [k1 cfb]. rewrite map_length.
    destruct (hop_size w) as [h|]; [|split; [reflexivity|split; reflexivity]]. destruct (Nat.leb _ _); [split; [reflexivity|split; reflexivity]|].
    destruct (h <=? 0)%Z; [split; [reflexivity|split; reflexivity]|]. cbv zeta.
    pose proof (build_frames_neg w (Z.to_nat h) (au_data s) (seq 0 (1 + (length (au_data s) - w_size w) / Z.to_nat h)) k1 k1 (conj eq_refl (conj eq_refl eq_refl))) as F.
    unfold frames_agree in F.
    destruct (build_frames _ _ (neg _) _ _) as [[c1 q1]|e1| |]; destruct (build_frames _ _ (au_data s) _ _) as [[c2 q2]|e2| |]; cbn in F; try discriminate F; cbn [fst snd].
    - destruct F as [-> (B1 & B2 & _)]. split; [reflexivity|split; assumption].
    - injection F as ->. split; [reflexivity|split; reflexivity].
    - split; [reflexivity|split; reflexivity].
    - split; [reflexivity|split; reflexivity]. }
  destruct X as [X1 X2]. split; [exact X1|]. destruct A1, X2. split; congruence.
Qed.

Lemma level_inverted {L : Libm R} (s : audio R) : sound_pressure_level (inverted s) = sound_pressure_level s.
Proof.
  unfold sound_pressure_level, inverted. cbn [au_data]. rewrite map_length, map_map.
  rewrite (map_ext (fun x => nsq (- x)) nsq); [reflexivity|]. intros x. unfold nsq. cbn. lra.
Qed.
Lemma scale_inverted {L : Libm R} (ref deg : audio R) : scale_to_match_spl ref (inverted deg) = inverted (scale_to_match_spl ref deg).
Proof.
  unfold scale_to_match_spl, spl_scale_factor. rewrite level_inverted. unfold inverted. cbn [au_data au_sr]. f_equal. rewrite !map_map. apply map_ext. intros x. cbn. lra.
Qed.
Lemma scale_ref_inverted {L : Libm R} (ref deg : audio R) : scale_to_match_spl (inverted ref) deg = scale_to_match_spl ref deg.
Proof. unfold scale_to_match_spl, spl_scale_factor. now rewrite level_inverted. Qed.

Lemma deg_polarity {L : Libm R} (w : world R) (m : manager R) ref deg : mg_no_global m = true -> st_no_realign (mg_settings m) = true ->
  snd (run w m ref (inverted deg)) = snd (run w m ref deg).
Proof.
  intros NG NR. unfold run. rewrite NG. destruct (negb (mg_init m)); [reflexivity|]. change (validate ref (inverted deg)) with (validate ref deg).
  destruct (validate ref deg); [reflexivity|]. destruct (make_window (au_sr ref)) as [win| | |]; [|reflexivity..].
  unfold calculate_similarity. rewrite scale_inverted. destruct (build _ (mg_bank m) ref win) as [k1 rs]. destruct rs as [rspec| | |]; [|reflexivity..].
  pose proof (build_inverted (st_speech (mg_settings m)) k1 k1 (scale_to_match_spl ref deg) win (conj eq_refl eq_refl)) as [E _].
  destruct (build _ k1 (inverted _) win) as [k2 ds]. destruct (build _ k1 (scale_to_match_spl ref deg) win) as [k2' ds']. cbn [snd] in E. subst ds'.
  destruct ds as [dspec| | |]; [|reflexivity..]. unfold compare_spectrograms. rewrite NR.
  destruct (bind (prepare_spectrograms _ _) _) as [[fd sims]| | |]; reflexivity.
Qed.
Lemma ref_polarity {L : Libm R} (w : world R) (m : manager R) ref deg : mg_no_global m = true -> st_no_realign (mg_settings m) = true ->
  st_speech (mg_settings m) = false -> snd (run w m (inverted ref) deg) = snd (run w m ref deg).
Proof.
  intros NG NR SP. unfold run. rewrite NG. destruct (negb (mg_init m)); [reflexivity|]. change (validate (inverted ref) deg) with (validate ref deg).
  destruct (validate ref deg); [reflexivity|]. change (au_sr (inverted ref)) with (au_sr ref). destruct (make_window (au_sr ref)) as [win| | |]; [|reflexivity..].
  unfold calculate_similarity. rewrite scale_ref_inverted, SP.
  pose proof (build_inverted false (mg_bank m) (mg_bank m) ref win (conj eq_refl eq_refl)) as [E A].
  destruct (build _ (mg_bank m) (inverted ref) win) as [k1 rs]. destruct (build _ (mg_bank m) ref win) as [k1' rs']. cbn [fst snd] in E, A. subst rs'.
  destruct rs as [rspec| | |]; [|reflexivity..].
  pose proof (build_alike false k1 k1' (scale_to_match_spl ref deg) win A) as [E2 A2].
  destruct (build _ k1 (scale_to_match_spl ref deg) win) as [k2 ds]. destruct (build _ k1' (scale_to_match_spl ref deg) win) as [k2' ds']. cbn [fst snd] in E2, A2. subst ds'.
  destruct ds as [dspec| | |]; [|reflexivity..]. unfold compare_spectrograms. rewrite NR, SP. unfold ref_patch_indices. change (au_sr (inverted ref)) with (au_sr ref).
  destruct (bind (prepare_spectrograms _ _) _) as [[fd sims]| | |]; reflexivity.
Qed.
