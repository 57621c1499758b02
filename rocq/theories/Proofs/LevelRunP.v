(** C90: a whole comparison of quiet recordings. *)
From Coq Require Import ZArith List Bool Reals Lra Lia.
From Coq Require Import ZifyBool ZifyNat.
From Verif Require Import Base.Res Base.Num Base.NumR Base.Lists Base.Mat Model.Amatrix Model.MiscMath Model.Fft Model.Window Model.Erb
  Model.FilterBank Model.Spectrogram Model.Nsim Model.Alignment Model.MiscAudio Model.Mappers
  Model.Visqol Model.Manager Spec.FftSpec Spec.StatSpec Spec.AudioSpec Spec.ManagerSpec Spec.TotalSpec Spec.IdentitySpec Spec.LevelSpec
  Proofs.RealP Proofs.FftP Proofs.DftP Proofs.ShapeP Proofs.AggregateP Proofs.WindowP Proofs.BankP Proofs.PrepareP Proofs.MiscAudioP Proofs.GammatoneP
  Proofs.MapperP Proofs.TotalP Proofs.IdentityP Proofs.IdentityRunP Proofs.LevelP.
Import ListNotations.
Open Scope R_scope.

Lemma align_rate (pf : pffft R) (ref deg d : audio R) lag : globally_align pf ref deg = Ret (d, lag) -> au_sr d = au_sr deg.
Proof.
  unfold globally_align. intros H. do 3 (apply bind_ret in H; destruct H as (? & _ & H)). unfold apply_lag in H. destruct (_ || _); [injection H as <- _; reflexivity|].
  apply bind_ret in H. destruct H as (? & _ & H). injection H as <- _. reflexivity.
Qed.
Lemma similarity_degraded {L : Libm R} meas (pf : pffft R) st w ref deg k : snd (fst (calculate_similarity meas pf st w ref deg k)) = scale_to_match_spl ref deg.
Proof.
  unfold calculate_similarity. destruct (build _ k ref w) as [k1 [rs| | |]]; try reflexivity. destruct (build _ k1 _ w) as [k2 [ds| | |]]; try reflexivity.
  destruct (compare_spectrograms _ _ _ _ _ _ _ _ _) as [k3 r]. reflexivity.
Qed.

(** what a run that returned went through *)
Lemma run_parts {L : Libm R} (w : world R) (m : manager R) ref deg msg : snd (run w m ref deg) = Ret msg ->
  exists d lag win k' r, au_sr ref = au_sr deg /\ au_sr d = au_sr ref /\ make_window (au_sr ref) = Ret win /\
    calculate_similarity measure_patch_similarity (w_fft w) (mg_settings m) win ref d (mg_bank m) = (k', scale_to_match_spl ref d, Ret r) /\
    snd (fst (run w m ref deg)) = scale_to_match_spl ref d /\ populate r lag = Ret msg /\
    (if mg_no_global m then Ret (deg, n0) else globally_align (w_fft w) ref deg) = Ret (d, lag).
Proof.
  unfold run. destruct (negb _); [discriminate|]. unfold validate. destruct (Z.eqb_spec (au_sr ref) (au_sr deg)) as [ES|ES]; [|discriminate].
  destruct (if mg_no_global m then _ else _) as [[d lag]| | |] eqn:EG; try discriminate. destruct (make_window _) as [win| | |]; try discriminate.
  pose proof (similarity_degraded measure_patch_similarity (w_fft w) (mg_settings m) win ref d (mg_bank m)) as SD.
  destruct (calculate_similarity _ _ _ _ _ _ _) as [[k' d'] x] eqn:EC. cbn [fst snd] in *. subst d'. intros H. apply bind_ret in H. destruct H as (r & -> & H).
  exists d, lag, win, k', r. split; [exact ES|]. split; [|auto 10]. destruct (mg_no_global m); [injection EG as <- _; congruence|]. apply align_rate in EG. congruence.
Qed.

Lemma quiet_perfect (speech : bool) (sr : Z) (N : nat) : (44 <= sr < 2 ^ 31)%Z -> exists eps, 0 < eps /\
  forall (w : world R) (m : manager R) (ref deg : audio R) msg, st_speech (mg_settings m) = speech -> au_sr ref = sr ->
    reachable m -> long_enough (mg_settings m) ref -> within eps ref -> 0 < energy (au_data ref) ->
    let n' := length (au_data (snd (fst (run w m ref deg)))) in
    (length (au_data ref) <= n' <= N)%nat ->
    (frames_in sr n' + st_radius (mg_settings m) * (if speech then 20 else 30) <= 2 ^ 31)%Z ->
    snd (run w m ref deg) = Ret msg -> no_difference (if speech then 21 else 32) msg.
Proof.
  intros Hsr. destruct (cells_bound speech (num_bands speech) kMinimumFreq sr ltac:(lia)) as (K & K0 & HK).
  { unfold kMinimumFreq. cbn [nofZ NumR]. lra. }
  pose proof audible_pos as AP. pose proof (pos_INR N) as PN.
  assert (Q0 : 0 < K * (INR N + 1)) by nra.
  exists (audible / (K * (INR N + 1))). assert (P0 : 0 < audible / (K * (INR N + 1))) by (apply Rdiv_lt_0_compat; assumption). split; [exact P0|].
  assert (P1 : audible / (K * (INR N + 1)) * (K * (INR N + 1)) = audible) by (field; split; lra).
  set (eps := audible / _) in *. clearbody eps.
  intros w m ref deg msg ESP ESR HR (_ & Hl & HF & HW & Rad & RB) HQ HE n' HN RB' HM. rewrite ESR in *.
  destruct (run_parts w m ref deg msg HM) as (d & lag & win & k' & r & E1 & E2 & E3 & E4 & E5 & E6 & _). rewrite ESR in *.
  assert (LD : n' = length (au_data d)) by (unfold n'; rewrite E5; unfold scale_to_match_spl; cbn [au_data]; apply map_length). rewrite LD in *. clear n' LD.
  set (st := mg_settings m) in *. rewrite ESP in HF, HW, RB. 
  assert (W4 : (4 <= window_samples sr)%Z) by (unfold window_samples; lia).
  assert (H1 : (1 <= hop_samples sr)%Z) by (unfold hop_samples; lia).
  assert (Wr : (window_samples sr < Z.of_nat (length (au_data ref)))%Z).
  { unfold frames_in in HF. destruct (Z.lt_ge_cases (window_samples sr) (Z.of_nat (length (au_data ref)))); [assumption|].
    assert ((Z.of_nat (length (au_data ref)) - window_samples sr) / hop_samples sr <= 0)%Z; [|destruct speech; lia].
    assert (Q : ((Z.of_nat (length (au_data ref)) - window_samples sr) / hop_samples sr < 1)%Z) by (apply Z.div_lt_upper_bound; lia). lia. }
  pose proof (make_window_R sr ltac:(lia)) as EW. fold (window_samples sr) in EW. rewrite E3 in EW. injection EW as EW.
  assert (EH : hop_size win = Some (hop_samples sr)).
  { rewrite EW. rewrite hop_size_R. rewrite Z2Nat.id by lia. reflexivity. }
  assert (WS : Z.of_nat (w_size win) = window_samples sr) by (rewrite EW; cbn [w_size]; lia).
  assert (EFR : forall n, (w_size win < n)%nat -> Z.of_nat (1 + (n - w_size win) / Z.to_nat (hop_samples sr)) = frames_in sr n).
  { intros n Hn. unfold frames_in. rewrite <- WS. rewrite Nat2Z.inj_add, Nat2Z.inj_div, Nat2Z.inj_sub by lia. rewrite !Z2Nat.id by lia. reflexivity. }
  pose proof (bank_invariant m HR) as [KB KM]. fold st in KB. rewrite ESP in KB.
  pose proof (num_bands_pos speech) as NP. set (k := mg_bank m) in *.
  assert (HS : within (eps * (INR N + 1)) (scale_to_match_spl ref d)).
  { replace (INR N + 1) with (INR (S N)) by (rewrite S_INR; reflexivity). apply scaled_within; [lra|exact HQ|exact HE|lia|lia]. }
  assert (HQ' : within (eps * (INR N + 1)) ref) by (intros x Hx; pose proof (HQ x Hx); nra).
  destruct (similarity_match (w_fft w) st win ref d k (hop_samples sr) k' (scale_to_match_spl ref d) r) as (fd & cfb & ps & S1 & S2 & S3 & S4); try assumption; try lia.
  { rewrite ESP. exact KB. }
  { rewrite ESP. pose proof (EFR (length (au_data ref)) ltac:(lia)) as X. unfold enough_frames. destruct speech; lia. }
  { rewrite ESP. pose proof (EFR (length (au_data d)) ltac:(lia)) as X. rewrite X. unfold patch_size. destruct speech; exact RB'. }
  { rewrite ESP. intros HS'. destruct (HW HS') as [W1 W2]. rewrite WS. split; [|exact W2]. unfold hop_samples. lia. }
  { rewrite ESP. intros R1 D1 A B B1 B2 EP.
    assert (LD : length (au_data (scale_to_match_spl ref d)) = length (au_data d)) by (unfold scale_to_match_spl; cbn [au_data]; apply map_length).
    pose proof (HK k ref win (hop_samples sr) R1 _ ESR KB KM EH H1 ltac:(lia) HQ' ltac:(nra) B1) as Q1.
    pose proof (HK k (scale_to_match_spl ref d) win (hop_samples sr) D1 _ E2 KB KM EH H1 ltac:(lia) HS ltac:(nra) B2) as Q2.
    replace (K * (eps * (INR N + 1))) with audible in Q1, Q2 by (rewrite <- P1; ring).
    destruct (build_ret speech k ref win (hop_samples sr) EH H1 ltac:(lia)) as (R2 & B1' & W1 & N1 & C1 & _). rewrite B1 in B1'. injection B1' as <-.
    destruct (build_ret speech k (scale_to_match_spl ref d) win (hop_samples sr) EH H1 ltac:(lia)) as (D2 & B2' & W2 & N2 & C2 & _). rewrite B2 in B2'. injection B2' as <-.
    rewrite LD in C2.
    destruct (prepare_quiet (sp_data R1) (sp_data D1) A B W1 W2) as [Z1 Z2]; try lia; try assumption; [rewrite C1; apply le_n_S, Nat.le_0_l|rewrite C2; apply le_n_S, Nat.le_0_l|].
    apply prepare_inv in EP.
    pose proof (EFR (length (au_data ref)) ltac:(lia)) as X1. pose proof (EFR (length (au_data d)) ltac:(lia)) as X2.
    assert (FM : (frames_in sr (length (au_data ref)) <= frames_in sr (length (au_data d)))%Z).
    { unfold frames_in. assert ((Z.of_nat (length (au_data ref)) - window_samples sr) / hop_samples sr <= (Z.of_nat (length (au_data d)) - window_samples sr) / hop_samples sr)%Z; [|lia].
      apply Z.div_le_mono; lia. }
    split; [lia|]. intros b c Hb Hc. rewrite Z1, Z2 by lia. reflexivity. }
  rewrite ESP in S4.
  destruct (summary_perfect (num_bands speech) (pf_f32 (w_fft w)) (st_mapper st) fd cfb ps r NP S2 S3 S4 S1) as (T1 & T2 & T3 & T4 & T5 & T6).
  pose proof (populate_inv (num_bands speech) r lag msg) as P. rewrite T1 in P. specialize (P (perfect_shaped _ _ S4) E6).
  destruct P as (Q1 & Q2 & Q3 & Q4 & Q5 & Q6 & _ & Q8 & _ & _ & Q11).
  replace (if speech then 21%nat else 32%nat) with (num_bands speech) by (destruct speech; reflexivity).
  unfold no_difference. rewrite ?Q1, ?Q2, ?Q3, ?Q4, ?Q5, ?Q6, ?Q8, ?Q11, T2, T3, T4, T5.
  do 4 (split; [reflexivity|]). split; [destruct ps; [congruence|discriminate]|].
  apply Forall_forall. intros q Hq. apply in_map_iff in Hq. destruct Hq as (p & <- & Hp). rewrite Forall_forall in S4. destruct (S4 p Hp) as (SH & U1 & U2).
  cbn [pm_sim pm_means]. split; [exact U1|]. destruct SH as (C1 & _). pose proof (column_elems _ _ C1) as LE.
  apply (list_ext _ _ 0%R); [rewrite repeat_length; exact LE|]. intros b Hb. rewrite LE in Hb. rewrite nth_repeat_lt by exact Hb. exact (proj1 (U2 b Hb)).
Qed.
