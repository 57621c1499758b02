(** C82: the whole run. *)
From Coq Require Import ZArith List Bool Reals Lra Lia.
From Coq Require Import ZifyBool ZifyNat.
From Verif Require Import Base.Res Base.Num Base.NumR Base.Lists Base.Mat Model.Fft Model.Window
  Model.FilterBank Model.Nsim Model.Alignment Model.MiscAudio Model.Mappers
  Model.Visqol Model.Manager Spec.FftSpec Spec.StatSpec Proofs.DftP Spec.ManagerSpec Spec.TotalSpec Spec.IdentitySpec
  Proofs.FftP Proofs.ShapeP Proofs.AggregateP Proofs.WindowP Proofs.MapperP Proofs.MapperCasesP Proofs.TotalP Proofs.TotalCasesP Proofs.SelfLagP Proofs.IdentityP.
Import ListNotations.
Open Scope Z_scope.

(** what decides the score *)
Definition scored (w : world R) (st : settings R) (nb : nat) (msg : sim_msg R) : Prop :=
  predict_quality (pf_f32 (w_fft w)) (st_mapper st) (repeat 1%R nb) (repeat 1%R nb) (repeat 0%R nb) (ms_fvdegenergy msg) = Ret (ms_moslqo msg).

Lemma self_perfect_full (w : world R) (m : manager R) (s : audio R) : keeps_length (w_fft w) -> (mg_no_global m = true \/ w_fft w = ideal_fft) ->
  mg_init m = true -> reachable m -> long_enough (mg_settings m) s -> can_predict (st_mapper (mg_settings m)) ->
  exists msg, snd (run w m s s) = Ret msg /\ perfect_result (num_bands (st_speech (mg_settings m))) msg /\
    scored w (mg_settings m) (num_bands (st_speech (mg_settings m))) msg.
Proof.
  intros K NG I HR (Hsr & Hl & HF & HW & Rad & RB) CP. set (st := mg_settings m) in *.
  assert (W4 : 4 <= window_samples (au_sr s)) by (unfold window_samples; lia).
  assert (H1 : 1 <= hop_samples (au_sr s)) by (unfold hop_samples; lia).
  assert (Wr : 2 * window_samples (au_sr s) < Z.of_nat (length (au_data s))).
  { unfold frames_in in HF. destruct (Z.lt_ge_cases (2 * window_samples (au_sr s)) (Z.of_nat (length (au_data s)))); [assumption|].
    assert ((Z.of_nat (length (au_data s)) - window_samples (au_sr s)) / hop_samples (au_sr s) <= 27); [|destruct (st_speech st); lia].
    assert (Q : (Z.of_nat (length (au_data s)) - window_samples (au_sr s)) / hop_samples (au_sr s) < 28) by (apply Z.div_lt_upper_bound; [lia|unfold hop_samples; lia]). lia. }
  destruct (run_returns_at w m s s K I HR eq_refl Hsr Hl Hl ltac:(lia) HF HW Rad RB CP) as (msg & EM).
  exists msg. split; [exact EM|].
  pose proof (make_window_R (au_sr s) ltac:(lia)) as EW. fold (window_samples (au_sr s)) in EW.
  set (win := @MkWin R (Z.to_nat (window_samples (au_sr s))) kOverlap) in *.
  assert (EH : hop_size win = Some (hop_samples (au_sr s))).
  { unfold win. rewrite hop_size_R. rewrite Z2Nat.id by lia. reflexivity. }
  assert (EFR : Z.of_nat (1 + (length (au_data s) - w_size win) / Z.to_nat (hop_samples (au_sr s))) = frames_in (au_sr s) (length (au_data s))).
  { unfold frames_in, win. cbn [w_size]. rewrite Nat2Z.inj_add, Nat2Z.inj_div, Nat2Z.inj_sub by lia. rewrite !Z2Nat.id by lia. reflexivity. }
  assert (EG : (if mg_no_global m then Ret (s, n0) else globally_align (w_fft w) s s) = Ret (s, 0%R)).
  { destruct (mg_no_global m); [reflexivity|]. destruct NG as [C|EE]; [discriminate|]. rewrite EE. apply self_align; lia. }
  pose proof (bank_invariant m HR) as [KB _]. fold st in KB.
  unfold run in EM. rewrite I in EM. cbn [negb] in EM. unfold validate in EM. rewrite Z.eqb_refl, EG, EW in EM. fold st in EM.
  destruct (calculate_similarity _ (w_fft w) st win s s (mg_bank m)) as [[k' d'] x] eqn:EC. cbn [snd] in EM.
  apply bind_ret in EM. destruct EM as (r & EX & EM); subst x.
  destruct (similarity_self (w_fft w) st win s (mg_bank m) (hop_samples (au_sr s)) k' d' r) as (fd & cfb & ps & S1 & S2 & S3 & S4); try assumption; try lia.
  { rewrite KB. apply num_bands_pos. }
  { unfold win; cbn [w_size]; lia. }
  { unfold enough_frames. destruct (st_speech st); lia. }
  { rewrite EFR. unfold patch_size. destruct (st_speech st); exact RB. }
  { intros HS. destruct (HW HS) as [W1 W2]. unfold win; cbn [w_size]. rewrite Z2Nat.id by lia. split; [|exact W2]. unfold hop_samples. lia. }
  pose proof (num_bands_pos (st_speech st)) as NP.
  destruct (summary_perfect (num_bands (st_speech st)) (pf_f32 (w_fft w)) (st_mapper st) fd cfb ps r NP S2 S3 S4 S1) as (T1 & T2 & T3 & T4 & T5 & T6).
  pose proof (populate_inv (num_bands (st_speech st)) r 0%R msg) as P. rewrite T1 in P. specialize (P (perfect_shaped _ _ S4) EM).
  destruct P as (P1 & P2 & P3 & P4 & P5 & P6 & _ & P8 & _ & _ & P11).
  unfold perfect_result, scored. rewrite P1, P2, P3, P4, P5, P6, P8, P11, T2, T3, T4, T5.
  split; [|exact T6]. do 5 (split; [reflexivity|]). split; [destruct ps; [congruence|discriminate]|].
  apply Forall_forall. intros q Hq. apply in_map_iff in Hq. destruct Hq as (p & <- & Hp). rewrite Forall_forall in S4. destruct (S4 p Hp) as (SH & U1 & U2).
  cbn [pm_sim pm_means]. split; [exact U1|]. destruct SH as (C1 & _). pose proof (column_elems _ _ C1) as LE.
  apply (list_ext _ _ 0%R); [rewrite repeat_length; exact LE|]. intros b Hb. rewrite LE in Hb. rewrite nth_repeat_lt by exact Hb. exact (proj1 (U2 b Hb)).
Qed.

Lemma self_perfect (w : world R) (m : manager R) (s : audio R) : keeps_length (w_fft w) -> (mg_no_global m = true \/ w_fft w = ideal_fft) ->
  mg_init m = true -> reachable m -> long_enough (mg_settings m) s -> can_predict (st_mapper (mg_settings m)) ->
  exists msg, snd (run w m s s) = Ret msg /\ perfect_result (if st_speech (mg_settings m) then 21 else 32) msg.
Proof. intros A B C D E F. destruct (self_perfect_full w m s A B C D E F) as (msg & X & Y & _). exists msg. auto. Qed.

(** the score does not depend on the recording *)
Lemma self_same_score (w : world R) (m : manager R) (s s' : audio R) msg msg' : keeps_length (w_fft w) -> (mg_no_global m = true \/ w_fft w = ideal_fft) ->
  mg_init m = true -> reachable m -> (forall n o, st_mapper (mg_settings m) <> MLattice n o) -> can_predict (st_mapper (mg_settings m)) ->
  long_enough (mg_settings m) s -> long_enough (mg_settings m) s' ->
  snd (run w m s s) = Ret msg -> snd (run w m s' s') = Ret msg' -> ms_moslqo msg = ms_moslqo msg'.
Proof.
  intros A B C D NL F E1 E2 R1 R2. destruct (self_perfect_full w m s A B C D E1 F) as (x & X1 & _ & X2).
  destruct (self_perfect_full w m s' A B C D E2 F) as (y & Y1 & _ & Y2). rewrite R1 in X1. rewrite R2 in Y1.
  apply (f_equal (fun z => match z with Ret q => q | _ => x end)) in X1. apply (f_equal (fun z => match z with Ret q => q | _ => y end)) in Y1. subst x y.
  unfold scored in *. destruct (st_mapper (mg_settings m)) as [sc|[f|]|n o]; cbn [predict_quality] in X2, Y2; try discriminate; [| |destruct (NL n o eq_refl)];
    rewrite X2 in Y2; apply (f_equal (fun z => match z with Ret q => q | _ => 0%R end)) in Y2; exact Y2.
Qed.

(** the score of the speech mapping *)
Lemma self_speech_score (w : world R) (m : manager R) (s : audio R) scale msg : keeps_length (w_fft w) -> (mg_no_global m = true \/ w_fft w = ideal_fft) ->
  mg_init m = true -> reachable m -> st_mapper (mg_settings m) = MSpeech scale -> long_enough (mg_settings m) s ->
  snd (run w m s s) = Ret msg -> (if scale then 5 - 1 / 10 ^ 7 <= ms_moslqo msg < 5 else 4.01 <= ms_moslqo msg <= 4.02)%R.
Proof.
  intros A B C D EM E R1. destruct (self_perfect_full w m s A B C D E) as (x & X1 & _ & X2); [rewrite EM; exact Logic.I|].
  rewrite R1 in X1. apply (f_equal (fun z => match z with Ret q => q | _ => x end)) in X1. subst x. unfold scored in X2. rewrite EM in X2. cbn [predict_quality] in X2.
  apply (f_equal (fun z => match z with Ret q => q | _ => 0%R end)) in X2. rewrite <- X2. apply (speech_mapping scale).
  apply mean_ones; [pose proof (num_bands_pos (st_speech (mg_settings m))); destruct (num_bands _); [lia|discriminate]|]. intros y Hy. now apply repeat_spec in Hy.
Qed.

(** concrete: a ramp with itself *)
Lemma long_ramp (speech : bool) : long_enough (mg_settings (total_manager speech)) (ramp 50).
Proof. unfold long_enough, ramp. cbn [au_data au_sr]. rewrite map_length, seq_length. destruct speech; vm_compute; repeat split; intros; discriminate || reflexivity. Qed.
Lemma self_example (speech : bool) : exists msg, snd (run total_world (total_manager speech) (ramp 50) (ramp 50)) = Ret msg /\
  perfect_result (if speech then 21 else 32) msg.
Proof.
  destruct (total_reached speech) as (A & B & C & D).
  destruct (self_perfect total_world (total_manager speech) (ramp 50) ideal_keeps_length (or_intror eq_refl) B A (long_ramp speech) D) as (msg & E & P).
  exists msg. rewrite C in P. auto.
Qed.
