(** The rating of a comparison, and of a recording compared with itself (C110). *)
From Coq Require Import ZArith List Bool Reals Lra Lia Floats.
From Coq Require Strings.String.
From Flocq Require Import Core.Core IEEE754.BinarySingleNaN IEEE754.PrimFloat.
From Interval Require Import Tactic.
From Verif Require Import Base.Res Base.Num Base.NumR Base.NumF Base.Lists Base.Mat Model.MiscMath Model.Wav Model.Fft Model.Window Model.Nsim Model.MiscAudio Model.Alignment Model.Mappers Model.FilterBank Model.Visqol Model.Manager
  Spec.ManagerSpec Spec.TotalSpec Spec.PcmSpec Spec.SelfSpec Spec.UndefinedSpec Spec.StableSpec Spec.LibmSpec Spec.RatingSpec Spec.AggSpec Proofs.ShapeP Proofs.AggregateP Proofs.B64P Proofs.RoundP Proofs.FftP Proofs.MapperRP Proofs.AggCasesP Proofs.ToyRunP Proofs.RoundedLibmP Proofs.AccurateCasesP Proofs.WavFloatP Proofs.SelfRunP Proofs.SelfCasesP Proofs.ScoresP Proofs.RatingP.
Import ListNotations.
Open Scope R_scope.
Local Notation F := PrimFloat.float.

Lemma reported_mean {L : Libm F} (w : world F) (m : manager F) ref deg m' deg' msg : run w m ref deg = (m', deg', Ret msg) ->
  ms_vnsim msg = ndiv (nsum (ms_fvnsim msg)) (nofnat (length (ms_fvnsim msg))).
Proof.
  intros H. apply run_summary in H. destruct H as (r & fd & cfb & ps & lag & HS & HP).
  unfold populate in HP. apply bind_ret in HP. destruct HP as (v & _ & HP).
  match type of HP with Ret ?a = Ret ?b => assert (E : a = b) by congruence end. clear HP. rewrite <- E. cbn [ms_fvnsim ms_vnsim]. clear E msg v.
  unfold summarise in HS.
  apply bind_ret in HS. destruct HS as (a1 & _ & HS). apply bind_ret in HS. destruct HS as (a2 & _ & HS).
  apply bind_ret in HS. destruct HS as (a3 & _ & HS). apply bind_ret in HS. destruct HS as (a4 & _ & HS).
  apply bind_ret in HS. destruct HS as (mos & EM & HS).
  match type of HS with Ret ?a = Ret ?b => assert (E : a = b) by congruence end. clear HS. rewrite <- E. reflexivity.
Qed.
(** the rating of any result for speech *)
Lemma rating_run {L : Libm F} (w : world F) (m : manager F) ref deg m' deg' msg (scaled : bool) : accurate L -> run w m ref deg = (m', deg', Ret msg) ->
  st_mapper (mg_settings m) = MSpeech scaled -> fin (ms_vnsim msg) -> Rabs (FR (ms_vnsim msg)) <= 2 ->
  (PrimFloat.ltb (ms_vnsim msg) 0.15 = true -> ms_moslqo msg = 1%float) /\
  (PrimFloat.ltb (ms_vnsim msg) 0.15 = false ->
     fin (ms_moslqo msg) /\ Rabs (FR (ms_moslqo msg) - speech_rating scaled (FR (ms_vnsim msg))) <= 1 / 10 ^ 9 /\ 1 <= FR (ms_moslqo msg) <= 5).
Proof.
  intros A H HM Fv Bv. destruct (reported_score _ _ _ _ _ _ _ H) as (mos & EP & S1 & S2). pose proof (reported_mean _ _ _ _ _ _ _ H) as EV. rewrite HM in EP. cbn [predict_quality] in EP. injection EP as <-.
  cbn [nltb NumF] in S1, S2. change (@ndec F NumF 15 2) with 0.15%float in S1, S2. split; [exact S1|]. intros C. rewrite (S2 C). rewrite EV in *. apply (rating_near A scaled (ms_fvnsim msg)); assumption.
Qed.

(** *** a similarity of 0.999 or more *)
Lemma fit_999 : 401 / 100 + 1 / 1000 <= fit (999 / 1000 - 1 / 10 ^ 12) /\ 499 / 100 + 1 / 1000 <= fit (999 / 1000 - 1 / 10 ^ 12) * (10444345 / 2 ^ 23).
Proof. unfold fit. split; interval with (i_prec 60). Qed.
Definition limit (scaled : bool) : F := if scaled then 4.99%float else 4.01%float.
Lemma limit_real b : fin (limit b) /\ FR (limit b) <= (if b then 499 / 100 else 401 / 100) + 1 / 10 ^ 6.
Proof.
  destruct b; unfold limit; (split; [reflexivity|]).
  - assert (E : FR 4.99 = F2R (Float radix2 5618240535144694 (-50))) by reflexivity. rewrite E. unfold F2R. cbn [Fnum Fexp]. change (bpow radix2 (-50)) with (/ 1125899906842624). lra.
  - assert (E : FR 4.01 = F2R (Float radix2 4514858626438922 (-50))) by reflexivity. rewrite E. unfold F2R. cbn [Fnum Fexp]. change (bpow radix2 (-50)) with (/ 1125899906842624). lra.
Qed.
Lemma v0_real : fin 0.999 /\ 999 / 1000 - 1 / 10 ^ 12 <= FR 0.999 <= 999 / 1000.
Proof. split; [reflexivity|]. assert (E : FR 0.999 = F2R (Float radix2 8998192055486251 (-53))) by reflexivity. rewrite E. unfold F2R. cbn [Fnum Fexp]. change (bpow radix2 (-53)) with (/ 9007199254740992). lra. Qed.
Lemma rating_high {L : Libm F} (A : accurate L) (I : increasing_exp L) (scaled : bool) (f : list F) : let v := ndiv (nsum f) (nofnat (length f)) in
  fin v -> 999 / 1000 <= FR v <= 9001 -> PrimFloat.leb (limit scaled) (speech_predict scaled f) = true.
Proof.
  intros v Fv Bv. destruct v0_real as (F0 & V1 & V2). pose proof (scale_near scaled) as (Fs & Es & _). destruct fit_999 as [X1 X2]. pose proof u_small. pose proof u_pos. pose proof tiny_small. pose proof big_large.
  assert (ES : FR (if scaled then kFitScale32 else n1) = scale_of scaled) by (apply Raux.Rabs_le_inv in Es; lra).
  assert (SB : 1 <= scale_of scaled <= 125 / 100) by (destruct scaled; cbn; lra).
  destruct (fit_mono_F A I 0.999 v (if scaled then kFitScale32 else n1) F0 Fv ltac:(apply Rabs_le; lra) ltac:(lra) Fs ltac:(lra)) as [Fm Mm].
  destruct (fit_near A 0.999%float F0 ltac:(apply Rabs_le; lra)) as (Ff & Ef & Bf). 
  pose proof (near_mul _ _ _ _ _ _ _ _ (4 / 10 ^ 10) 800 (5 / 10 ^ 10) (fit_near A 0.999%float F0 ltac:(apply Rabs_le; lra)) (scale_near scaled) ltac:(lra) ltac:(lra) ltac:(lra) ltac:(lra) ltac:(lra)) as (_ & EM & _).
  assert (LOW : (if scaled then 499 / 100 else 401 / 100) + 1 / 1000 - 1 / 10 ^ 9 <= FR (PrimFloat.mul (exponential_from_fit 0.999%float kFitA kFitB kFitX0) (if scaled then kFitScale32 else n1))).
  { assert (FM : fit (999 / 1000 - 1 / 10 ^ 12) <= fit (FR 0.999)) by (apply fit_mono; lra). apply Raux.Rabs_le_inv in EM.
    assert (FS : fit (999 / 1000 - 1 / 10 ^ 12) * scale_of scaled <= fit (FR 0.999) * scale_of scaled) by (apply Rmult_le_compat_r; lra). destruct scaled; cbn [scale_of] in *; lra. }
  unfold speech_predict. fold v. cbn [nmul NumF]. set (x := PrimFloat.mul (exponential_from_fit v kFitA kFitB kFitX0) (if scaled then kFitScale32 else n1)) in *.
  destruct (limit_real scaled) as [Fl El]. destruct (FR_ofZ 5 ltac:(lia)) as [E5 F5]. destruct (FR_ofZ 1 ltac:(lia)) as [E3 F3].
  assert (Fy : fin (nmax x n1) /\ FR x <= FR (nmax x n1)). { unfold nmax. cbn [nltb NumF]. change (n1 : F) with (F_ofZ 1). rewrite FR_ltb by assumption. case Rlt_bool_spec; intros C; (split; [assumption|lra]). }
  destruct Fy as [Fy Ey]. set (y := nmax x n1) in *.
  assert (Fz : fin (nmin y (nofZ 5)) /\ Rmin (FR y) 5 <= FR (nmin y (nofZ 5))). { unfold nmin. cbn [nltb NumF nofZ]. rewrite FR_ltb by assumption. case Rlt_bool_spec; intros C; (split; [assumption|]); [rewrite E5; apply Rmin_r|apply Rmin_l]. }
  destruct Fz as [Fz Ez]. rewrite FR_leb by assumption. case Rle_bool_spec; [reflexivity|]. intros C. exfalso.
  assert (MN : (if scaled then 499 / 100 else 401 / 100) + 1 / 10 ^ 6 <= Rmin (FR y) 5) by (apply Rmin_glb; destruct scaled; lra). lra.
Qed.
Lemma aligned_rated {L : Libm F} (w : world F) (m : manager F) (s d : audio F) (lag : F) msg (scaled : bool) : accurate L -> increasing_exp L -> mpow10 0%float = 1%float -> keeps_length (w_fft w) -> mg_init m = true -> reachable m ->
  let sr := au_sr s in let st := mg_settings m in let frames := frames_in sr (length (au_data s)) in let p := (if st_speech st then 20 else 30)%Z in
  (4000 <= sr <= 262144)%Z -> (Z.of_nat (length (au_data s)) < 2 ^ 29)%Z ->
  ((if st_speech st then 29 else 45) <= frames)%Z -> (st_speech st = true -> window_samples sr mod 4 = 0)%Z ->
  (frames <= st_radius st * p)%Z -> (frames + st_radius st * p <= 2 ^ 31)%Z -> st_mapper st = MSpeech scaled ->
  Forall pcm (au_data s) -> audible s ->
  au_sr d = au_sr s -> (if mg_no_global m then Ret (d, n0) else globally_align (w_fft w) s d) = Ret (s, lag) ->
  snd (run w m s d) = Ret msg -> PrimFloat.leb (limit scaled) (ms_moslqo msg) = true.
Proof.
  intros A I P1 K Mi HR sr st frames p Hsr Hl EF HW COV RB HM PR EX ED EG EM.
  destruct (aligned_run_range w m s d lag msg A P1 K Mi HR Hsr Hl EF HW COV RB PR EX ED EG EM) as (Fv & Bv).
  destruct (run w m s d) as [[m' d'] x] eqn:ER. cbn [snd] in EM. subst x. destruct (reported_score _ _ _ _ _ _ _ ER) as (mos & EP & _ & S2). pose proof (reported_mean _ _ _ _ _ _ _ ER) as EV.
  fold st in EP. rewrite HM in EP. cbn [predict_quality] in EP. injection EP as <-. cbn [nltb NumF] in S2. change (@ndec F NumF 15 2) with 0.15%float in S2.
  rewrite S2. { rewrite EV in Fv, Bv. apply (rating_high A I scaled (ms_fvnsim msg) Fv Bv). }
  assert (F15 : fin 0.15) by reflexivity. rewrite FR_ltb by assumption. apply Raux.Rlt_bool_false. assert (E : FR 0.15 = F2R (Float radix2 5404319552844595 (-55))) by reflexivity. rewrite E. unfold F2R. cbn [Fnum Fexp]. change (bpow radix2 (-55)) with (/ 36028797018963968). lra.
Qed.
Lemma self_rated {L : Libm F} (w : world F) (m : manager F) (s : audio F) msg (scaled : bool) : accurate L -> increasing_exp L -> mpow10 0%float = 1%float -> keeps_length (w_fft w) -> mg_init m = true -> reachable m ->
  let sr := au_sr s in let st := mg_settings m in let frames := frames_in sr (length (au_data s)) in let p := (if st_speech st then 20 else 30)%Z in
  (4000 <= sr <= 262144)%Z -> (Z.of_nat (length (au_data s)) < 2 ^ 29)%Z ->
  ((if st_speech st then 29 else 45) <= frames)%Z -> (st_speech st = true -> window_samples sr mod 4 = 0)%Z ->
  (frames <= st_radius st * p)%Z -> (frames + st_radius st * p <= 2 ^ 31)%Z -> st_mapper st = MSpeech scaled ->
  Forall pcm (au_data s) -> audible s ->
  (mg_no_global m = true \/ exists lag, globally_align (w_fft w) s s = Ret (s, lag)) ->
  snd (run w m s s) = Ret msg -> PrimFloat.leb (limit scaled) (ms_moslqo msg) = true.
Proof.
  intros A I P1 K Mi HR sr st frames p Hsr Hl EF HW COV RB HM PR EX NG EM.
  assert (EG : exists lag, (if mg_no_global m then Ret (s, n0) else globally_align (w_fft w) s s) = Ret (s, lag)).
  { destruct (mg_no_global m); [exists n0; reflexivity|]. destruct NG as [C|NG]; [discriminate|exact NG]. }
  destruct EG as (lag & EG). exact (aligned_rated w m s s lag msg scaled A I P1 K Mi HR Hsr Hl EF HW COV RB HM PR EX eq_refl EG EM).
Qed.
Lemma file_rated {L : Libm F} (w : world F) (m : manager F) rp dp bytes l rate msg (scaled : bool) : accurate L -> increasing_exp L -> mpow10 0%float = 1%float -> keeps_length (w_fft w) -> mg_init m = true -> reachable m ->
  w_file w rp = Some bytes -> w_file w dp = Some bytes -> load_as_mono bytes = Ret l -> ld_sr l = Some rate ->
  let s := MkAudio (elems (ld_data l)) rate in let st := mg_settings m in let frames := frames_in rate (length (au_data s)) in let p := (if st_speech st then 20 else 30)%Z in
  (4000 <= rate <= 262144)%Z -> (Z.of_nat (length (au_data s)) < 2 ^ 29)%Z ->
  ((if st_speech st then 29 else 45) <= frames)%Z -> (st_speech st = true -> window_samples rate mod 4 = 0)%Z ->
  (frames <= st_radius st * p)%Z -> (frames + st_radius st * p <= 2 ^ 31)%Z -> st_mapper st = MSpeech scaled -> audible s ->
  (mg_no_global m = true \/ exists lag, globally_align (w_fft w) s s = Ret (s, lag)) ->
  snd (run_files w m rp dp) = Ret msg -> PrimFloat.leb 0.999 (ms_vnsim msg) = true /\ PrimFloat.leb (limit scaled) (ms_moslqo msg) = true.
Proof.
  intros A I P1 K Mi HR Wr Wd LD SR s st frames p Hsr Hl EF HW COV RB HM EX NG EM.
  unfold run_files in EM. rewrite Mi, Wr, Wd in EM. cbn [negb load_file] in EM. rewrite LD in EM. cbn [bind] in EM. unfold audio_of in EM. rewrite SR in EM. cbn [bind] in EM. fold s in EM.
  pose proof (loaded_pcm _ _ LD) as PR.
  destruct (run w m s s) as [[m' d'] x] eqn:ER. cbn [snd] in EM. apply bind_ret in EM. destruct EM as (msg' & -> & EM). injection EM as <-. cbn [ms_vnsim ms_moslqo with_paths].
  assert (EM : snd (run w m s s) = Ret msg') by (rewrite ER; reflexivity).
  split; [exact (self_run w m s msg' A P1 K Mi HR Hsr Hl EF HW COV RB PR EX NG EM)|exact (self_rated w m s msg' scaled A I P1 K Mi HR Hsr Hl EF HW COV RB HM PR EX NG EM)].
Qed.
Lemma rounded_increasing : increasing_exp rounded_libm.
Proof.
  intros x y Fx Fy Hxy Hy. cbn [mexp rounded_libm]. pose proof (exp_pos (FR x)) as P1. pose proof (exp_pos (FR y)) as P2. assert (E : exp (FR x) <= exp (FR y)) by (apply Raux.exp_le, Hxy).
  assert (B : exp (FR y) <= 10 ^ 99). { apply Rle_trans with (exp 200); [apply Raux.exp_le, Hy|]. interval. }
  pose proof big_100. assert (T : 10 ^ 99 * 10 <= 10 ^ 150) by (replace (10 ^ 99 * 10) with (10 ^ 100) by (rewrite (tech_pow_Rmult 10 99) || (replace (10 ^ 100) with (10 * 10 ^ 99) by reflexivity; ring)); apply Rle_pow; [lra|lia]).
  assert (O1 : 1 <= 10 ^ 99) by (apply pow_R1_Rle; lra). pose proof tiny_small. pose proof u_small. pose proof u_pos.
  assert (E100 : 10 ^ 100 = 10 * 10 ^ 99) by reflexivity. set (b := 10 ^ 99) in *. set (c := 10 ^ 150) in *.
  destruct (FR_nearest (exp (FR x))) as [E1 G1]; [apply (rnd_fmax _ b); [rewrite Rabs_pos_eq; lra|lra|lra]|].
  destruct (FR_nearest (exp (FR y))) as [E2 G2]; [apply (rnd_fmax _ b); [rewrite Rabs_pos_eq; lra|lra|lra]|].
  split; [exact G1|]. split; [exact G2|]. rewrite E1, E2. split; [apply rnd_le, E|].
  pose proof (rnd_err (exp (FR y)) b ltac:(rewrite Rabs_pos_eq; lra) ltac:(lra)) as RE. apply Raux.Rabs_le_inv in RE. assert (u * b <= 1 * b) by (apply Rmult_le_compat_r; lra). rewrite E100. lra.
Qed.
Lemma still_rated : st_mapper (mg_settings still_manager) = MSpeech true /\ exists msg, snd (run (L:=rounded_libm) run_world still_manager (tone 0.5) (tone 0.5)) = Ret msg /\ PrimFloat.leb 4.99 (ms_moslqo msg) = true.
Proof.
  split; [reflexivity|]. destruct still_runs as (msg & EM & _). exists msg. split; [exact EM|].
  destruct still_reached as (R1 & R2 & R3 & R4 & R5 & R6).
  assert (KL : keeps_length (w_fft run_world)) by (split; intros l; reflexivity).
  assert (LN : Z.of_nat (length (au_data (tone 0.5))) = 2700%Z) by (unfold tone; cbn [au_data]; rewrite repeat_length; reflexivity).
  assert (FN : frames_in 4000 (length (au_data (tone 0.5))) = 30%Z) by (unfold frames_in; rewrite LN; reflexivity).
  refine (self_rated (L:=rounded_libm) run_world still_manager (tone 0.5) msg true rounded_accurate rounded_increasing rounded_pow KL R2 R1 _ _ _ _ _ _ _ (tone_pcm _ half_pcm) _ (or_introl R3) EM);
    change (au_sr (tone 0.5)) with 4000%Z; rewrite ?LN, ?FN, ?R5, ?R6.
  - lia.
  - lia.
  - lia.
  - intros _. reflexivity.
  - lia.
  - lia.
  - reflexivity.
  - unfold audible, tone. cbn [au_data]. apply Exists_exists. exists 0.5%float. split; [|reflexivity]. replace (Z.to_nat 2700) with (S (Z.to_nat 2699)) by lia. left. reflexivity.
Qed.
