(** Clamping, NaN, the speech fit, and the mapper held by a manager (C09-C11, C59). *)
From Coq Require Import ZArith List Bool String Reals Lra Lia Floats.
From Interval Require Import Tactic.
From Verif Require Import Base.Res Base.Num Base.NumR Base.NumF Base.Lists Model.MiscMath Model.FilterBank Model.Window Model.Nsim Model.Fft Model.Alignment Model.Mappers Model.Visqol Model.Manager
  Spec.StatSpec Spec.ManagerSpec Proofs.RealP Proofs.ShapeP Proofs.StatP Proofs.AggregateP Proofs.AggCasesP Proofs.MapperP.
Import ListNotations.
Open Scope nat_scope.

(** *** the settings of a manager come from its last Init *)
Section Reach.
  Context {T : Type} {N : Num T} {L : Libm T}.
  Definition mapper_fits (s : settings T) : Prop :=
    if st_speech s then match st_mapper s with MSpeech _ => True | MLattice n _ => n = num_bands true | MSvr _ => False end
    else exists o, st_mapper s = MSvr o.
  Lemma run_settings w (m : manager T) ref deg : mg_settings (fst (fst (run w m ref deg))) = mg_settings m.
  Proof.
    unfold run. destruct (negb _); [reflexivity|]. destruct (validate _ _); [reflexivity|].
    destruct (if mg_no_global m then _ else _) as [[d lag]| | |]; try reflexivity.
    destruct (make_window _); try reflexivity. destruct (calculate_similarity _ _ _ _ _ _ _) as [[k d'] r]. reflexivity.
  Qed.
  Lemma run_files_settings w (m : manager T) rp dp : mg_settings (fst (run_files w m rp dp)) = mg_settings m.
  Proof.
    unfold run_files. destruct (negb _); [reflexivity|]. destruct (bind _ _) as [[ref deg]| | |]; try reflexivity.
    pose proof (run_settings w m ref deg) as E. destruct (run w m ref deg) as [[m' d] r]. exact E.
  Qed.
  Lemma mapper_invariant (m : manager T) : reachable m -> mapper_fits (mg_settings m).
  Proof.
    induction 1 as [|w m a _ IH|w m ref deg _ IH|w m rp dp _ IH].
    - exists None. reflexivity.
    - unfold init, init_mapper. destruct (ia_speech a).
      + destruct (ia_lattice a).
        * destruct (w_tfl w (ia_model a)); unfold mapper_fits; cbn; reflexivity.
        * unfold mapper_fits; cbn; exact I.
      + destruct (w_svr w (ia_model a)); unfold mapper_fits; cbn; eexists; reflexivity.
    - rewrite run_settings. exact IH.
    - rewrite run_files_settings. exact IH.
  Qed.
End Reach.

(** *** binary64 clamping *)
Lemma F_lt_le (x y : PrimFloat.float) : nltb x y = true -> nleb x y = true.
Proof.
  change (PrimFloat.ltb x y = true -> PrimFloat.leb x y = true). rewrite ltb_spec, leb_spec. unfold SFltb, SFleb.
  destruct (SFcompare _ _) as [[| |]|]; auto; discriminate.
Qed.
Lemma svr_range (model : svr_model PrimFloat.float) f :
  nleb (nofZ 1) (svr_predict model f) = true /\ nleb (svr_predict model f) (nofZ 5) = true.
Proof.
  unfold svr_predict. set (x := model _). unfold nmax, nmin. destruct (nltb x (nofZ 5)) eqn:A.
  - destruct (nltb (nofZ 1) x) eqn:B; [split; apply F_lt_le; assumption|split; reflexivity].
  - split; reflexivity.
Qed.
Lemma audio_score_range {L : Libm PrimFloat.float} w (m : manager PrimFloat.float) ref deg m' deg' msg :
  reachable m -> st_speech (mg_settings m) = false -> run w m ref deg = (m', deg', Ret msg) ->
  nleb (nofZ 1) (ms_moslqo msg) = true /\ nleb (ms_moslqo msg) (nofZ 5) = true.
Proof.
  intros Hr Hs H. apply mapper_invariant in Hr. unfold mapper_fits in Hr. rewrite Hs in Hr. destruct Hr as (o & Ho).
  apply reported_score in H. destruct H as (mos & P & A & B). rewrite Ho in P. cbn [predict_quality] in P.
  destruct o as [model|]; [|discriminate].
  destruct (nltb (ms_vnsim msg) (ndec 15 2)) eqn:E.
  - rewrite (A eq_refl). split; reflexivity.
  - rewrite (B eq_refl). assert (mos = svr_predict model (ms_fvnsim msg)) as -> by congruence. apply svr_range.
Qed.

Lemma summary_score {T} {N : Num T} {L : Libm T} f32 mp (fd : T) cfb ps r : summarise f32 mp fd cfb ps = Ret r ->
  exists mos, predict_quality f32 mp (sr_fvnsim r) (sr_fvnsim10 r) (sr_fstdnsim r) (sr_fvdegenergy r) = Ret mos /\
    sr_moslqo r = if nltb (sr_vnsim r) (ndec 15 2) then n1 else mos.
Proof.
  unfold summarise. intros HS.
  apply bind_ret in HS. destruct HS as (a1 & _ & HS). apply bind_ret in HS. destruct HS as (a2 & _ & HS).
  apply bind_ret in HS. destruct HS as (a3 & _ & HS). apply bind_ret in HS. destruct HS as (a4 & _ & HS).
  apply bind_ret in HS. destruct HS as (mos & EP & HS).
  match type of HS with Ret ?a = Ret ?b => assert (E' : a = b) by congruence end. rewrite <- E'. exists mos. split; [exact EP|reflexivity].
Qed.
Lemma summary_range {L : Libm PrimFloat.float} (m : manager PrimFloat.float) f32 fd cfb ps r :
  reachable m -> st_speech (mg_settings m) = false ->
  summarise f32 (st_mapper (mg_settings m)) fd cfb ps = Ret r ->
  nleb (nofZ 1) (sr_moslqo r) = true /\ nleb (sr_moslqo r) (nofZ 5) = true.
Proof.
  intros Hr Hs H. apply mapper_invariant in Hr. unfold mapper_fits in Hr. rewrite Hs in Hr. destruct Hr as (o & Ho).
  apply summary_score in H. destruct H as (mos & P & ->). rewrite Ho in P. cbn [predict_quality] in P.
  destruct o as [model|]; [|discriminate]. destruct (nltb (sr_vnsim r) (ndec 15 2)); [split; reflexivity|].
  assert (mos = svr_predict model (sr_fvnsim r)) as -> by congruence. apply svr_range.
Qed.
Lemma lattice_vectors {T} {N : Num T} {L : Libm T} w (m : manager T) ref deg m' deg' msg n l : reachable m ->
  (Z.of_nat (List.length (au_data ref)) + 1 < 2 ^ 31)%Z -> (Z.of_nat (List.length (au_data deg')) + 1 < 2 ^ 31)%Z ->
  st_mapper (mg_settings m) = MLattice n l ->
  run w m ref deg = (m', deg', Ret msg) ->
  n = 21 /\ List.length (ms_fvnsim msg) = n /\ List.length (ms_fvnsim10 msg) = n /\ List.length (ms_fstdnsim msg) = n /\
  List.length (ms_fvdegenergy msg) = n.
Proof.
  intros Hr H1 H2 HM H. pose proof (mapper_invariant m Hr) as HF. unfold mapper_fits in HF. rewrite HM in HF.
  destruct (message_means w m ref deg m' deg' msg Hr H1 H2 H) as (A & B & C & D & _).
  destruct (st_speech (mg_settings m)); [|destruct HF as (o & Q); discriminate].
  change (num_bands true) with 21 in HF. subst n. repeat split; assumption.
Qed.

(** *** NaN *)
Lemma nan_prim (x : PrimFloat.float) : neqb x x = false <-> x = nan.
Proof.
  split; [|intros ->; reflexivity]. change (neqb x x) with (PrimFloat.eqb x x). rewrite eqb_spec. intros H.
  rewrite <- (SF2Prim_Prim2SF x). destruct (Prim2SF x) as [s|s| |s m e] eqn:E; try reflexivity; exfalso.
  - destruct s; discriminate.
  - destruct s; discriminate.
  - unfold SFeqb, SFcompare in H. destruct s; rewrite Z.compare_refl, ?Pos.compare_cont_refl in H; cbn in H; try discriminate;
      unfold Pos.compare in H; rewrite Pos.compare_cont_refl in H; discriminate.
Qed.
Lemma prim_of_spec x y : Prim2SF x = Prim2SF y -> x = y.
Proof. intros H. rewrite <- (SF2Prim_Prim2SF x), H. apply SF2Prim_Prim2SF. Qed.
Lemma nan_sub y : PrimFloat.sub nan y = nan.
Proof. apply prim_of_spec. rewrite sub_spec. reflexivity. Qed.
Lemma nan_mul_l y : PrimFloat.mul nan y = nan.
Proof. apply prim_of_spec. rewrite mul_spec. reflexivity. Qed.
Lemma nan_mul_r y : PrimFloat.mul y nan = nan.
Proof. apply prim_of_spec. rewrite mul_spec. destruct (Prim2SF y) as [[]|[]| |[] ? ?]; reflexivity. Qed.
Lemma nan_add_r y : PrimFloat.add y nan = nan.
Proof. apply prim_of_spec. rewrite add_spec. destruct (Prim2SF y) as [[]|[]| |[] ? ?]; reflexivity. Qed.
Lemma nan_ltb_l y : PrimFloat.ltb nan y = false.
Proof. rewrite ltb_spec. reflexivity. Qed.
Lemma nan_ltb_r y : PrimFloat.ltb y nan = false.
Proof. rewrite ltb_spec. unfold SFltb, SFcompare. destruct (Prim2SF y) as [[]|[]| |[] ? ?]; reflexivity. Qed.

Lemma speech_nan {L : Libm PrimFloat.float} scale f : mexp (nan : PrimFloat.float) = nan ->
  neqb (ndiv (nsum f) (nofnat (List.length f))) (ndiv (nsum f) (nofnat (List.length f))) = false ->
  neqb (speech_predict scale f) (speech_predict scale f) = false.
Proof.
  intros HE H. apply nan_prim in H. apply nan_prim. unfold speech_predict. rewrite H. unfold exponential_from_fit.
  change (nsub (nan : PrimFloat.float) kFitX0) with (PrimFloat.sub nan kFitX0). rewrite nan_sub.
  change (nmul kFitB nan) with (PrimFloat.mul kFitB nan). rewrite nan_mul_r, HE.
  change (nadd kFitA nan) with (PrimFloat.add kFitA nan). rewrite nan_add_r.
  set (s := if scale then _ else _). change (nmul (nan : PrimFloat.float) s) with (PrimFloat.mul nan s). rewrite nan_mul_l.
  unfold nmax. change (nltb (nan : PrimFloat.float) n1) with (PrimFloat.ltb nan n1). rewrite nan_ltb_l.
  unfold nmin. change (nltb (nofZ 5) (nan : PrimFloat.float)) with (PrimFloat.ltb (nofZ 5) nan). now rewrite nan_ltb_r.
Qed.
Lemma svr_nan (model : svr_model PrimFloat.float) f : neqb (model (convert_observation f)) (model (convert_observation f)) = false ->
  svr_predict model f = nofZ 5.
Proof.
  intros H. apply nan_prim in H. unfold svr_predict. rewrite H. unfold nmin.
  change (nltb (nan : PrimFloat.float) (nofZ 5)) with (PrimFloat.ltb nan (nofZ 5)). rewrite nan_ltb_l. reflexivity.
Qed.
Lemma run_nan_model {L : Libm PrimFloat.float} w (m : manager PrimFloat.float) model ref deg m' deg' msg :
  st_mapper (mg_settings m) = MSvr (Some model) -> (forall l, neqb (model l) (model l) = false) ->
  run w m ref deg = (m', deg', Ret msg) ->
  ms_moslqo msg = (if nltb (ms_vnsim msg) (ndec 15 2) then nofZ 1 else nofZ 5).
Proof.
  intros HM HN H. apply reported_score in H. destruct H as (mos & P & A & B). rewrite HM in P. cbn [predict_quality] in P.
  assert (mos = svr_predict model (ms_fvnsim msg)) as -> by congruence.
  destruct (nltb (ms_vnsim msg) (ndec 15 2)); [now apply A|]. rewrite (B eq_refl). apply svr_nan, HN.
Qed.

(** *** the fit over the reals *)
Open Scope R_scope.
Definition fit (x : R) : R := -262847869 / 10 ^ 6 + exp (154302525 / 10 ^ 10 * (x + 361063949 / 10 ^ 6)).
Lemma fit_R x : exponential_from_fit x (kFitA : R) kFitB kFitX0 = fit x.
Proof.
  unfold exponential_from_fit, kFitA, kFitB, kFitX0, ndec, fit. cbn.
  f_equal; [lra|]. f_equal. lra.
Qed.
Lemma nmax_R (a b : R) : nmax a b = Rmax a b.
Proof. unfold nmax, Rmax. cbn. destruct (Rltb_spec a b), (Rle_dec a b); lra. Qed.
Lemma nmin_R (a b : R) : nmin a b = Rmin a b.
Proof. unfold nmin, Rmin. cbn. destruct (Rltb_spec b a), (Rle_dec a b); lra. Qed.
Definition scale_of (b : bool) : R := if b then 10444345 / 2 ^ 23 else 1.
Lemma speech_R (b : bool) (l : list R) :
  speech_predict b l = Rmin (Rmax (fit (mean l) * scale_of b) 1) 5.
Proof.
  unfold speech_predict. rewrite fit_R.
  replace (ndiv (nsum l) (nofnat (List.length l))) with (mean l).
  2:{ symmetry. exact (vmean_mean l). }
  assert (S : (if b then kFitScale32 else n1) = scale_of b) by (destruct b; cbn; try reflexivity; lra).
  rewrite S, nmax_R, nmin_R. reflexivity.
Qed.
Lemma scale_nearest : (2 ^ 23 <= 10444345 < 2 ^ 24)%Z /\ Rabs (10444345 / 2 ^ 23 - 1245063 / 10 ^ 6) < / 2 ^ 24.
Proof. split; [lia|]. apply Rabs_def1; lra. Qed.
Lemma fit_mono x y : x <= y -> fit x <= fit y.
Proof. intros H. unfold fit. apply Rplus_le_compat_l. destruct (Req_dec x y) as [->|]; [lra|]. apply Rlt_le, exp_increasing. lra. Qed.
Lemma scale_pos b : 0 < scale_of b.
Proof. destruct b; cbn; lra. Qed.
Lemma speech_mono b (l l' : list R) : mean l <= mean l' -> speech_predict b l <= speech_predict b l'.
Proof.
  intros H. rewrite !speech_R. apply Rle_min_compat_r, Rle_max_compat_r. apply Rmult_le_compat_r; [apply Rlt_le, scale_pos|]. now apply fit_mono.
Qed.
Lemma speech_bounds b (l : list R) : 1 <= speech_predict b l <= 5.
Proof. rewrite speech_R. unfold Rmin, Rmax. repeat destruct (Rle_dec _ _); lra. Qed.
Lemma fit_one : 40158 / 10000 <= fit 1 <= 40159 / 10000 /\ 5 - 1 / 10 ^ 7 <= fit 1 * (10444345 / 2 ^ 23) < 5.
Proof.
  unfold fit. split; split.
  - interval.
  - interval.
  - interval with (i_prec 60).
  - apply Rle_lt_trans with (5 - / 10 ^ 9); [interval with (i_prec 60)|lra].
Qed.
Lemma speech_perfect (l : list R) : mean l = 1 ->
  40158 / 10000 <= speech_predict false l <= 40159 / 10000 /\ 5 - 1 / 10 ^ 7 <= speech_predict true l < 5.
Proof.
  intros E. rewrite !speech_R, E. destruct fit_one as ((A & B) & C & D). unfold scale_of.
  rewrite Rmult_1_r. rewrite !Rmax_left by lra. rewrite !Rmin_left by lra. lra.
Qed.
