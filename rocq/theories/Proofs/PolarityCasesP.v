(** C84: with the alignments on, polarity matters; and concrete runs without them. *)
From Coq Require Import String ZArith List Bool Reals Lra Lia.
From Coq Require Import ZifyBool ZifyNat.
From Verif Require Import Base.Res Base.Num Base.NumR Base.Lists Base.Cplx Model.MiscMath Model.Window Model.Fft Model.FilterBank Model.Alignment Model.Visqol Model.Manager
  Spec.FftSpec Spec.LoudSpec Spec.PolaritySpec Spec.ManagerSpec Spec.TotalSpec Proofs.FftP Proofs.DftP Proofs.XcorrP Proofs.AlignCasesP Proofs.LoudP Proofs.ShapeP Proofs.TotalP Proofs.TotalCasesP.
Import ListNotations.
Open Scope R_scope.

Lemma hilbert_zeros n h : hilbert ideal_fft (repeat 0 n) = Ret h -> Forall (fun z => cre z = 0) h.
Proof.
  intros E. pose proof (hilbert_sc 2 ltac:(lra) ideal_fft ideal_homogeneous (repeat 0 n)) as X. rewrite sc_zeros, E in X. cbn [rmap bind] in X.
  assert (Y : h = map (cs 2) h) by (apply (f_equal (fun z => match z with Ret q => q | _ => [] end)) in X; exact X). clear X E.
  induction h as [|z t IH]; [constructor|]. cbn [map] in Y. injection Y as Y1 Y2. constructor; [|exact (IH Y2)].
  rewrite Y1. unfold cs, cre in *. cbn [fst]. destruct z as [p q]. cbn [fst snd cre cim] in *. unfold cs in Y1. injection Y1 as Y3 _. unfold cre in Y3. cbn in Y3. lra.
Qed.
Lemma fold_repeat c n : forall a, fold_left Rplus (repeat c n) a = a + INR n * c.
Proof. induction n as [|n IH]; intros a; [cbn; lra|]. cbn [repeat fold_left]. rewrite IH, S_INR. lra. Qed.
Lemma env_constant n c e : (1 <= n)%nat -> calc_upper_env ideal_fft (repeat c n) = Ret e -> List.length e = n -> e = repeat c n.
Proof.
  intros Hn E Le. unfold calc_upper_env in E.
  assert (M : vec_mean (repeat c n) = c).
  { unfold vec_mean, nsum. rewrite repeat_length. cbn [nadd ndiv nofnat NumR]. change (n0 : R) with 0. unfold nofnat. cbn. rewrite fold_repeat, <- INR_IZR_INZ. field. apply not_0_INR. lia. }
  rewrite M in E. replace (map (fun x => nsub x c) (repeat c n)) with (repeat 0 n) in E.
  - apply bind_ret in E. destruct E as (h & EH & EE). pose proof (hilbert_zeros n h EH) as Z.
    apply (f_equal (fun z => match z with Ret q => q | _ => [] end)) in EE. rewrite <- EE in Le. rewrite map_length in Le.
    rewrite <- EE, <- Le. clear - Z. induction Z as [|z t Hz Z IH]; [reflexivity|]. cbn [map List.length repeat]. f_equal; [|exact IH]. rewrite Hz. cbn. rewrite Rabs_R0. lra.
  - clear. induction n as [|n IH]; [reflexivity|]. cbn [repeat map]. rewrite <- IH. f_equal. cbn. lra.
Qed.

Definition overlap (a b : nat) (g : Z) : Z := Z.max 0 (Z.min (Z.of_nat b) (Z.of_nat a - g) - Z.max 0 (- g)).
Lemma constant_correlation a b c g : cross_correlation (repeat 1 a) (repeat c b) g = c * IZR (overlap a b g).
Proof.
  unfold cross_correlation. rewrite repeat_length.
  assert (S1 : forall k x i, smp (repeat x k) i = if Nat.ltb i k then x else 0).
  { intros k x i. unfold smp. destruct (Nat.ltb_spec i k) as [H|H]; [|rewrite nth_overflow; [reflexivity|rewrite repeat_length; lia]].
    revert i H. induction k as [|k IH]; intros i H; [lia|]. destruct i as [|i]; [reflexivity|]. cbn [repeat nth]. apply IH. lia. }
  assert (G : forall k, (k <= b)%nat -> sum k (fun i => smpZ (repeat 1 a) (Z.of_nat i + g) * smp (repeat c b) i) = c * IZR (overlap a k g)).
  { induction k as [|k IH]; intros Hk; cbn [sum].
    - replace (overlap a 0 g) with 0%Z by (unfold overlap; lia). lra.
    - rewrite IH by lia. rewrite S1. replace (Nat.ltb k b) with true by lia. unfold smpZ. destruct (Z.ltb_spec (Z.of_nat k + g) 0) as [C|C].
      + replace (overlap a (S k) g) with (overlap a k g) by (unfold overlap; lia). lra.
      + rewrite S1. destruct (Nat.ltb_spec (Z.to_nat (Z.of_nat k + g)) a) as [D|D].
        * replace (overlap a (S k) g) with (overlap a k g + 1)%Z by (unfold overlap; lia). rewrite plus_IZR. lra.
        * replace (overlap a (S k) g) with (overlap a k g) by (unfold overlap; lia). lra. }
  apply G. lia.
Qed.

Lemma constant_lag aligned t c : (c = 1 \/ c = -1) -> globally_align ideal_fft (constant 50 1) (constant 52 c) = Ret (aligned, t) ->
  t = if Rlt_dec 0 c then -2 / 50 else 0.
Proof.
  intros HC H. pose proof (align_by_correlation (constant 50 1) (constant 52 c) aligned t) as A. cbv zeta in A. unfold constant in *. cbn [au_data au_sr] in *. rewrite !repeat_length in A.
  destruct A as (re & de & g & E1 & E2 & (M1 & M2 & M3) & T1 & T2); [lia|lia|cbn; lia|cbn; lia|exact H|].
  destruct (envelope_returns ideal_fft (repeat 1 50) ideal_keeps_length) as (re' & E1' & L1); [rewrite repeat_length; lia|].
  destruct (envelope_returns ideal_fft (repeat c 52) ideal_keeps_length) as (de' & E2' & L2); [rewrite repeat_length; lia|].
  rewrite E1 in E1'. rewrite E2 in E2'. apply (f_equal (fun z => match z with Ret q => q | _ => [] end)) in E1', E2'. subst re' de'.
  rewrite repeat_length in L1, L2.
  pose proof (env_constant 50 1 re ltac:(lia) E1 L1) as ->. pose proof (env_constant 52 c de ltac:(lia) E2 L2) as ->.
  change (Z.of_nat (Nat.max 50 52)) with 52%Z in *.
  destruct HC as [-> | ->].
  - destruct (Rlt_dec 0 1) as [_|C]; [|lra].
    assert (G : g = (-2)%Z).
    { pose proof (M2 (-2)%Z ltac:(lia)) as X. rewrite !constant_correlation in X. rewrite !Rmult_1_l in X. apply le_IZR in X. unfold overlap in X.
      assert (B : (-2 <= g <= 0)%Z) by lia. destruct (Z.eq_dec g (-2)) as [|NE]; [assumption|]. exfalso.
      pose proof (M3 (-2)%Z ltac:(lia)) as Y. rewrite !constant_correlation in Y. rewrite !Rmult_1_l in Y. apply lt_IZR in Y. unfold overlap in Y. lia. }
    subst g. apply T1. lia.
  - destruct (Rlt_dec 0 (-1)) as [C|_]; [lra|].
    apply T2. pose proof (M2 50%Z ltac:(lia)) as X. rewrite !constant_correlation in X.
    assert (Y : (IZR (overlap 50 52 g) <= IZR (overlap 50 52 50))) by lra. apply le_IZR in Y. unfold overlap in Y. lia.
Qed.

Lemma run_lag {L : Libm R} (w : world R) (m : manager R) ref deg msg : mg_no_global m = false -> snd (run w m ref deg) = Ret msg ->
  exists aligned, globally_align (w_fft w) ref deg = Ret (aligned, ms_lag msg).
Proof.
  intros NG. unfold run. rewrite NG. destruct (negb _); [discriminate|]. destruct (validate ref deg); [discriminate|].
  destruct (globally_align _ _ _) as [[d lag]| | |]; try discriminate. destruct (make_window _) as [win| | |]; try discriminate.
  destruct (calculate_similarity _ _ _ _ _ _ _) as [[k d'] r]. cbn [snd]. intros E. apply bind_ret in E. destruct E as (x & _ & E). unfold populate in E.
  apply bind_ret in E. destruct E as (ps & _ & E). apply (f_equal (fun z => match z with Ret q => ms_lag q | _ => 0 end)) in E. cbn [ms_lag] in E. subst lag. eauto.
Qed.

Lemma polarity_matters : exists msg msg',
  snd (run total_world (total_manager false) (constant 50 1) (constant 52 1)) = Ret msg /\
  snd (run total_world (total_manager false) (constant 50 1) (inverted (constant 52 1))) = Ret msg' /\
  ms_lag msg = -2 / 50 /\ ms_lag msg' = 0.
Proof.
  destruct (total_reached false) as (A & B & C & D).
  assert (IC : inverted (constant 52 1) = constant 52 (-1)).
  { unfold inverted, constant. cbn [au_data au_sr]. f_equal. }
  assert (LN : forall n c, List.length (au_data (constant n c)) = n) by (intros n c; apply repeat_length).
  assert (G : forall c, exists msg, snd (run total_world (total_manager false) (constant 50 1) (constant 52 c)) = Ret msg).
  { intros c. refine (run_returns_at total_world (total_manager false) (constant 50 1) (constant 52 c) ideal_keeps_length B A _ _ _ _ _ _ _ _ _ D); rewrite ?LN, ?C;
    try (vm_compute; (reflexivity || discriminate || (split; (reflexivity || discriminate)))). }
  destruct (G 1) as (msg & E). destruct (G (-1)) as (msg' & E'). exists msg, msg'. rewrite IC. split; [exact E|]. split; [exact E'|].
  destruct (run_lag total_world (total_manager false) _ _ _ eq_refl E) as (al & X). destruct (run_lag total_world (total_manager false) _ _ _ eq_refl E') as (al' & X').
  pose proof (constant_lag al (ms_lag msg) 1 (or_introl eq_refl) X) as T. pose proof (constant_lag al' (ms_lag msg') (-1) (or_intror eq_refl) X') as T'.
  destruct (Rlt_dec 0 1); [|lra]. destruct (Rlt_dec 0 (-1)); [lra|]. auto.
Qed.

(** both alignments off *)
Definition plain_manager : manager R := fst (init total_world manager_new (MkInit "model"%string false false 60 false true true)).
Lemma plain_example : mg_no_global plain_manager = true /\ st_no_realign (mg_settings plain_manager) = true /\ st_speech (mg_settings plain_manager) = false /\
  inverted (ramp 50) <> ramp 50 /\ exists msg, snd (run total_world plain_manager (ramp 50) (inverted (ramp 50))) = Ret msg.
Proof.
  do 3 (split; [reflexivity|]). split.
  - intros E. apply (f_equal (fun s => nth 1 (au_data s) 0)) in E. unfold inverted, ramp in E. cbn in E. lra.
  - assert (LN : List.length (au_data (ramp 50)) = 50%nat) by reflexivity.
    assert (LI : List.length (au_data (inverted (ramp 50))) = 50%nat) by reflexivity.
    assert (PR : reachable plain_manager) by apply r_init, r_new.
    assert (PI : mg_init plain_manager = true) by reflexivity.
    refine (run_returns_at total_world plain_manager (ramp 50) (inverted (ramp 50)) ideal_keeps_length PI PR _ _ _ _ _ _ _ _ _ _); rewrite ?LN, ?LI;
      try (vm_compute; (reflexivity || discriminate || (split; (reflexivity || discriminate)))). 
Qed.
