(** A comparison of two integer recordings in binary64, with accurate elementary functions (C101). *)
From Coq Require Import ZArith List Bool Reals Lra Lia Floats Psatz ZifyBool ZifyNat.
From Flocq Require Import Core.Core IEEE754.BinarySingleNaN IEEE754.PrimFloat.
From Interval Require Import Tactic.
From Verif Require Import Spec.FiniteSpec.
From Verif Require Import Base.Res Base.Num Base.NumF Base.Lists Base.Mat Model.Amatrix Model.MiscMath Model.Fft Model.Window Model.Erb
  Model.FilterBank Model.Spectrogram Model.Alignment Model.Selector Model.MiscAudio Model.Mappers
  Model.Visqol Model.Manager Spec.FftSpec Spec.AlignSpec Spec.ManagerSpec Spec.TotalSpec Spec.UndefinedSpec Spec.StableSpec Spec.LibmSpec Spec.PcmSpec
  Proofs.B64P Proofs.FftP Proofs.RoundP Proofs.BoundP Proofs.ScoresP Proofs.FinitePrepP Proofs.FiniteTotalP Proofs.AlignP Proofs.AlignCasesP Proofs.AggregateP Proofs.ToyRunP Proofs.TotalP Proofs.FiniteCasesP Proofs.StableP Proofs.StableBankP Proofs.StableCasesP
  Proofs.RelP Proofs.ErbNormP Proofs.CenterP Proofs.UndefRelP Proofs.LevelFloatP.
Import ListNotations.
Open Scope Z_scope.

(** a number that a comparison can work with: at most 2^100 in size, or undefined *)
Definition usable (x : F) : Prop := within 0x1p100 x \/ undefined x.

Lemma undefined_not_infinite x : undefined x -> ~ infinite x.
Proof. rewrite undefined_B. unfold infinite. rewrite eqb_equiv, abs_equiv. intros ->. discriminate. Qed.
Lemma silent_within x : usable x -> within 0x1p100 (silent_sample x).
Proof.
  unfold silent_sample, usable, undefined. intros [W|U]; [|rewrite U; reflexivity]. destruct (PrimFloat.eqb x x); [exact W|reflexivity].
Qed.
Lemma usable_no_overflow {L : Libm F} speech (k : bank F) s w : sane_cos -> 2 <= Z.of_nat (w_size w) <= 2 ^ 20 -> stable_bank speech k (au_sr s) ->
  Forall usable (au_data s) -> no_overflow speech k w s.
Proof.
  intros SC Hw SB FS sp E. destruct (build_ur speech k s w sp E) as (sp' & E' & UR).
  assert (X : Forall (from_to 0 0x1p500) (elems (sp_data sp'))).
  { apply (spectrogram_within speech k (MkAudio (map silent_sample (au_data s)) (au_sr s)) w sp' SC Hw SB); [|exact E']. cbn [au_data]. apply Forall_map. eapply Forall_impl; [|exact FS]. exact silent_within. }
  clear - UR X. induction UR as [|x y l l' U UR IH]; [constructor|]. inversion X as [|? ? X1 X2]; subst. constructor; [|apply IH, X2].
  destruct U as [U|<-]; [apply undefined_not_infinite, U|]. apply (from_to_not_infinite 0x1p500); [reflexivity|exact X1].
Qed.

Section Scale.
  Context {L : Libm F} (A : accurate L).
  Lemma within_bound b x : fin b -> within b x -> fin x. Proof. intros Fb W. apply (within_fin b x Fb W). Qed.
  Lemma accurate_cos : sane_cos.
  Proof.
    split.
    - intros x H. apply (cos_range L A). revert H. unfold fin. rewrite ltb_equiv, abs_equiv. change (Prim2B infinity) with (B754_infinity (prec:=prec) (emax:=emax) false).
      destruct (Prim2B x) as [?|[]| |[] ? ? ?]; cbn; congruence.
    - destruct (acc_pi L A) as [Fp Hp]. apply within_of; [reflexivity|exact Fp|]. replace (FR 4) with 4%R by (symmetry; rewrite (FR_pow 4 2 (-50)); [cbn; lra|reflexivity|reflexivity]).
      assert (PB : (3 <= PI <= 35 / 10)%R) by (split; interval). pose proof dl_pos. apply Rabs_le. abs_all. lra.
  Qed.
  Lemma ln_fin x : fin x -> (0 < FR x)%R -> (Rabs (ln (FR x)) <= 800)%R.
  Proof.
    intros Fx Px. assert (U : (FR x < bpow radix2 1024)%R).
    { pose proof (abs_B2R_lt_emax prec emax (Prim2B x)) as B. fold (FR x) in B. rewrite Rabs_pos_eq in B by lra. exact B. }
    assert (D : (bpow radix2 (-1074) <= FR x)%R).
    { rewrite <- (Rabs_pos_eq (FR x)) by lra. apply (abs_B2R_ge_emin prec emax (Prim2B x)). unfold FR in Px. unfold fin in Fx. destruct (Prim2B x) as [?|?| |? ? ? ?]; cbn in *; try lra; try discriminate; reflexivity. }
    assert (LB : forall e, ln (bpow radix2 e) = (IZR e * ln 2)%R).
    { intros e. rewrite bpow_exp. rewrite ln_exp. reflexivity. }
    assert (L2 : (69 / 100 <= ln 2 <= 7 / 10)%R) by (split; interval).
    apply Rabs_le. split.
    - apply Rle_trans with (ln (bpow radix2 (-1074))); [rewrite LB; lra|]. apply Rcomplements.ln_le; [apply bpow_gt_0|exact D].
    - apply Rle_trans with (ln (bpow radix2 1024)); [apply Rcomplements.ln_le; lra|]. rewrite LB. lra.
  Qed.
  Lemma accurate_log : sane_log mlog10.
  Proof.
    assert (F4 : fin 400) by reflexivity. assert (F4m : fin (-400)) by reflexivity.
    assert (E4 : FR 400 = 400%R) by (change 400%float with (F_ofZ 400); apply FR_ofZ; lia). assert (E4m : FR (-400) = (-400)%R) by (change (-400)%float with (F_ofZ (-400)); apply FR_ofZ; lia).
    split; [|split; [|apply (log10_undefined L A)]].
    - intros x H1 H2. assert (Fx : fin x /\ (0 < FR x)%R).
      { assert (Fx : fin x). { revert H1 H2. unfold fin. rewrite !ltb_equiv. change (Prim2B infinity) with (B754_infinity (prec:=prec) (emax:=emax) false). change (Prim2B 0) with (B754_zero (prec:=prec) (emax:=emax) false).
          destruct (Prim2B x) as [?|[]| |[] ? ? ?]; cbn; congruence. }
        split; [exact Fx|]. rewrite ltb_equiv, Bltb_correct in H1; [|reflexivity|exact Fx]. change (B2R (Prim2B 0)) with 0%R in H1. fold (FR x) in H1. revert H1. case Rlt_bool_spec; [auto|discriminate]. }
      destruct Fx as [Fx Px]. destruct (acc_log10 L A x Fx Px) as [Fl Hl]. pose proof (ln_fin x Fx Px) as B. pose proof ln10_b.
      assert (LL : (Rabs (ln (FR x) / ln 10) <= 390)%R).
      { unfold Rdiv. rewrite Rabs_mult, (Rabs_pos_eq (/ ln 10)) by (left; apply Rinv_0_lt_compat; lra). apply Rmult_le_reg_r with (ln 10); [lra|]. rewrite Rmult_assoc, Rinv_l, Rmult_1_r by lra. lra. }
      pose proof dl_pos. split; rewrite FR_leb by assumption; rewrite ?E4, ?E4m; case Raux.Rle_bool_spec; try reflexivity; intros C; exfalso; abs_all; lra.
    - assert (E : FR 0x1p-52 = bpow radix2 (-52)) by (eapply FR_pow; reflexivity). assert (Fx : fin 0x1p-52) by reflexivity.
      assert (Px : (0 < FR 0x1p-52)%R) by (rewrite E; apply bpow_gt_0). destruct (acc_log10 L A _ Fx Px) as [Fl Hl].
      assert (F5 : fin (-5)) by reflexivity. assert (E5 : FR (-5) = (-5)%R) by (change (-5)%float with (F_ofZ (-5)); apply FR_ofZ; lia).
      rewrite FR_leb by assumption. rewrite E5. case Raux.Rle_bool_spec; [reflexivity|]. intros C. exfalso. rewrite E in Hl.
      assert (LL : (ln (bpow radix2 (-52)) / ln 10 <= -10)%R) by (change (bpow radix2 (-52)) with (/ 4503599627370496)%R; interval). pose proof dl_pos. abs_all. lra.
  Qed.

  Lemma minus_inf x : fin x -> PrimFloat.sub neg_infinity x = neg_infinity.
  Proof. intros Fx. apply Prim2B_inj. rewrite sub_equiv. change (Prim2B neg_infinity) with (B754_infinity (prec:=prec) (emax:=emax) true). unfold fin in Fx. destruct (Prim2B x) as [?|?| |? ? ? ?]; try discriminate; reflexivity. Qed.
  Lemma plus_inf x : fin x -> PrimFloat.sub x neg_infinity = infinity.
  Proof.
    intros Fx. apply Prim2B_inj. rewrite sub_equiv. change (Prim2B neg_infinity) with (B754_infinity (prec:=prec) (emax:=emax) true). change (Prim2B infinity) with (B754_infinity (prec:=prec) (emax:=emax) false).
    unfold fin in Fx. destruct (Prim2B x) as [?|?| |? ? ? ?]; try discriminate; reflexivity.
  Qed.
  Lemma zero_times_inf x : fin x -> FR x = 0%R -> undefined (PrimFloat.mul x infinity).
  Proof.
    intros Fx Z. apply undefined_B. rewrite mul_equiv. change (Prim2B infinity) with (B754_infinity (prec:=prec) (emax:=emax) false). unfold fin in Fx. unfold FR in Z.
    destruct (Prim2B x) as [?|?| |? ? ? ?] eqn:E; try discriminate; [reflexivity|]. exfalso. rewrite <- E in Z. cut (is_finite_strict (Prim2B x) = true); [|rewrite E; reflexivity]. intros SF.
    pose proof (abs_B2R_ge_emin prec emax (Prim2B x) SF) as B. rewrite Z, Rabs_R0 in B. pose proof (bpow_gt_0 radix2 (SpecFloat.emin prec emax)). lra.
  Qed.
  Lemma mul_undefined_r x y : undefined y -> undefined (PrimFloat.mul x y).
  Proof. rewrite !undefined_B, mul_equiv. intros ->. destruct (Prim2B x); reflexivity. Qed.
  Lemma scaled_usable (ref d : audio F) : Forall pcm (au_data ref) -> Forall pcm (au_data d) -> 1 <= Z.of_nat (length (au_data ref)) < 2 ^ 30 -> 1 <= Z.of_nat (length (au_data d)) < 2 ^ 30 ->
    Forall usable (au_data (scale_to_match_spl ref d)).
  Proof.
    intros PR PD LR LD. unfold scale_to_match_spl. cbn [au_data]. apply Forall_map. unfold spl_scale_factor. cbn [nsub ndiv nmul nofZ NumF].
    destruct (spl_cases A ref PR LR) as [[ZR ->]|(FRr & BRr & _)]; destruct (spl_cases A d PD LD) as [[ZD ->]|(FD & BD & _)].
    - eapply Forall_impl; [|exact PD]. intros x _. right. apply mul_undefined_r, (pow10_undefined L A). reflexivity.
    - rewrite (minus_inf _ FD). change (PrimFloat.div neg_infinity (F_ofZ 20)) with neg_infinity. destruct (pow10_minus L A) as [FM EM]. eapply Forall_impl; [|exact PD]. intros x Px. left. apply pcm_real in Px. destruct Px as [Bx _].
      apply within_100. apply (bd_weaken 0); [|lia]. apply (bd_mul 0 0); [lia|exact Bx|]. split; [exact FM|]. rewrite EM, Rabs_R0. apply bpow_ge_0.
    - rewrite (plus_inf _ FRr). change (PrimFloat.div infinity (F_ofZ 20)) with infinity. rewrite (pow10_plus L A). rewrite Forall_forall in *. intros x Hx. right. apply zero_times_inf; [|apply ZD, Hx]. apply (pcm_real x (PD x Hx)).
    - set (a := sound_pressure_level ref) in *. set (b := sound_pressure_level d) in *.
      assert (B1 : (Rabs (FR a - FR b) <= 410)%R) by (apply Rabs_le; lra).
      destruct (op_err (PrimFloat.sub a b) _ 410 (FR_sub a b FRr FD) B1) as [F1 E1]; [pose proof tiny_small; lra|pose proof big_large; lra|].
      destruct (FR_ofZ 20 ltac:(lia)) as [E20 F20]. pose proof u_small as US. pose proof u_pos as UP.
      assert (B2 : (Rabs (FR (PrimFloat.sub a b)) <= 411)%R) by tri.
      assert (B3 : (Rabs (FR (PrimFloat.sub a b) / FR (F_ofZ 20)) <= 21)%R).
      { rewrite E20. unfold Rdiv. rewrite Rabs_mult, (Rabs_pos_eq (/ 20)) by lra. lra. }
      destruct (op_err (PrimFloat.div (PrimFloat.sub a b) (F_ofZ 20)) _ 21 (FR_div _ _ F1 ltac:(rewrite E20; lra)) B3) as [F2 E2]; [pose proof tiny_small; lra|pose proof big_large; lra|].
      set (q := PrimFloat.div (PrimFloat.sub a b) (F_ofZ 20)) in *. assert (B4 : (Rabs (FR q) <= 22)%R) by tri.
      destruct (acc_pow10 L A q F2 ltac:(lra)) as [F3 E3].
      assert (B5 : (0 < exp (FR q * ln 10) <= exp 51)%R).
      { split; [apply exp_pos|]. apply Raux.exp_le. pose proof ln10_b. apply Rle_trans with (22 * ln 10)%R; [apply Rmult_le_compat_r; [lra|]; apply Rabs_le_inv in B4; lra|lra]. }
      assert (B6 : (exp 51 <= bpow radix2 78)%R) by (change (bpow radix2 78) with 302231454903657293676544%R; interval).
      assert (B7 : bd 79 (mpow10 q)).
      { split; [exact F3|]. change 79 with (78 + 1). rewrite bpow_plus. change (bpow radix2 1) with 2%R. pose proof dl_pos. revert E3 B5 B6. generalize (exp (FR q * ln 10)) (exp 51) (bpow radix2 78) (FR (mpow10 q)). clear - H. intros e g h p E3 B5 B6.
        assert (dl * e <= e)%R by nra. tri. }
      eapply Forall_impl; [|exact PD]. intros x Px. left. apply pcm_real in Px. destruct Px as [Bx _]. apply within_100. apply (bd_weaken 79); [|lia]. apply (bd_mul 0 79); [lia|exact Bx|exact B7].
  Qed.
End Scale.

Lemma pcm_0 : pcm 0. Proof. split; [reflexivity|left; reflexivity]. Qed.
Lemma pcm_usable x : pcm x -> usable x.
Proof. intros H. left. apply within_100. apply (bd_weaken 0); [|lia]. apply pcm_real, H. Qed.
Lemma Forall_skipn_ {A} (P : A -> Prop) k l : Forall P l -> Forall P (skipn k l).
Proof. revert l. induction k as [|k IH]; intros l H; [exact H|]. destruct l; [constructor|]. inversion H; subst. cbn [skipn]. apply IH. assumption. Qed.
Lemma Forall_repeat_ {A} (P : A -> Prop) x k : P x -> Forall P (repeat x k). Proof. intros H. induction k; constructor; assumption. Qed.
Lemma compared_usable {L : Libm F} (A : accurate L) (w : world F) (m : manager F) ref deg x : keeps_length (w_fft w) ->
  1 <= Z.of_nat (length (au_data ref)) < 2 ^ 29 -> 1 <= Z.of_nat (length (au_data deg)) < 2 ^ 29 ->
  Forall pcm (au_data ref) -> Forall pcm (au_data deg) -> compared w m ref deg x -> Forall usable (au_data x).
Proof.
  intros K LR LD PR PD (d & lag & EG & ->).
  assert (X : Forall pcm (au_data d) /\ 1 <= Z.of_nat (length (au_data d)) < 2 ^ 30).
  { destruct (mg_no_global m); [injection EG as <- <-; split; [exact PD|lia]|]. apply (globally_align_cases _ _ _ _ _ half_exact_F K) in EG; [|lia|lia].
    destruct EG as [(-> & _)|[(q & Q1 & Q2 & Q3 & _)|(q & Q1 & Q2 & Q3 & _)]]; [split; [exact PD|lia]| |]; rewrite Q3.
    - split; [apply Forall_skipn_, PD|]. rewrite skipn_length. lia.
    - split; [apply Forall_app; split; [apply Forall_repeat_, pcm_0|exact PD]|]. rewrite app_length, repeat_length. lia. }
  apply scaled_usable; try assumption; try apply X. lia.
Qed.
Lemma accurate_bank {L : Libm F} (A : accurate L) (m : manager F) sr : reachable m -> 4000 <= sr <= 262144 -> stable_bank (st_speech (mg_settings m)) (mg_bank m) sr.
Proof.
  intros HR Hsr. destruct (bank_invariant m HR) as [E1 E2]. unfold stable_bank. rewrite E1, E2. apply (bank_stable A); [exact Hsr|]. unfold num_bands. destruct (st_speech _); lia.
Qed.
Lemma run_accurate_finite {L : Libm F} (w : world F) (m : manager F) ref deg : accurate L -> keeps_length (w_fft w) -> mg_init m = true -> reachable m ->
  let sr := au_sr ref in let st := mg_settings m in
  au_sr deg = sr -> 4000 <= sr <= 262144 ->
  Z.of_nat (length (au_data ref)) < 2 ^ 29 -> Z.of_nat (length (au_data deg)) < 2 ^ 29 ->
  Z.of_nat (length (au_data ref)) + 2 * window_samples sr < 2 * Z.of_nat (length (au_data deg)) ->
  (if st_speech st then 29 else 45) <= frames_in sr (length (au_data ref)) ->
  (st_speech st = true -> window_samples sr mod 4 = 0) ->
  1 <= st_radius st -> frames_in sr (length (au_data ref)) + st_radius st * (if st_speech st then 20 else 30) <= 2 ^ 31 ->
  can_predict (st_mapper st) -> Forall pcm (au_data ref) -> Forall pcm (au_data deg) ->
  (exists msg, snd (run w m ref deg) = Ret msg /\ finite_numbers msg) \/ (st_no_realign st = false /\ snd (run w m ref deg) = Throw).
Proof.
  intros A K I HR sr st ES Hsr Lr Ld Wd EF HW Rad RB CP PR PD.
  assert (SL := accurate_log A). assert (SC := accurate_cos A). assert (SB := accurate_bank A m sr HR Hsr).
  assert (W1 : 3 < window_samples sr <= 2 ^ 20) by (unfold window_samples; lia).
  assert (Pr : (0 < length (au_data ref))%nat).
  { unfold frames_in in EF. assert (1 <= hop_samples sr) by (unfold hop_samples; lia).
    destruct (au_data ref); [|cbn [length]; lia]. exfalso. cbn [length] in EF.
    assert ((Z.of_nat 0 - window_samples sr) / hop_samples sr < 1) by (apply Z.div_lt_upper_bound; lia). destruct (st_speech _); lia. }
  assert (SX : forall x, compared w m ref deg x -> au_sr x = sr) by (intros x; apply compared_rate; try assumption; lia).
  assert (UX : forall x, compared w m ref deg x -> Forall usable (au_data x)) by (intros x; apply (compared_usable A); try assumption; lia).
  assert (UR : Forall usable (au_data ref)) by (eapply Forall_impl; [|exact PR]; exact pcm_usable).
  set (win := MkWin (Z.to_nat (window_samples sr)) kOverlap : window F).
  assert (Hw : 2 <= Z.of_nat (w_size win) <= 2 ^ 20) by (unfold win; cbn [w_size]; lia).
  assert (NO : forall y, au_sr y = sr -> Forall usable (au_data y) -> no_overflow (st_speech st) (mg_bank m) win y).
  { intros y Ey Fy. apply usable_no_overflow; try assumption. rewrite Ey. exact SB. }
  apply (run_at_finite w m ref deg usable SL K I HR ES ltac:(fold sr; lia) Lr Ld Wd EF); try assumption.
  - intros E. split; [exact (HW E)|]. fold sr. lia.
  - apply NO; [reflexivity|exact UR].
  - intros x Hx. apply NO; [apply SX, Hx|apply UX, Hx].
  - intros x Hx _. split; [left; reflexivity|]. split; [exact UR|]. split; [apply UX, Hx|exact NO].
Qed.
Lemma run_accurate {L : Libm F} (w : world F) (m : manager F) ref deg : accurate L -> keeps_length (w_fft w) -> mg_init m = true -> reachable m ->
  let sr := au_sr ref in let st := mg_settings m in
  au_sr deg = sr -> 4000 <= sr <= 262144 ->
  Z.of_nat (length (au_data ref)) < 2 ^ 29 -> Z.of_nat (length (au_data deg)) < 2 ^ 29 ->
  Z.of_nat (length (au_data ref)) + 2 * window_samples sr < 2 * Z.of_nat (length (au_data deg)) ->
  (if st_speech st then 29 else 45) <= frames_in sr (length (au_data ref)) ->
  (st_speech st = true -> window_samples sr mod 4 = 0) ->
  1 <= st_radius st -> frames_in sr (length (au_data ref)) + st_radius st * (if st_speech st then 20 else 30) <= 2 ^ 31 ->
  can_predict (st_mapper st) -> Forall pcm (au_data ref) -> Forall pcm (au_data deg) ->
  (exists msg, snd (run w m ref deg) = Ret msg) \/ (st_no_realign st = false /\ snd (run w m ref deg) = Throw).
Proof.
  intros A K I HR sr st ES Hsr Lr Ld Wd EF HW Rad RB CP PR PD.
  destruct (run_accurate_finite w m ref deg A K I HR ES Hsr Lr Ld Wd EF HW Rad RB CP PR PD) as [(msg & E & _)|X]; [left; exists msg; exact E|right; exact X].
Qed.
