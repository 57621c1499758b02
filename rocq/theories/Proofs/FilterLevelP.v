(** The level of a band and the entries of a spectrogram in binary64 (C114). *)
From Coq Require Import ZArith List Bool Reals Lra Lia Floats ZifyNat ZifyBool.
From Flocq Require Import Core.Core IEEE754.BinarySingleNaN IEEE754.PrimFloat.
From Interval Require Import Tactic.
From Verif Require Import Base.Res Base.Num Base.NumF Base.NumR Base.Lists Base.Mat Model.Amatrix Model.MiscMath Model.Window Model.SignalFilter Model.Erb
  Model.Spectrogram Model.FilterBank Spec.StatSpec Spec.StableSpec Spec.FilterAccSpec Proofs.B64P Proofs.RoundP Proofs.BoundP Proofs.BankP Proofs.StableP Proofs.StableBankP Proofs.StableCasesP
  Proofs.FilterAccP Proofs.FilterBandP Proofs.RmsAccP.
Import ListNotations.
Open Scope R_scope.

Lemma resonance_pos c : damped c -> 0 < resonance c.
Proof.
  intros [D1 D2]. destruct (pole_facts (e_B1 c) (e_B2 c) D1 D2) as ([_ R1] & [H0 _] & _). unfold resonance, radius, height.
  apply Rmult_lt_0_compat; [lra|]. apply Rinv_0_lt_compat, Rmult_lt_0_compat; [lra|exact H0].
Qed.
Lemma band_gain_range c : Forall (fun g => / 2 ^ 100 <= g <= 2 ^ 80) (stage_gains c) -> 0 < band_gain c <= 2 ^ 320.
Proof.
  intros H. unfold band_gain. assert (P : forall l, Forall (fun g => / 2 ^ 100 <= g <= 2 ^ 80) l -> 0 < fold_right Rmult 1 l <= 2 ^ (80 * length l)); [|exact (P _ H)].
  induction l as [|g l IH]; intros HF; [cbn [fold_right length]; rewrite Nat.mul_0_r; cbn [pow]; lra|]. inversion HF as [|? ? G HF']; subst. specialize (IH HF'). cbn [fold_right length].
  assert (0 < / 2 ^ 100) by (apply Rinv_0_lt_compat, pow_lt; lra). replace (80 * S (length l))%nat with (80 + 80 * length l)%nat by lia. rewrite pow_add.
  split; [apply Rmult_lt_0_compat; lra|apply Rmult_le_compat; lra].
Qed.
Lemma start_close X xs : 0 <= X -> Forall (fun x => fin x /\ Rabs (FR x) <= X) xs -> close 0 X xs (map FR xs).
Proof. intros HX H. induction H as [|x xs [F B] H IH]; [constructor|]. cbn [map]. constructor; [|exact IH]. split; [exact F|]. rewrite Rminus_diag_eq, Rabs_R0 by reflexivity. split; [lra|exact B]. Qed.
Lemma band_accurate (c : erb_coeffs PrimFloat.float) (X : R) xs : moderate_band c -> / 2 ^ 100 <= X <= 2 ^ 100 -> Forall (fun x => fin x /\ Rabs (FR x) <= X) xs ->
  exists y f yr fr, band_filter c zero_cond xs = Ret (y, f) /\ band_filter (real_coeffs c) zero_cond (map FR xs) = Ret (yr, fr) /\
    Forall2 (fun a b => fin a /\ Rabs (FR a - b) <= band_error (real_coeffs c) * X /\ Rabs b <= band_gain (real_coeffs c) * X) y yr.
Proof.
  intros MB HX HF. assert (0 < / 2 ^ 100) by (apply Rinv_0_lt_compat, pow_lt; lra).
  destruct (band_close c X 0 xs (map FR xs) MB HX ltac:(lra) (start_close X xs ltac:(lra) HF)) as (y & f & yr & fr & E1 & E2 & C).
  exists y, f, yr, fr. split; [exact E1|]. split; [exact E2|]. eapply close_weaken; [exact C| |apply Rle_refl]. unfold band_error. rewrite u_pow. right. ring.
Qed.
Lemma band_error_small c : moderate_band c -> 0 < band_error (real_coeffs c) <= / 5 * band_gain (real_coeffs c).
Proof.
  intros (_ & _ & DA & HK & GA). pose proof (resonance_pos _ DA). pose proof (proj1 (band_gain_range _ GA)) as G. unfold band_error.
  assert (K : 0 < / 2 ^ 53 * resonance (real_coeffs c) <= 1 / 8192).
  { split; [apply Rmult_lt_0_compat; [apply Rinv_0_lt_compat, pow_lt; lra|assumption]|]. apply Rle_trans with (/ 2 ^ 53 * 2 ^ 40); [apply Rmult_le_compat_l; [left; apply Rinv_0_lt_compat, pow_lt; lra|exact HK]|right; simpl; field]. }
  split; [apply Rmult_lt_0_compat; lra|apply Rmult_le_compat_r; lra].
Qed.
Lemma level_accurate (c : erb_coeffs PrimFloat.float) xs : moderate_band c -> (0 < length xs)%nat -> (Z.of_nat (length xs) <= 2 ^ 20)%Z -> Forall (within 1) xs ->
  exists y f, band_filter c zero_cond xs = Ret (y, f) /\ fin (row_rms y) /\
    Rabs (FR (row_rms y) - exact_level (real_coeffs c) (map FR xs)) <= band_error (real_coeffs c) + / 2 ^ 29 * band_gain (real_coeffs c) + / 2 ^ 400.
Proof.
  intros MB HN HL HF. assert (H1 : / 2 ^ 100 <= 1 <= 2 ^ 100).
  { split; [|apply pow_R1_Rle; lra]. rewrite <- Rinv_1. apply Rinv_le_contravar; [lra|apply pow_R1_Rle; lra]. }
  destruct (band_accurate c 1 xs MB H1) as (y & f & yr & fr & E1 & E2 & C).
  { eapply Forall_impl; [|exact HF]. intros x W. destruct (within_fin 1 x eq_refl W) as [F B]. rewrite FR_1 in B. split; assumption. }
  exists y, f. split; [exact E1|]. unfold exact_level. rewrite E2. rewrite !Rmult_1_r in C.
  destruct (band_error_small c MB) as [B0 B1]. destruct MB as (_ & _ & DA & HK & GA). destruct (band_gain_range _ GA) as [G0 G1].
  set (e := band_error (real_coeffs c)) in *. set (g := band_gain (real_coeffs c)) in *.
  assert (LY : length y = length xs).
  { destruct (band_filter_ret c zero_cond xs) as (y' & f' & E & L & _); [repeat split; cbn; lia|]. rewrite E1 in E. injection E as <- _. exact L. }
  assert (FY : Forall (fun a => fin a /\ Rabs (FR a) <= 2 * g) y). { clear -C B1 G0. induction C as [|a b y yr (F & H1 & H2) C IH]; constructor; [|exact IH]. split; [exact F|]. tri. }
  destruct (rms_acc y (2 * g)) as [FR' ER]; [lia|lia| |exact FY|].
  { split; [lra|]. apply Rle_trans with (2 * 2 ^ 320); [lra|]. change (2 * 2 ^ 320) with (2 ^ 321). apply Rle_pow; [lra|lia]. }
  split; [exact FR'|].
  assert (ST : Rabs (rms (map FR y) - rms yr) <= e).
  { apply rms_near; [lra| |rewrite map_length; lia]. clear -C. induction C as [|a b y yr (F & H1 & H2) C IH]; cbn [map]; constructor; assumption. }
  assert (E30 : / 2 ^ 30 * (2 * g) = / 2 ^ 29 * g) by (simpl; field). rewrite E30 in ER. tri.
Qed.
Section Entries.
  Context {L : Libm PrimFloat.float}.
  Hypothesis (SC : sane_cos).
  Lemma windowed_within (w : window PrimFloat.float) sig f : (2 <= Z.of_nat (w_size w) <= 2 ^ 20)%Z -> length sig = w_size w -> Forall (within 1) sig -> apply_hann w sig = Ret f ->
    Forall (within 1) f /\ length f = w_size w.
  Proof.
    intros Hw LS FS. unfold apply_hann. rewrite LS, Nat.ltb_irrefl. intros E. injection E as <-. split; [|rewrite map_length, seq_length; reflexivity].
    apply Forall_map, Forall_forall. intros i Hi. apply in_seq in Hi. destruct (Nat.ltb_spec i (w_size w)); [|lia].
    apply (pow_bd 1 0); [reflexivity|exact FR_1|]. apply (bd_mul 0 0); [lia|apply hann_bd; [exact SC|lia|lia]|]. rewrite Forall_forall in FS. apply within_1, FS, nth_In. lia.
  Qed.
  Lemma entries_accurate speech (k : bank PrimFloat.float) (s : audio PrimFloat.float) w sp b t : (2 <= Z.of_nat (w_size w) <= 2 ^ 20)%Z ->
    Forall (within 1) (au_data s) -> snd (build speech k s w) = Ret sp -> (b < nrows (sp_data sp))%nat -> (t < ncols (sp_data sp))%nat ->
    let c := nth b (rev (fst (make_filters (au_sr s) (bk_bands k) (bk_min k) (builder_max_freq speech (au_sr s))))) (erb_channel 0 0%float) in moderate_band c ->
    exists h f, hop_size w = Some h /\ apply_hann w (frame w (au_data s) (t * Z.to_nat h)) = Ret f /\ fin (at_ (sp_data sp) b t) /\
      Rabs (FR (at_ (sp_data sp) b t) - exact_level (real_coeffs c) (map FR f)) <= band_error (real_coeffs c) + / 2 ^ 29 * band_gain (real_coeffs c) + / 2 ^ 400.
  Proof.
    intros Hw FS E Hb Ht c MB.
    assert (EX : exists h, hop_size w = Some h /\ (1 <= h)%Z /\ (w_size w < length (au_data s))%nat).
    { unfold build in E. destruct (prepared_bank speech k (au_sr s)). destruct (hop_size w) as [h|]; [|discriminate]. exists h. split; [reflexivity|].
      destruct (Nat.leb_spec (length (au_data s)) (w_size w)); [discriminate|]. destruct (Z.leb_spec h 0); [discriminate|]. lia. }
    destruct EX as (h & EH & Hh & HN). destruct (build_ret speech k s w h EH Hh HN) as (sp' & E' & WF & NR & NC & _ & IN & _ & CELLS).
    rewrite E in E'. injection E' as <-. rewrite NR in Hb. rewrite NC in Ht.
    destruct (CELLS b t (erb_channel 0 0%float) Hb Ht) as (f & y & EF & EY & LY & EA). fold c in EY. specialize (IN t Ht).
    set (fr := frame w (au_data s) (t * Z.to_nat h)) in *.
    assert (LF : length fr = w_size w) by (unfold fr, frame; rewrite firstn_length, skipn_length; lia).
    assert (FF : Forall (within 1) fr).
    { apply Forall_forall. intros x Hx. rewrite Forall_forall in FS. apply FS. unfold fr, frame in Hx.
      rewrite <- (firstn_skipn (t * Z.to_nat h) (au_data s)). apply in_or_app. right. rewrite <- (firstn_skipn (w_size w)). apply in_or_app. left. exact Hx. }
    destruct (windowed_within w fr f Hw LF FF EF) as [Ff Lf].
    destruct (level_accurate c f MB ltac:(lia) ltac:(lia) Ff) as (y' & g & EB & F' & ER). unfold band_output in EY. rewrite EB in EY. cbn [bind] in EY. injection EY as <-.
    exists h, f. split; [exact EH|]. split; [exact EF|]. rewrite EA. split; [exact F'|exact ER].
  Qed.
End Entries.

(** *** the lowest band of the audio mode at 48 kHz, 50 Hz, which rings longest, with elementary functions by power series *)
Definition l_A0 : PrimFloat.float := (0x1.5d867c3ece2a5p-16)%float.
Lemma FR_l_A0 : FR l_A0 = 6148914691236517 * / 295147905179352825856. Proof. change (FR l_A0) with (F2R (Float radix2 (6148914691236517) (-68))). unfold F2R. cbn [Fnum Fexp bpow]. change (Z.pow_pos radix2 68) with 295147905179352825856%Z. reflexivity. Qed.
Definition l_A11 : PrimFloat.float := (-0x1.619e41927f3d3p-16)%float.
Lemma FR_l_A11 : FR l_A11 = -6220916952921043 * / 295147905179352825856. Proof. change (FR l_A11) with (F2R (Float radix2 (-6220916952921043) (-68))). unfold F2R. cbn [Fnum Fexp bpow]. change (Z.pow_pos radix2 68) with 295147905179352825856%Z. reflexivity. Qed.
Definition l_A12 : PrimFloat.float := (-0x1.569de86e73719p-16)%float.
Lemma FR_l_A12 : FR l_A12 = -6027378977879833 * / 295147905179352825856. Proof. change (FR l_A12) with (F2R (Float radix2 (-6027378977879833) (-68))). unfold F2R. cbn [Fnum Fexp bpow]. change (Z.pow_pos radix2 68) with 295147905179352825856%Z. reflexivity. Qed.
Definition l_A13 : PrimFloat.float := (-0x1.5d0fafbfa862cp-16)%float.
Lemma FR_l_A13 : FR l_A13 = -6140750898824748 * / 295147905179352825856. Proof. change (FR l_A13) with (F2R (Float radix2 (-6140750898824748) (-68))). unfold F2R. cbn [Fnum Fexp bpow]. change (Z.pow_pos radix2 68) with 295147905179352825856%Z. reflexivity. Qed.
Definition l_A14 : PrimFloat.float := (-0x1.5b2c7a414a4c0p-16)%float.
Lemma FR_l_A14 : FR l_A14 = -6107545031976128 * / 295147905179352825856. Proof. change (FR l_A14) with (F2R (Float radix2 (-6107545031976128) (-68))). unfold F2R. cbn [Fnum Fexp bpow]. change (Z.pow_pos radix2 68) with 295147905179352825856%Z. reflexivity. Qed.
Definition l_B1 : PrimFloat.float := (-0x1.fdf010c3b1bf1p+0)%float.
Lemma FR_l_B1 : FR l_B1 = -8970919871192049 * / 4503599627370496. Proof. change (FR l_B1) with (F2R (Float radix2 (-8970919871192049) (-52))). unfold F2R. cbn [Fnum Fexp bpow]. change (Z.pow_pos radix2 52) with 4503599627370496%Z. reflexivity. Qed.
Definition l_B2 : PrimFloat.float := (0x1.fbe7d3be881ddp-1)%float.
Lemma FR_l_B2 : FR l_B2 = 8935169363313117 * / 9007199254740992. Proof. change (FR l_B2) with (F2R (Float radix2 (8935169363313117) (-53))). unfold F2R. cbn [Fnum Fexp bpow]. change (Z.pow_pos radix2 53) with 9007199254740992%Z. reflexivity. Qed.
Definition l_g : PrimFloat.float := (0x1.92f82a094d46bp-32)%float.
Lemma FR_l_g : FR l_g = 7089112504128619 * / 19342813113834066795298816. Proof. change (FR l_g) with (F2R (Float radix2 (7089112504128619) (-84))). unfold F2R. cbn [Fnum Fexp bpow]. change (Z.pow_pos radix2 84) with 19342813113834066795298816%Z. reflexivity. Qed.
Definition low_band : erb_coeffs PrimFloat.float := MkErb l_A0 l_A11 l_A12 l_A13 l_A14 0%float 1%float l_B1 l_B2 l_g.
Lemma FR_l_0 : FR 0 = 0. Proof. exact (proj1 (FR_ofZ 0 ltac:(lia))). Qed.
Ltac low := cbn [real_coeffs low_band e_A0 e_A11 e_A12 e_A13 e_A14 e_A2 e_B0 e_B1 e_B2 e_gain]; rewrite ?FR_l_A0, ?FR_l_A11, ?FR_l_A12, ?FR_l_A13, ?FR_l_A14, ?FR_l_B1, ?FR_l_B2, ?FR_l_g, ?FR_l_0.
Lemma low_damped : damped (real_coeffs low_band). Proof. unfold damped. low. split; lra. Qed.
Lemma low_resonance : resonance (real_coeffs low_band) <= 76700.
Proof. unfold resonance, radius, height. low. interval with (i_prec 100). Qed.
Lemma low_gains : Forall2 (fun g p => p / 2 <= g <= p) (stage_gains (real_coeffs low_band)) [37100000; 137 / 10000; 565 / 100000; 565 / 100000].
Proof. unfold stage_gains, stage_gain, radius, height. low. repeat constructor; interval with (i_prec 120). Qed.
Lemma low_moderate : moderate_band low_band.
Proof.
  split; [repeat constructor|]. split; [low; lra|]. split; [exact low_damped|]. split; [apply Rle_trans with (1 := low_resonance); simpl; lra|].
  assert (P : forall l m, Forall2 (fun g p => p / 2 <= g <= p) l m -> Forall (fun p => / 2 ^ 99 <= p <= 2 ^ 80) m -> Forall (fun g => / 2 ^ 100 <= g <= 2 ^ 80) l).
  { intros l m H. induction H as [|g p l m G H IH]; intros K; constructor; inversion K; subst; [|apply IH; assumption]. replace (/ 2 ^ 100) with (/ 2 ^ 99 / 2) by (simpl; field). lra. }
  apply (P _ _ low_gains). repeat constructor; try (simpl; lra); interval.
Qed.
Lemma low_error : band_error (real_coeffs low_band) <= 3 / 10000000 /\ band_gain (real_coeffs low_band) <= 17.
Proof.
  assert (G : 0 < band_gain (real_coeffs low_band) <= 37100000 * (137 / 10000 * (565 / 100000 * (565 / 100000)))).
  { split; [exact (proj1 (band_gain_range _ (proj2 (proj2 (proj2 (proj2 low_moderate))))))|]. pose proof low_gains as H. unfold band_gain. revert H. generalize (stage_gains (real_coeffs low_band)). intros l H.
    repeat match goal with H : Forall2 _ _ _ |- _ => inversion H; clear H; subst end. cbn [fold_right]. rewrite Rmult_1_r.
    apply Rmult_le_compat; [lra| |lra|]. { apply Rmult_le_pos; [lra|apply Rmult_le_pos; lra]. } apply Rmult_le_compat; [lra|apply Rmult_le_pos; lra|lra|]. apply Rmult_le_compat; lra. }
  assert (R := low_resonance). assert (R0 := resonance_pos _ low_damped). split; [|lra]. unfold band_error.
  apply Rle_trans with (1600 * (/ 2 ^ 53 * 76700) * 17); [|simpl; lra].
  assert (0 < / 2 ^ 53) by (apply Rinv_0_lt_compat, pow_lt; lra).
  apply Rmult_le_compat; [apply Rmult_le_pos; [lra|apply Rmult_le_pos; lra]|lra| |lra]. apply Rmult_le_compat_l; [lra|]. apply Rmult_le_compat_l; lra.
Qed.
(** a bank of this band only, and a spectrogram *)
Definition low_bank : bank PrimFloat.float := bank_init 1 50%float.
Definition low_audio : audio PrimFloat.float := MkAudio [0.5; 1; 0.75; -0.25; -1; -0.5; 0.25; 0.125; 0; 1; 0.5; -0.5]%float 48000.
Definition low_window : window PrimFloat.float := MkWin 8 0.25%float.
Definition low_filters : erb_coeffs PrimFloat.float :=
  nth 0 (rev (fst (make_filters (L:=t_libm) (au_sr low_audio) (bk_bands low_bank) (bk_min low_bank) (builder_max_freq false (au_sr low_audio))))) (erb_channel (L:=t_libm) 0 0%float).
Lemma low_made : low_filters = low_band. Proof. vm_compute. reflexivity. Qed.
Definition low_spectrogram : option (mat PrimFloat.float) := match snd (build (L:=t_libm) false low_bank low_audio low_window) with Ret sp => Some (sp_data sp) | _ => None end.
Lemma low_shape : match low_spectrogram with Some M => nrows M = 1%nat /\ ncols M = 3%nat | None => False end.
Proof. vm_compute. split; reflexivity. Qed.
Lemma low_built : exists sp, snd (build (L:=t_libm) false low_bank low_audio low_window) = Ret sp /\ nrows (sp_data sp) = 1%nat /\ ncols (sp_data sp) = 3%nat.
Proof. pose proof low_shape as H. unfold low_spectrogram in H. destruct (snd (build _ _ _ _)) as [sp| | |]; try contradiction H. exists sp. split; [reflexivity|exact H]. Qed.
