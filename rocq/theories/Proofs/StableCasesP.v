(** The comparison of two recordings with stable filters (C100), and concrete filters. *)
From Coq Require Import ZArith List Bool Reals Lra Lia Floats ZifyBool ZifyNat.
From Coq Require Strings.String.
From Flocq Require Import Core.Core IEEE754.BinarySingleNaN IEEE754.PrimFloat.
From Verif Require Import Base.Res Base.Num Base.NumF Base.Lists Base.Mat Model.Amatrix Model.MiscMath Model.Fft Model.Window Model.Erb
  Model.FilterBank Model.Spectrogram Model.Alignment Model.Selector Model.MiscAudio Model.Mappers
  Model.Visqol Model.Manager Spec.FftSpec Spec.AlignSpec Spec.ManagerSpec Spec.TotalSpec Spec.UndefinedSpec Spec.StableSpec
  Proofs.B64P Proofs.FftP Proofs.BoundP Proofs.FinitePrepP Proofs.FiniteTotalP Proofs.AlignP Proofs.AlignCasesP Proofs.ToyRunP Proofs.TotalP Proofs.FiniteCasesP Proofs.StableP Proofs.StableBankP.
Import ListNotations.
Open Scope Z_scope.

(** *** statements in terms of binary64 comparisons *)
Lemma band_within c sig : stable c -> Z.of_nat (length sig) <= 2 ^ 20 -> Forall (within 0x1p100) sig ->
  exists y f, band_filter c zero_cond sig = Ret (y, f) /\ length y = length sig /\ Forall (within 0x1p426) y.
Proof.
  intros ST HL HF. destruct (band_bd c sig ST HL) as (y & f & E & LY & FY); [eapply Forall_impl; [|exact HF]; intros x Hx; apply within_100, Hx|].
  exists y, f. split; [exact E|]. split; [exact LY|]. eapply Forall_impl; [|exact FY]. intros x Hx; apply within_426, Hx.
Qed.
Lemma spectrogram_within {L : Libm F} speech (k : bank F) s w sp : sane_cos -> 2 <= Z.of_nat (w_size w) <= 2 ^ 20 -> stable_bank speech k (au_sr s) ->
  Forall (within 0x1p100) (au_data s) -> snd (build speech k s w) = Ret sp -> Forall (from_to 0 0x1p500) (elems (sp_data sp)).
Proof.
  intros SC Hw SB FS E. assert (FB : Forall (bd 100) (au_data s)) by (eapply Forall_impl; [|exact FS]; intros x Hx; apply within_100, Hx).
  pose proof (build_bd SC speech k s w sp Hw SB FB E) as X. eapply Forall_impl; [|exact X]. intros e ((Fe & Be) & Pe). cbn beta in *.
  assert (F0 : fin 0) by reflexivity. assert (F5 : fin 0x1p500) by reflexivity. assert (Z0 : FR 0 = 0%R) by reflexivity. split.
  - rewrite FR_leb by assumption. rewrite Z0. case Raux.Rle_bool_spec; [reflexivity|lra].
  - rewrite FR_leb by assumption. rewrite FR_500. rewrite Rabs_pos_eq in Be by exact Pe. case Raux.Rle_bool_spec; [reflexivity|lra].
Qed.
Lemma from_to_not_infinite b x : PrimFloat.ltb b infinity = true -> from_to 0 b x -> ~ infinite x.
Proof.
  unfold from_to, infinite. intros Hb [H1 H2]. revert Hb H1 H2. rewrite eqb_equiv, abs_equiv, !leb_equiv, ltb_equiv. change (Prim2B 0) with (B754_zero (prec:=prec) (emax:=emax) false).
  change (Prim2B infinity) with (B754_infinity (prec:=prec) (emax:=emax) false).
  destruct (Prim2B x) as [?|[]| |[] ? ? ?]; destruct (Prim2B b) as [?|[]| |[] ? ? ?]; cbn; congruence.
Qed.
Lemma stable_no_overflow {L : Libm F} speech (k : bank F) s w : sane_cos -> 2 <= Z.of_nat (w_size w) <= 2 ^ 20 -> stable_bank speech k (au_sr s) ->
  Forall (within 0x1p100) (au_data s) -> no_overflow speech k w s.
Proof.
  intros SC Hw SB FS sp E. eapply Forall_impl; [|exact (spectrogram_within speech k s w sp SC Hw SB FS E)]. intros e. apply from_to_not_infinite. reflexivity.
Qed.

Lemma compared_rate {L : Libm F} (w : world F) (m : manager F) ref deg x : keeps_length (w_fft w) -> au_sr deg = au_sr ref ->
  Z.of_nat (length (au_data ref)) < 2 ^ 29 -> Z.of_nat (length (au_data deg)) < 2 ^ 29 -> (0 < length (au_data ref))%nat -> (0 < length (au_data deg))%nat ->
  compared w m ref deg x -> au_sr x = au_sr ref.
Proof.
  intros K ES Lr Ld Pr Pd (d & lag & EG & ->). unfold scale_to_match_spl. cbn [au_sr]. destruct (mg_no_global m); [injection EG as <- <-; exact ES|].
  apply (globally_align_cases _ _ _ _ _ half_exact_F K) in EG; [|lia|lia].
  destruct EG as [(-> & _)|[(q & _ & _ & _ & -> & _)|(q & _ & _ & _ & -> & _)]]; exact ES.
Qed.
Lemma run_stable {L : Libm F} (w : world F) (m : manager F) ref deg : sane_log mlog10 -> sane_cos -> keeps_length (w_fft w) -> mg_init m = true -> reachable m ->
  let sr := au_sr ref in let st := mg_settings m in
  au_sr deg = sr -> 44 <= sr <= 13000000 ->
  Z.of_nat (length (au_data ref)) < 2 ^ 29 -> Z.of_nat (length (au_data deg)) < 2 ^ 29 ->
  Z.of_nat (length (au_data ref)) + 2 * window_samples sr < 2 * Z.of_nat (length (au_data deg)) ->
  (if st_speech st then 29 else 45) <= frames_in sr (length (au_data ref)) ->
  (st_speech st = true -> window_samples sr mod 4 = 0) ->
  1 <= st_radius st -> frames_in sr (length (au_data ref)) + st_radius st * (if st_speech st then 20 else 30) <= 2 ^ 31 ->
  can_predict (st_mapper st) -> stable_bank (st_speech st) (mg_bank m) sr ->
  Forall (within 0x1p100) (au_data ref) -> (forall x, compared w m ref deg x -> Forall (within 0x1p100) (au_data x)) ->
  (exists msg, snd (run w m ref deg) = Ret msg) \/ (st_no_realign st = false /\ snd (run w m ref deg) = Throw).
Proof.
  intros SL SC K I HR sr st ES Hsr Lr Ld Wd EF HW Rad RB CP SB AR AX.
  assert (W1 : 3 < window_samples sr <= 2 ^ 20) by (unfold window_samples; lia).
  assert (Pr : (0 < length (au_data ref))%nat).
  { unfold frames_in in EF. assert (1 <= hop_samples sr) by (unfold hop_samples; lia).
    destruct (au_data ref); [|cbn [length]; lia]. exfalso. cbn [length] in EF.
    assert ((Z.of_nat 0 - window_samples sr) / hop_samples sr < 1) by (apply Z.div_lt_upper_bound; lia). destruct (st_speech _); lia. }
  assert (SX : forall x, compared w m ref deg x -> au_sr x = sr).
  { intros x. apply compared_rate; try assumption. lia. }
  set (win := MkWin (Z.to_nat (window_samples sr)) kOverlap : window F).
  assert (Hw : 2 <= Z.of_nat (w_size win) <= 2 ^ 20) by (unfold win; cbn [w_size]; lia).
  assert (NO : forall y, au_sr y = sr -> Forall (within 0x1p100) (au_data y) -> no_overflow (st_speech st) (mg_bank m) win y).
  { intros y Ey Fy. apply stable_no_overflow; try assumption. rewrite Ey. exact SB. }
  apply (run_at_F w m ref deg (within 0x1p100) SL K I HR ES ltac:(fold sr; lia) Lr Ld Wd EF); try assumption.
  - intros E. split; [exact (HW E)|]. fold sr. lia.
  - apply NO; [reflexivity|exact AR].
  - intros x Hx. apply NO; [apply SX, Hx|apply AX, Hx].
  - intros x Hx _. split; [reflexivity|]. split; [exact AR|]. split; [apply AX, Hx|exact NO].
Qed.

(** *** a way to check that filters are stable *)
Definition stableb (c : erb_coeffs F) : bool :=
  PrimFloat.leb (PrimFloat.abs (e_B2 c)) 1 && PrimFloat.ltb (PrimFloat.abs (e_B1 c)) (1 + e_B2 c) &&
  forallb (fun x => PrimFloat.leb (PrimFloat.abs x) 0x1p150) [PrimFloat.div (e_A0 c) (e_gain c); PrimFloat.div (e_A11 c) (e_gain c); PrimFloat.div (e_A2 c) (e_gain c)] &&
  forallb (fun x => PrimFloat.leb (PrimFloat.abs x) 1) [e_A0 c; e_A12 c; e_A13 c; e_A14 c; e_A2 c].
Lemma stableb_sound cs : forallb stableb cs = true -> Forall stable cs.
Proof.
  rewrite forallb_forall, Forall_forall. intros H c Hc. specialize (H c Hc). unfold stableb in H. rewrite !andb_true_iff in H. destruct H as [[[H1 H2] H3] H4].
  split; [exact H1|]. split; [exact H2|]. rewrite forallb_forall in H3, H4. split; apply Forall_forall; [exact H3|exact H4].
Qed.

(** elementary functions by power series, for concrete filters *)
Definition series (n : nat) (x2 : F) (step : Z -> F) : F := fst (fold_right (fun i acc => (PrimFloat.add 1 (PrimFloat.div (PrimFloat.mul x2 (fst acc)) (step (Z.of_nat i))), tt)) (1%float, tt) (seq 1 n)).
Definition t_exp (x : F) : F := let y := series 14 (x * 0.0009765625)%float (fun i => F_ofZ i) in fold_left (fun a _ => (a * a)%float) (seq 0 10) y.
Definition clamp (lo hi x : F) : F := if (lo <=? x)%float then if (x <=? hi)%float then x else hi else lo.
Definition t_cos (x : F) : F := clamp (-1) 1 (series 20 (- (x * x))%float (fun i => F_ofZ (2 * i * (2 * i - 1)))).
Definition t_sin (x : F) : F := clamp (-1) 1 (x * series 20 (- (x * x))%float (fun i => F_ofZ (2 * i * (2 * i + 1))))%float.
Definition t_log (x : F) : F := fold_left (fun y _ => let e := t_exp y in (y + 2 * (x - e) / (x + e))%float) (seq 0 10) 8%float.
Definition t_libm : Libm F :=
  Build_Libm _ t_exp t_log (fun x => if PrimFloat.eqb x x then clamp (-400) 400 (if (x <? 1)%float then (-5)%float else t_log x / 0x1.26bb1bbb55516p+1)%float else x)
    (fun x => t_exp (x * 0x1.26bb1bbb55516p+1)%float) t_cos t_sin 0x1.921fb54442d18p+1%float.
Lemma clamp_in lo hi x : PrimFloat.leb lo hi = true -> PrimFloat.leb lo lo = true -> PrimFloat.leb hi hi = true -> PrimFloat.leb lo (clamp lo hi x) = true /\ PrimFloat.leb (clamp lo hi x) hi = true.
Proof. intros H1 H2 H3. unfold clamp. destruct (lo <=? x)%float eqn:E1; [destruct (x <=? hi)%float eqn:E2|]; auto. Qed.
Lemma clamp_1 x : within 1 (clamp (-1) 1 x).
Proof.
  destruct (clamp_in (-1) 1 x eq_refl eq_refl eq_refl) as [H1 H2]. set (y := clamp _ _ _) in *. assert (Fm : fin (-1)) by reflexivity. assert (F1 : fin 1) by reflexivity.
  pose proof (leb_fin (-1) 1 y Fm F1 H1 H2) as Fy. apply within_of; [exact F1|exact Fy|]. rewrite FR_leb in H1, H2 by assumption. rewrite FR_1 in *.
  assert (M : FR (-1) = (-1)%R) by (replace (FR (-1)) with (- FR 1)%R by (unfold FR; change (-1)%float with (PrimFloat.opp 1); rewrite opp_equiv, B2R_Bopp; reflexivity); rewrite FR_1; reflexivity).
  rewrite M in H1. revert H1 H2. case Raux.Rle_bool_spec; [intros H1 _|discriminate]. case Raux.Rle_bool_spec; [intros H2 _|discriminate]. apply Rabs_le. lra.
Qed.
Lemma t_sane : sane_cos (L:=t_libm) /\ sane_log (mlog10 (Libm:=t_libm)).
Proof.
  split; [split; [intros x _; apply clamp_1|reflexivity]|]. cbn [mlog10 t_libm]. split; [|split; [reflexivity|]].
  - intros x H1 H2. destruct (PrimFloat.eqb x x) eqn:E; [apply clamp_in; reflexivity|]. exfalso. revert H1 E. rewrite ltb_equiv, eqb_equiv.
    change (Prim2B 0) with (B754_zero (prec:=prec) (emax:=emax) false). intros H1 E. assert (U : undefined x) by (unfold undefined; rewrite eqb_equiv; exact E). apply undefined_B in U. rewrite U in H1. discriminate.
  - intros x U. unfold undefined in U |- *. rewrite U. exact U.
Qed.
(** the filters of the two modes of the program at their usual sample rates *)
Lemma audio_stable : stable_bank (L:=t_libm) false (fresh_bank false) 48000. Proof. apply stableb_sound. vm_compute. reflexivity. Qed.
Lemma speech_stable : stable_bank (L:=t_libm) true (fresh_bank true) 16000. Proof. apply stableb_sound. vm_compute. reflexivity. Qed.
(** the filters of the short comparison of C99 *)
Lemma step_stable : stable_bank (L:=step_libm) true (mg_bank (quiet_manager 1)) 50. Proof. apply stableb_sound. vm_compute. reflexivity. Qed.
Lemma step_cos : sane_cos (L:=step_libm). Proof. split; [intros x _; reflexivity|reflexivity]. Qed.
Definition fine_manager : manager F := fst (init run_world manager_new (MkInit String.EmptyString true false 1 false true false)).
Lemma fine_reached : reachable (L:=step_libm) fine_manager /\ mg_init fine_manager = true /\ st_no_realign (mg_settings fine_manager) = false.
Proof. split; [apply r_init, r_new|]. split; reflexivity. Qed.
Definition withinb (x : audio F) : bool := forallb (fun s => PrimFloat.leb (PrimFloat.abs s) 0x1p100) (au_data x).
Lemma withinb_sound x : withinb x = true -> Forall (within 0x1p100) (au_data x).
Proof. unfold withinb. rewrite forallb_forall, Forall_forall. auto. Qed.
Lemma fine_runs : (exists msg, snd (run (L:=step_libm) run_world fine_manager (loud_audio 1 1) (loud_audio 1 2)) = Ret msg) \/
  snd (run (L:=step_libm) run_world fine_manager (loud_audio 1 1) (loud_audio 1 2)) = Throw.
Proof.
  destruct fine_reached as (R1 & R2 & R3).
  assert (KL : keeps_length (w_fft run_world)) by (split; intros l; reflexivity).
  assert (LN : forall v k, length (au_data (loud_audio v k)) = 33%nat) by (intros; unfold loud_audio; cbn [au_data]; rewrite map_length, seq_length; reflexivity).
  assert (X : (exists msg, snd (run (L:=step_libm) run_world fine_manager (loud_audio 1 1) (loud_audio 1 2)) = Ret msg) \/
    (st_no_realign (mg_settings fine_manager) = false /\ snd (run (L:=step_libm) run_world fine_manager (loud_audio 1 1) (loud_audio 1 2)) = Throw)); [|destruct X as [X|[_ X]]; [left; exact X|right; exact X]].
  refine (run_stable (L:=step_libm) run_world fine_manager (loud_audio 1 1) (loud_audio 1 2) step_sane step_cos KL R2 R1 eq_refl _ _ _ _ _ _ _ _ _ _ _ _); rewrite ?LN.
  1-8: vm_compute; (reflexivity || discriminate || (split; (reflexivity || discriminate)) || (intros _; reflexivity)).
  - vm_compute. exact I.
  - exact step_stable.
  - apply withinb_sound. vm_compute. reflexivity.
  - intros x (d & lag & EG & ->). assert (X : d = loud_audio 1 2) by (vm_compute in EG |- *; congruence). subst d. apply withinb_sound. vm_compute. reflexivity.
Qed.
