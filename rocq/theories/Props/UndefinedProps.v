(** Properties C98 and C99: undefined numbers in binary64. *)
From Coq Require Import ZArith List Bool Floats.
From Verif Require Import Base.Res Base.Num Base.NumF Base.Mat Model.Window Model.FilterBank Model.Fft Model.MiscAudio Model.Spectrogram Model.Mappers Model.Visqol Model.Manager
  Spec.ManagerSpec Spec.TotalSpec Spec.UndefinedSpec Proofs.FftP Proofs.FinitePrepP Proofs.ToyRunP Proofs.FiniteCasesP.
Import ListNotations.
Open Scope Z_scope.

(** C98, as stated, fails: one infinite entry leaves nothing but undefined numbers in both prepared spectrograms. *)
Theorem C98_only_finite_levels_refuted : exists (L : Libm float) (A B A' B' : mat float), sane_log mlog10 /\ wf A /\ wf B /\
  prepare_spectrograms A B = Ret (A', B') /\ Forall undefined (elems A') /\ Forall undefined (elems B') /\ elems A' <> [] /\ elems B' <> [].
Proof. exact infinity_spoils. Qed.
Print Assumptions C98_only_finite_levels_refuted.
(** C98 without infinite entries: everything compared is finite, between 0 and 4045 dB, and the least level is 0. *)
Theorem C98_only_finite_levels_partial {L : Libm float} (A B A' B' : mat float) : sane_log mlog10 -> wf A -> wf B ->
  Forall (fun x => ~ infinite x) (elems A) -> Forall (fun x => ~ infinite x) (elems B) -> prepare_spectrograms A B = Ret (A', B') ->
  Forall (from_to 0 4045) (elems A') /\ Forall (from_to 0 4045) (elems B') /\ exists x, (In x (elems A') \/ In x (elems B')) /\ PrimFloat.eqb x 0 = true.
Proof. exact (prepared_finite A B A' B'). Qed.
Print Assumptions C98_only_finite_levels_partial.
(** C98: undefined entries are treated exactly as silence. *)
Theorem C98_undefined_is_silence {L : Libm float} (A B : mat float) : sane_log mlog10 -> prepare_spectrograms (silenced A) (silenced B) = prepare_spectrograms A B.
Proof. exact (fun SL => prepare_silenced SL A B). Qed.
Print Assumptions C98_undefined_is_silence.
(** an undefined entry in the first channel of the reference *)
Example C98_example : exists A' B', prepare_spectrograms (L:=step_libm) (MkMat 2 1 [nan; 4%float]) (MkMat 2 1 [0%float; 0.5%float]) = Ret (A', B') /\
  elems A' = [0; 45]%float /\ elems B' = [0; 0]%float.
Proof. exact two_cells_prepared. Qed.
Example C98_sane : sane_log step_log. Proof. exact step_sane. Qed.

(** C99, as stated, fails: finite samples as large as 2^603 overflow in the spectrogram; no similarity is a number, and the
    matching reads an offset that was never set. *)
Theorem C99_finite_samples_safe_refuted : exists (L : Libm float) (w : world float) (m : manager float) ref deg,
  sane_log mlog10 /\ keeps_length (w_fft w) /\ mg_init m = true /\ reachable m /\ au_sr deg = au_sr ref /\ au_sr ref = 50 /\
  length (au_data ref) = 33%nat /\ length (au_data deg) = 33%nat /\ can_predict (st_mapper (mg_settings m)) /\
  Forall (fun s => PrimFloat.leb (PrimFloat.abs s) 0x1p700 = true) (au_data ref ++ au_data deg) /\ snd (run w m ref deg) = Ub.
Proof. exact huge_undefined. Qed.
Print Assumptions C99_finite_samples_safe_refuted.
(** C99 for signals whose spectrograms do not overflow, without the second alignment: a result is returned. *)
Theorem C99_no_overflow_returns_partial {L : Libm float} (w : world float) (m : manager float) ref deg :
  sane_log mlog10 -> keeps_length (w_fft w) -> mg_init m = true -> reachable m ->
  let sr := au_sr ref in let st := mg_settings m in let win := MkWin (Z.to_nat (window_samples sr)) kOverlap in
  au_sr deg = sr -> 44 <= sr < 2 ^ 31 ->
  Z.of_nat (length (au_data ref)) < 2 ^ 29 -> Z.of_nat (length (au_data deg)) < 2 ^ 29 ->
  Z.of_nat (length (au_data ref)) + 2 * window_samples sr < 2 * Z.of_nat (length (au_data deg)) ->
  (if st_speech st then 29 else 45) <= frames_in sr (length (au_data ref)) ->
  (st_speech st = true -> window_samples sr mod 4 = 0 /\ window_samples sr < 2 ^ 24) ->
  1 <= st_radius st -> frames_in sr (length (au_data ref)) + st_radius st * (if st_speech st then 20 else 30) <= 2 ^ 31 ->
  can_predict (st_mapper st) -> st_no_realign st = true ->
  no_overflow (st_speech st) (mg_bank m) win ref ->
  (forall x, compared w m ref deg x -> no_overflow (st_speech st) (mg_bank m) win x) ->
  exists msg, snd (run w m ref deg) = Ret msg.
Proof. exact (run_without_realign_F w m ref deg). Qed.
Print Assumptions C99_no_overflow_returns_partial.
(** two recordings of 33 samples that meet the hypotheses of the second theorem *)
Example C99_example : no_overflow (L:=step_libm) true (mg_bank (quiet_manager 1)) win50F (loud_audio 1 1) /\
  no_overflow (L:=step_libm) true (mg_bank (quiet_manager 1)) win50F (scale_to_match_spl (L:=step_libm) (loud_audio 1 1) (loud_audio 1 2)) /\
  exists msg, snd (run (L:=step_libm) run_world (quiet_manager 1) (loud_audio 1 1) (loud_audio 1 2)) = Ret msg.
Proof. exact (conj (entries_no_overflow _ ref_fine) (conj (entries_no_overflow _ deg_fine) quiet_runs)). Qed.
