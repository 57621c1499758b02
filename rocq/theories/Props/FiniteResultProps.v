(** Property C117: the similarities and energies of a result are finite numbers in binary64. *)
From Coq Require Import String ZArith List Bool Floats.
From Verif Require Import Base.Res Base.Num Base.NumF Base.Mat Model.Window Model.FilterBank Model.Fft Model.MiscAudio Model.Mappers Model.Visqol Model.Manager
  Spec.FftSpec Spec.ManagerSpec Spec.TotalSpec Spec.UndefinedSpec Spec.StableSpec Spec.LibmSpec Spec.PcmSpec Spec.FiniteSpec Proofs.FftP Proofs.ToyRunP Proofs.RoundedLibmP Proofs.AccurateCasesP Proofs.FiniteResultP.
Import ListNotations.
Open Scope Z_scope.

(** C117 for integer recordings: whatever the degraded recording is, silence included, with either alignment. *)
Theorem C117_recordings {L : Libm float} (w : world float) (m : manager float) ref deg msg :
  accurate L -> keeps_length (w_fft w) -> mg_init m = true -> reachable m ->
  let sr := au_sr ref in let st := mg_settings m in
  au_sr deg = sr -> 4000 <= sr <= 262144 ->
  Z.of_nat (length (au_data ref)) < 2 ^ 29 -> Z.of_nat (length (au_data deg)) < 2 ^ 29 ->
  Z.of_nat (length (au_data ref)) + 2 * window_samples sr < 2 * Z.of_nat (length (au_data deg)) ->
  (if st_speech st then 29 else 45) <= frames_in sr (length (au_data ref)) ->
  (st_speech st = true -> window_samples sr mod 4 = 0) ->
  1 <= st_radius st -> frames_in sr (length (au_data ref)) + st_radius st * (if st_speech st then 20 else 30) <= 2 ^ 31 ->
  can_predict (st_mapper st) -> Forall pcm (au_data ref) -> Forall pcm (au_data deg) ->
  snd (run w m ref deg) = Ret msg -> finite_numbers msg.
Proof. exact (returned_finite w m ref deg msg). Qed.
Print Assumptions C117_recordings.
(** C117 for any samples and any sane logarithm, when no spectrogram overflows and patches are not aligned again. *)
Theorem C117_without_overflow {L : Libm float} (w : world float) (m : manager float) ref deg msg :
  sane_log mlog10 -> keeps_length (w_fft w) -> mg_init m = true -> reachable m ->
  let sr := au_sr ref in let st := mg_settings m in let win := MkWin (Z.to_nat (window_samples sr)) kOverlap in
  au_sr deg = sr -> 44 <= sr < 2 ^ 31 ->
  Z.of_nat (length (au_data ref)) < 2 ^ 29 -> Z.of_nat (length (au_data deg)) < 2 ^ 29 ->
  Z.of_nat (length (au_data ref)) + 2 * window_samples sr < 2 * Z.of_nat (length (au_data deg)) ->
  (if st_speech st then 29 else 45) <= frames_in sr (length (au_data ref)) ->
  (st_speech st = true -> window_samples sr mod 4 = 0 /\ window_samples sr < 2 ^ 24) ->
  1 <= st_radius st -> frames_in sr (length (au_data ref)) + st_radius st * (if st_speech st then 20 else 30) <= 2 ^ 31 ->
  can_predict (st_mapper st) -> st_no_realign st = true ->
  no_overflow (st_speech st) (mg_bank m) win ref ->
  (forall x, compared w m ref deg x -> no_overflow (st_speech st) (mg_bank m) win x) ->
  snd (run w m ref deg) = Ret msg -> finite_numbers msg.
Proof. exact (no_overflow_finite w m ref deg msg). Qed.
Print Assumptions C117_without_overflow.
(** a recording compared with itself at 4000 Hz returns finite numbers if it returns, and compared with silence, whose scaled
    samples are all undefined (C101), it returns finite numbers *)
Example C117_example : (forall msg, snd (run (L:=rounded_libm) run_world (plain_manager false) (tone 0.5) (tone 0.5)) = Ret msg -> finite_numbers msg) /\
  (exists msg, snd (run (L:=rounded_libm) run_world (plain_manager false) (tone 0.5) (tone 0)) = Ret msg /\ finite_numbers msg) /\
  ~ finite_numbers (MkMsg 1 nan [] [] [] [] [] [] "" "" 0)%float.
Proof. refine (conj (fun msg => tone_finite 0.5 msg half_pcm) (conj silent_tone_finite _)). intros [H _]. discriminate H. Qed.
