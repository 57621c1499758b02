(** Properties C81 and C84: loudness and polarity. *)
From Coq Require Import ZArith List Bool Reals.
From Verif Require Import Base.Res Base.Num Base.NumR Model.Fft Model.FilterBank Model.MiscAudio Model.Visqol Model.Manager
  Spec.LoudSpec Proofs.FftP Proofs.DftP Proofs.TotalCasesP Spec.PolaritySpec Proofs.LoudP Proofs.LoudCasesP Proofs.PolarityP Proofs.PolarityCasesP.
Import ListNotations.
Open Scope Z_scope.

(** C81: in exact arithmetic, for every signal (silent and unusable ones too), object and setting: same answer, same state left behind. *)
Theorem C81_loudness_is_removed (w : world R) (m : manager R) ref deg (c : R) :
  homogeneous (w_fft w) -> (0 < c)%R ->
  snd (run w m ref (louder c deg)) = snd (run w m ref deg) /\
  fst (fst (run w m ref (louder c deg))) = fst (fst (run w m ref deg)).
Proof. exact (loudness_removed w m ref deg c). Qed.
Print Assumptions C81_loudness_is_removed.

(** a signal three times as loud is a different signal, and is compared *)
Example C81_example (speech : bool) : homogeneous (w_fft total_world) /\ louder 3 (ramp 50) <> ramp 50 /\
  exists msg, snd (run total_world (total_manager speech) (ramp (if speech then 32 else 48)) (louder 3 (ramp 50))) = Ret msg.
Proof. exact (louder_example speech). Qed.

(** C84: with both alignments off, inverting the degraded signal changes nothing; in audio mode, nor does inverting the reference *)
Theorem C84_polarity_partial (w : world R) (m : manager R) ref deg : mg_no_global m = true -> st_no_realign (mg_settings m) = true ->
  snd (run w m ref (inverted deg)) = snd (run w m ref deg) /\
  (st_speech (mg_settings m) = false -> snd (run w m (inverted ref) deg) = snd (run w m ref deg)).
Proof. exact (fun NG NR => conj (deg_polarity w m ref deg NG NR) (ref_polarity w m ref deg NG NR)). Qed.
Print Assumptions C84_polarity_partial.

(** with the global alignment on it is false: the envelope has the signal's mean added back, so that a constant recording
    and the same recording inverted are shifted differently *)
Theorem C84_alignment_refuted : exists msg msg',
  snd (run total_world (total_manager false) (constant 50 1) (constant 52 1)) = Ret msg /\
  snd (run total_world (total_manager false) (constant 50 1) (inverted (constant 52 1))) = Ret msg' /\
  ms_lag msg = (-2 / 50)%R /\ ms_lag msg' = 0%R.
Proof. exact polarity_matters. Qed.
Print Assumptions C84_alignment_refuted.

(** an object with both alignments off, and a recording that is not its own inverse *)
Example C84_example : mg_no_global plain_manager = true /\ st_no_realign (mg_settings plain_manager) = true /\ st_speech (mg_settings plain_manager) = false /\
  inverted (ramp 50) <> ramp 50 /\ exists msg, snd (run total_world plain_manager (ramp 50) (inverted (ramp 50))) = Ret msg.
Proof. exact plain_example. Qed.
