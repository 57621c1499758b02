(** C81 in the form stated, and a concrete case. *)
From Coq Require Import ZArith List Bool Reals Lra.
From Verif Require Import Base.Res Base.Num Base.NumR Model.Fft Model.FilterBank Model.MiscAudio Model.Visqol Model.Manager
  Spec.LoudSpec Proofs.FftP Proofs.DftP Proofs.TotalCasesP Proofs.LoudP.
Import ListNotations.
Open Scope Z_scope.

Lemma loudness_removed (w : world R) (m : manager R) ref deg (c : R) :
  homogeneous (w_fft w) -> (0 < c)%R ->
  snd (run w m ref (louder c deg)) = snd (run w m ref deg) /\
  fst (fst (run w m ref (louder c deg))) = fst (fst (run w m ref deg)).
Proof. intros H Hc. destruct (run_sc c Hc (w_fft w) H w m ref deg eq_refl) as [A B]. split; [exact B|exact A]. Qed.

Lemma louder_example (speech : bool) : homogeneous (w_fft total_world) /\ louder 3 (ramp 50) <> ramp 50 /\
  exists msg, snd (run total_world (total_manager speech) (ramp (if speech then 32 else 48)) (louder 3 (ramp 50))) = Ret msg.
Proof.
  split; [exact ideal_homogeneous|]. split.
  - intros A. apply (f_equal (fun s => nth 1 (au_data s) 0%R)) in A. cbn in A. lra.
  - destruct (total_runs speech) as [msg E]. exists msg. rewrite <- E.
    apply (loudness_removed total_world (total_manager speech) (ramp (if speech then 32 else 48)) (ramp 50) 3 ideal_homogeneous). lra.
Qed.
