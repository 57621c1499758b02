(** Concrete recordings for C112. *)
From Coq Require Import ZArith List Bool Lia Reals Floats.
From Verif Require Import Base.Res Base.Num Base.NumF Base.Mat Model.Window Model.FilterBank Model.MiscAudio Model.Alignment Model.Visqol Model.Manager Model.Warnings
  Spec.ManagerSpec Spec.WarningSpec Proofs.ToyRunP Proofs.RoundedLibmP Proofs.AccurateCasesP Proofs.WarningP.
Import ListNotations.
Open Scope Z_scope.
Local Notation F := PrimFloat.float.

Lemma second_witness : exists (ref deg : audio F), au_sr ref = au_sr deg /\ ~ durations_differ ref deg /\
  forall m : manager F, mg_init m = true -> warned_duration (run_warnings m ref deg).
Proof.
  exists (quiet 32002), (quiet 16002). split; [reflexivity|]. split; [exact (proj2 (one_second (plain_manager false) eq_refl))|]. intros m I. exact (proj1 (one_second m I)).
Qed.
Lemma around_second : mg_init (plain_manager false) = true /\
  warned_duration (run_warnings (plain_manager false) (quiet 32003) (quiet 16002)) /\ ~ warned_duration (run_warnings (plain_manager false) (quiet 32001) (quiet 16002)).
Proof.
  assert (I : mg_init (plain_manager false) = true) by reflexivity. split; [exact I|].
  assert (W : forall n, 0 <= n <= 100000 -> n <> 32002 -> n <> 2 -> (warned_duration (run_warnings (plain_manager false) (quiet n) (quiet 16002)) <-> durations_differ (quiet n) (quiet 16002))).
  { intros n Hn N1 N2. apply float_durations; rewrite ?quiet_length by lia; cbn [au_sr quiet]; try lia; exact I. }
  split; [|intros H; revert H]; rewrite W by lia; unfold durations_differ; rewrite !quiet_length by lia; cbn [au_sr quiet]; lia.
Qed.
