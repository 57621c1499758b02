(** Property C85: every number in a result is in its range. *)
From Coq Require Import ZArith List Bool Reals.
From Verif Require Import Base.Res Base.Num Base.NumR Model.FilterBank Model.Fft Model.Mappers Model.Visqol Model.Manager
  Spec.ManagerSpec Spec.RangeSpec Proofs.RangeP Proofs.RangeCasesP Proofs.TotalCasesP.
Import ListNotations.

(** C85: in exact arithmetic, for every transform, every model and every implementation of the elementary functions. *)
Theorem C85_similarities_in_range {L : Libm R} w (m : manager R) ref deg m' deg' msg : reachable m ->
  (Z.of_nat (length (au_data ref)) + 1 < 2 ^ 31)%Z -> (Z.of_nat (length (au_data deg')) + 1 < 2 ^ 31)%Z ->
  run w m ref deg = (m', deg', Ret msg) -> in_range msg.
Proof. exact (run_ranged w m ref deg m' deg' msg). Qed.
Print Assumptions C85_similarities_in_range.

(** C85, the score: of the speech fit and of the regression model. *)
Theorem C85_score_in_range {L : Libm R} w (m : manager R) ref deg m' deg' msg :
  (forall n o, st_mapper (mg_settings m) <> MLattice n o) ->
  run w m ref deg = (m', deg', Ret msg) -> (1 <= ms_moslqo msg <= 5)%R.
Proof. exact (run_score w m ref deg m' deg' msg). Qed.
Print Assumptions C85_score_in_range.

(** two ramps of different length, compared with all alignment switched on, in both modes *)
Example C85_example (speech : bool) : exists m' deg' msg,
  run total_world (total_manager speech) (ramp (if speech then 32 else 48)) (ramp 50) = (m', deg', Ret msg) /\
  reachable (total_manager speech) /\ (forall n o, st_mapper (mg_settings (total_manager speech)) <> MLattice n o) /\
  (Z.of_nat (length (au_data deg')) + 1 < 2 ^ 31)%Z /\ in_range msg /\ (1 <= ms_moslqo msg <= 5)%R.
Proof. exact (range_example speech). Qed.
