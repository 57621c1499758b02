(** Property C82: a recording compared with itself. *)
From Coq Require Import ZArith List Bool Reals.
From Verif Require Import Base.Res Base.Num Base.NumR Model.Fft Model.FilterBank Model.Mappers Model.Visqol Model.Manager
  Spec.ManagerSpec Spec.FftSpec Spec.TotalSpec Spec.IdentitySpec Proofs.FftP Proofs.DftP Proofs.TotalCasesP Proofs.IdentityRunP.
Import ListNotations.
Open Scope Z_scope.

(** C82: in exact arithmetic, whatever the recording (silence too), the object and its settings: the comparison returns, every patch and every
    band is found identical, and no lag is reported. Any transform will do if global alignment is off; with it on, the transform is the exact one. *)
Theorem C82_self_is_perfect (w : world R) (m : manager R) (s : audio R) :
  keeps_length (w_fft w) -> (mg_no_global m = true \/ w_fft w = ideal_fft) -> mg_init m = true -> reachable m ->
  long_enough (mg_settings m) s -> can_predict (st_mapper (mg_settings m)) ->
  exists msg, snd (run w m s s) = Ret msg /\ perfect_result (if st_speech (mg_settings m) then 21 else 32) msg.
Proof. exact (self_perfect w m s). Qed.
Print Assumptions C82_self_is_perfect.

(** with the speech fit the score is just below 5 when scaled, and about 4.015 when not *)
Theorem C82_self_speech_score (w : world R) (m : manager R) (s : audio R) scale msg :
  keeps_length (w_fft w) -> (mg_no_global m = true \/ w_fft w = ideal_fft) -> mg_init m = true -> reachable m ->
  st_mapper (mg_settings m) = MSpeech scale -> long_enough (mg_settings m) s ->
  snd (run w m s s) = Ret msg -> (if scale then 5 - 1 / 10 ^ 7 <= ms_moslqo msg < 5 else 4.01 <= ms_moslqo msg <= 4.02)%R.
Proof. exact (self_speech_score w m s scale msg). Qed.
Print Assumptions C82_self_speech_score.

(** with the speech fit or the regression model, every recording gets the same score when compared with itself *)
Theorem C82_self_score_is_constant (w : world R) (m : manager R) (s s' : audio R) msg msg' :
  keeps_length (w_fft w) -> (mg_no_global m = true \/ w_fft w = ideal_fft) -> mg_init m = true -> reachable m ->
  (forall n o, st_mapper (mg_settings m) <> MLattice n o) -> can_predict (st_mapper (mg_settings m)) ->
  long_enough (mg_settings m) s -> long_enough (mg_settings m) s' ->
  snd (run w m s s) = Ret msg -> snd (run w m s' s') = Ret msg' -> ms_moslqo msg = ms_moslqo msg'.
Proof. exact (self_same_score w m s s' msg msg'). Qed.
Print Assumptions C82_self_score_is_constant.

(** both modes, with a recording that is not silent *)
Example C82_example (speech : bool) : long_enough (mg_settings (total_manager speech)) (ramp 50) /\
  exists msg, snd (run total_world (total_manager speech) (ramp 50) (ramp 50)) = Ret msg /\ perfect_result (if speech then 21 else 32) msg.
Proof. exact (conj (long_ramp speech) (self_example speech)). Qed.
