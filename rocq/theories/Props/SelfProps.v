(** Property C106: a recording compared with itself in binary64. *)
From Coq Require Import ZArith List Bool Floats.
From Verif Require Import Base.Res Base.Num Base.NumF Base.Mat Model.Window Model.FilterBank Model.Fft Model.Nsim Model.MiscAudio Model.Alignment Model.Mappers Model.Visqol Model.Manager
  Spec.ManagerSpec Spec.TotalSpec Spec.LibmSpec Spec.PcmSpec Spec.SelfSpec Proofs.FftP Proofs.ToyRunP Proofs.RoundedLibmP Proofs.AccurateCasesP Proofs.SelfRunP Proofs.SelfCasesP.
Import ListNotations.
Open Scope Z_scope.

(** C106 for one patch: compared with itself, its similarity is within 0.0006 of 1. *)
Theorem C106_patch (A : mat float) : patch_table A ->
  exists r, measure_patch_similarity A A = Ret r /\ PrimFloat.leb 0.9994 (ps_sim r) = true /\ PrimFloat.leb (ps_sim r) 1.0006 = true.
Proof. exact (patch_self A). Qed.
Print Assumptions C106_patch.
(** C106 for a comparison: any result for a recording and itself has a similarity of at least 0.999, provided that the first alignment
    leaves the recording where it is and the search window reaches every frame.  The second alignment may be on or off. *)
Theorem C106_similarity {L : Libm float} (w : world float) (m : manager float) (s : audio float) msg :
  accurate L -> mpow10 0%float = 1%float -> keeps_length (w_fft w) -> mg_init m = true -> reachable m ->
  let sr := au_sr s in let st := mg_settings m in
  let frames := frames_in sr (length (au_data s)) in let patch := if st_speech st then 20 else 30 in
  4000 <= sr <= 262144 -> Z.of_nat (length (au_data s)) < 2 ^ 29 ->
  (if st_speech st then 29 else 45) <= frames -> (st_speech st = true -> window_samples sr mod 4 = 0) ->
  frames <= st_radius st * patch -> frames + st_radius st * patch <= 2 ^ 31 ->
  Forall pcm (au_data s) -> audible s ->
  (mg_no_global m = true \/ exists lag, globally_align (w_fft w) s s = Ret (s, lag)) ->
  snd (run w m s s) = Ret msg -> PrimFloat.leb 0.999 (ms_vnsim msg) = true.
Proof. exact (self_run w m s msg). Qed.
Print Assumptions C106_similarity.
(** C106 without the second alignment: there is a result. *)
Theorem C106_returned {L : Libm float} (w : world float) (m : manager float) (s : audio float) :
  accurate L -> mpow10 0%float = 1%float -> keeps_length (w_fft w) -> mg_init m = true -> reachable m ->
  let sr := au_sr s in let st := mg_settings m in
  let frames := frames_in sr (length (au_data s)) in let patch := if st_speech st then 20 else 30 in
  4000 <= sr <= 262144 -> Z.of_nat (length (au_data s)) < 2 ^ 29 ->
  (if st_speech st then 29 else 45) <= frames -> (st_speech st = true -> window_samples sr mod 4 = 0) ->
  frames <= st_radius st * patch -> frames + st_radius st * patch <= 2 ^ 31 -> can_predict (st_mapper st) ->
  Forall pcm (au_data s) -> audible s ->
  (mg_no_global m = true \/ exists lag, globally_align (w_fft w) s s = Ret (s, lag)) -> st_no_realign st = true ->
  exists msg, snd (run w m s s) = Ret msg /\ PrimFloat.leb 0.999 (ms_vnsim msg) = true.
Proof. exact (self_returns w m s). Qed.
Print Assumptions C106_returned.
Example C106_patch_example : patch_table ramp. Proof. exact ramp_patch. Qed.
(** a speech recording of 2700 samples at 4000 Hz with correctly rounded functions, search radius 4 *)
Example C106_example : mpow10 (Libm:=rounded_libm) 0%float = 1%float /\
  exists msg, snd (run (L:=rounded_libm) run_world still_manager (tone 0.5) (tone 0.5)) = Ret msg /\ PrimFloat.leb 0.999 (ms_vnsim msg) = true.
Proof. exact (conj rounded_pow still_runs). Qed.
