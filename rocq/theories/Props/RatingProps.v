(** Property C110: the rating of speech in binary64. *)
From Coq Require Import ZArith List Bool Reals Floats.
From Verif Require Import Base.Res Base.Num Base.NumF Base.Mat Model.Window Model.Wav Model.FilterBank Model.Fft Model.MiscAudio Model.Alignment Model.Mappers Model.Visqol Model.Manager
  Spec.ManagerSpec Spec.TotalSpec Spec.LibmSpec Spec.PcmSpec Spec.SelfSpec Spec.RatingSpec Proofs.B64P Proofs.FftP Proofs.ToyRunP Proofs.RoundedLibmP Proofs.AccurateCasesP Proofs.SelfCasesP Proofs.RatingP Proofs.RatingRunP.
Import ListNotations.
Open Scope Z_scope.

(** C110 for any comparison of speech: below a similarity of 0.15 the rating is 1, otherwise it is within 10^-9 of the published formula. *)
Theorem C110_formula {L : Libm float} (w : world float) (m : manager float) (ref deg : audio float) m' deg' msg (scaled : bool) :
  accurate L -> run w m ref deg = (m', deg', Ret msg) -> st_mapper (mg_settings m) = MSpeech scaled ->
  fin (ms_vnsim msg) -> (Rabs (FR (ms_vnsim msg)) <= 2)%R ->
  (PrimFloat.ltb (ms_vnsim msg) 0.15 = true -> ms_moslqo msg = 1%float) /\
  (PrimFloat.ltb (ms_vnsim msg) 0.15 = false ->
     fin (ms_moslqo msg) /\ (Rabs (FR (ms_moslqo msg) - speech_rating scaled (FR (ms_vnsim msg))) <= 1 / 10 ^ 9)%R /\ (1 <= FR (ms_moslqo msg) <= 5)%R).
Proof. exact (rating_run w m ref deg m' deg' msg scaled). Qed.
Print Assumptions C110_formula.
(** C110 for a recording and itself: the rating is at least 4.99, or 4.01 where the scale is not stretched to 5. *)
Theorem C110_self {L : Libm float} (w : world float) (m : manager float) (s : audio float) msg (scaled : bool) :
  accurate L -> increasing_exp L -> mpow10 0%float = 1%float -> keeps_length (w_fft w) -> mg_init m = true -> reachable m ->
  let sr := au_sr s in let st := mg_settings m in
  let frames := frames_in sr (length (au_data s)) in let patch := if st_speech st then 20 else 30 in
  4000 <= sr <= 262144 -> Z.of_nat (length (au_data s)) < 2 ^ 29 ->
  (if st_speech st then 29 else 45) <= frames -> (st_speech st = true -> window_samples sr mod 4 = 0) ->
  frames <= st_radius st * patch -> frames + st_radius st * patch <= 2 ^ 31 -> st_mapper st = MSpeech scaled ->
  Forall pcm (au_data s) -> audible s ->
  (mg_no_global m = true \/ exists lag, globally_align (w_fft w) s s = Ret (s, lag)) ->
  snd (run w m s s) = Ret msg -> PrimFloat.leb (if scaled then 4.99 else 4.01) (ms_moslqo msg) = true.
Proof. exact (self_rated w m s msg scaled). Qed.
Print Assumptions C110_self.
(** C110 for files: two files with the same content, whatever they contain besides their samples *)
Theorem C110_files {L : Libm float} (w : world float) (m : manager float) rp dp content l rate msg (scaled : bool) :
  accurate L -> increasing_exp L -> mpow10 0%float = 1%float -> keeps_length (w_fft w) -> mg_init m = true -> reachable m ->
  w_file w rp = Some content -> w_file w dp = Some content -> load_as_mono content = Ret l -> ld_sr l = Some rate ->
  let s := MkAudio (elems (ld_data l)) rate in let st := mg_settings m in
  let frames := frames_in rate (length (au_data s)) in let patch := if st_speech st then 20 else 30 in
  4000 <= rate <= 262144 -> Z.of_nat (length (au_data s)) < 2 ^ 29 ->
  (if st_speech st then 29 else 45) <= frames -> (st_speech st = true -> window_samples rate mod 4 = 0) ->
  frames <= st_radius st * patch -> frames + st_radius st * patch <= 2 ^ 31 -> st_mapper st = MSpeech scaled -> audible s ->
  (mg_no_global m = true \/ exists lag, globally_align (w_fft w) s s = Ret (s, lag)) ->
  snd (run_files w m rp dp) = Ret msg ->
  PrimFloat.leb 0.999 (ms_vnsim msg) = true /\ PrimFloat.leb (if scaled then 4.99 else 4.01) (ms_moslqo msg) = true.
Proof. exact (file_rated w m rp dp content l rate msg scaled). Qed.
Print Assumptions C110_files.
Example C110_functions : accurate rounded_libm /\ increasing_exp rounded_libm. Proof. exact (conj rounded_accurate rounded_increasing). Qed.
(** a speech recording of 2700 samples at 4000 Hz *)
Example C110_example : st_mapper (mg_settings still_manager) = MSpeech true /\
  exists msg, snd (run (L:=rounded_libm) run_world still_manager (tone 0.5) (tone 0.5)) = Ret msg /\ PrimFloat.leb 4.99 (ms_moslqo msg) = true.
Proof. exact still_rated. Qed.
