(** Property C111: a recording with something in front is compared as the recording itself. *)
From Coq Require Import ZArith List Bool Reals Floats.
From Flocq Require Import Core.Core.
From Verif Require Import Base.Res Base.Num Base.NumF Base.Mat Model.Window Model.FilterBank Model.Fft Model.Nsim Model.MiscAudio Model.Alignment Model.Mappers Model.Visqol Model.Manager
  Spec.ManagerSpec Spec.TotalSpec Spec.LibmSpec Spec.PcmSpec Spec.SelfSpec Spec.FftSpec Spec.EnvelopeSpec Spec.FftAccSpec Spec.EnvAccSpec Spec.RatingSpec Spec.DelaySpec
  Proofs.B64P Proofs.FftP Proofs.XcorrLagP Proofs.EnvAlignP Proofs.ToyRunP Proofs.RoundedLibmP Proofs.AccurateCasesP Proofs.EnvCasesP Proofs.DelayP.
Import ListNotations.
Open Scope Z_scope.

(** C111 for the message: with at most half as many samples in front as the recording has, and the exact envelopes correlating best where the
    recording starts, the outcome is that of comparing the recording with itself without alignment, but for the lag, which is the exact delay. *)
Theorem C111_same {L : Libm PrimFloat.float} (e : R) (w : world PrimFloat.float) (m : manager PrimFloat.float) (s : audio PrimFloat.float) (front : list PrimFloat.float) :
  accurate_transforms e (w_fft w) -> (bpow radix2 (-23) <= e <= bpow radix2 (-10))%R -> mg_no_global m = false ->
  let x := au_data s in let y := (front ++ au_data s)%list in let k := Z.of_nat (length front) in
  (1 <= length front)%nat -> (2 * length front <= length x)%nat -> (9 <= length x)%nat -> Z.of_nat (length y) <= 2 ^ 26 -> Forall fin y ->
  (bpow radix2 (-16) <= size (exact x) <= bpow radix2 16)%R -> (bpow radix2 (-16) <= size (exact y) <= bpow radix2 16)%R ->
  (forall g, - Z.of_nat (length y) < g < Z.of_nat (length y) -> g <> - k ->
    (cross_correlation (rectified (exact x)) (rectified (exact y)) g + 1700 * e * (size (exact x) * size (exact y))
      < cross_correlation (rectified (exact x)) (rectified (exact y)) (- k))%R) ->
  snd (run w m s (late front s)) = (do r <- snd (run w (unaligned m) s s); Ret (with_lag r (ndiv (nofZ (- k)) (nofZ (au_sr s))))).
Proof. exact (late_same e w m s front). Qed.
Print Assumptions C111_same.
(** C111 for the scores: the similarity is at least 0.999 and speech is rated at least 4.99 (4.01 where the scale is not stretched to 5). *)
Theorem C111_scores {L : Libm PrimFloat.float} (e : R) (w : world PrimFloat.float) (m : manager PrimFloat.float) (s : audio PrimFloat.float) (front : list PrimFloat.float) (msg : sim_msg PrimFloat.float) :
  accurate L -> increasing_exp L -> mpow10 0%float = 1%float -> keeps_length (w_fft w) -> accurate_transforms e (w_fft w) -> (bpow radix2 (-23) <= e <= bpow radix2 (-10))%R ->
  mg_init m = true -> reachable m -> mg_no_global m = false ->
  let sr := au_sr s in let st := mg_settings m in let x := au_data s in let y := (front ++ au_data s)%list in let k := Z.of_nat (length front) in
  let frames := frames_in sr (length x) in let patch := if st_speech st then 20 else 30 in
  4000 <= sr <= 262144 -> (1 <= length front)%nat -> (2 * length front <= length x)%nat -> Z.of_nat (length y) <= 2 ^ 26 ->
  (if st_speech st then 29 else 45) <= frames -> (st_speech st = true -> window_samples sr mod 4 = 0) ->
  frames <= st_radius st * patch -> frames + st_radius st * patch <= 2 ^ 31 ->
  Forall pcm x -> Forall fin front -> (bpow radix2 (-16) <= size (exact x) <= bpow radix2 16)%R -> (bpow radix2 (-16) <= size (exact y) <= bpow radix2 16)%R ->
  (forall g, - Z.of_nat (length y) < g < Z.of_nat (length y) -> g <> - k ->
    (cross_correlation (rectified (exact x)) (rectified (exact y)) g + 1700 * e * (size (exact x) * size (exact y))
      < cross_correlation (rectified (exact x)) (rectified (exact y)) (- k))%R) ->
  snd (run w m s (late front s)) = Ret msg ->
  PrimFloat.leb 0.999 (ms_vnsim msg) = true /\ ms_lag msg = ndiv (nofZ (- k)) (nofZ sr) /\
  forall scaled, st_mapper st = MSpeech scaled -> PrimFloat.leb (if scaled then 4.99 else 4.01) (ms_moslqo msg) = true.
Proof. exact (late_compared e w m s front msg). Qed.
Print Assumptions C111_scores.
(** a click of speech at 4000 Hz and the same with 200 samples of silence in front: the reported lag is -0.05 s *)
Example C111_example : mg_no_global (plain_manager false) = false /\
  exists msg, snd (run (L:=rounded_libm) click_world (plain_manager false) click_at_100 (late silence_200 click_at_100)) = Ret msg /\
    PrimFloat.leb 0.999 (ms_vnsim msg) = true /\ ms_lag msg = (-0.05)%float /\ PrimFloat.leb 4.99 (ms_moslqo msg) = true.
Proof. exact late_example. Qed.
