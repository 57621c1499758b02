(** Property C97: the times reported after the second alignment are the times of the audio that was compared. *)
From Coq Require Import ZArith List Reals Lra Lia Floats.
From Verif Require Import Base.Res Base.Num Base.NumR Base.NumF Base.Lists Base.Mat Model.Amatrix Model.Window Model.FilterBank Model.Spectrogram Model.Fft Model.Alignment Model.Nsim Model.Selector
  Spec.AlignSpec Spec.FineSpec Spec.PieceSpec Spec.PolaritySpec Spec.FftSpec Proofs.FftP Proofs.DftP Proofs.AlignP Proofs.AlignCasesP Proofs.FineP Proofs.LevelCasesP Proofs.PieceCasesP.
Import ListNotations.
Open Scope Z_scope.

(** C97 as stated: a patch matched at 1.25 s in a degraded signal of 20 samples at 8 Hz ends after the signal does. Two zeros
    are put in front of its audio, nothing is moved, and the compared audio is reported as 1.25 s to 2.625 s: samples 10 to 20. *)
Theorem C97_reported_times_refuted :
  finely_align (L:=toy_libm) measure_patch_similarity fft32 false (MkWin 4 0.25%float) snd_ref snd_deg (bank_init 2 1%float) [match8] = (fst second8, Ret [new8]) /\
  slice snd_ref 1%float 2.5%float = Ret ref8 /\ slice snd_deg 1.25%float 2.75%float = Ret deg8 /\
  ps_ref_start new8 = 1%float /\ ps_ref_end new8 = 2.375%float /\ ps_deg_start new8 = 1.25%float /\ ps_deg_end new8 = 2.625%float /\
  align_and_truncate fft32 ref8 deg8 = Ret (MkAudio (interval (au_data snd_ref) 8 19) 8, MkAudio ([0; 0] ++ interval (au_data snd_deg) 10 19)%float 8, 0%float) /\
  ([0; 0] ++ interval (au_data snd_deg) 10 19)%float <> interval (au_data snd_deg) 10 21.
Proof. exact match8_times. Qed.
Print Assumptions C97_reported_times_refuted.
(** For a pair whose frames end before the signals do, in exact arithmetic: the result is kept as it was, or its times are
    those of two pieces of equal length, each inside the frames of its patch and at least half of them, and its similarity,
    means, deviations and energies are those of comparing these two pieces. *)
Theorem C97_reported_times_partial {L : Libm R} measure pf speech w (ref deg : audio R) k rs k' l n r r' h p i j :
  keeps_length pf -> au_sr ref = au_sr deg -> 1 <= au_sr deg -> Z.of_nat (length (au_data ref)) < 2 ^ 30 -> Z.of_nat (length (au_data deg)) < 2 ^ 30 ->
  finely_align measure pf speech w ref deg k rs = (k', Ret l) -> nth_error rs n = Some r -> nth_error l n = Some r' ->
  let sr := au_sr deg in matched_at h sr p i j r -> 1 <= h -> 1 <= p -> 0 <= i -> 0 <= j ->
  (i + p) * h < Z.of_nat (length (au_data ref)) -> (j + p) * h < Z.of_nat (length (au_data deg)) ->
  r' = r \/
  exists a b c d, i * h <= a < b /\ b <= (i + p) * h /\ j * h <= c < d /\ d <= (j + p) * h /\ b - a = d - c /\ 2 * (b - a) >= p * h /\
    (ps_ref_start r' = IZR a / IZR sr /\ ps_ref_end r' = IZR b / IZR sr /\ ps_deg_start r' = IZR c / IZR sr /\ ps_deg_end r' = IZR d / IZR sr)%R /\
    compares measure speech w (MkAudio (interval (au_data ref) a b) sr) (MkAudio (interval (au_data deg) c d) sr) r'.
Proof. exact (realigned_times measure pf speech w ref deg k rs k' l n r r' h p i j). Qed.
Print Assumptions C97_reported_times_partial.
(** The hypotheses are met by two constant signals at 50 Hz, frames 2 to 21 matched to frames 4 to 23. *)
Example C97_example : exists k l r',
  finely_align measure_patch_similarity ideal_fft false win50 (constant 50 1) (constant 52 1) (bank_init 2 1%R) [match50] = (k, Ret l) /\ nth_error l 0 = Some r' /\
  matched_at 1 50 20 2 4 match50 /\ keeps_length ideal_fft /\ (2 + 20) * 1 < Z.of_nat (length (au_data (constant 50 1))) /\ (4 + 20) * 1 < Z.of_nat (length (au_data (constant 52 1))) /\
  (r' = match50 \/ exists a b c d, 2 <= a < b /\ b <= 22 /\ 4 <= c < d /\ d <= 24 /\ b - a = d - c /\ 2 * (b - a) >= 20 /\ (ps_deg_start r' = IZR c / 50 /\ ps_deg_end r' = IZR d / 50)%R).
Proof.
  destruct match50_returns as (k & l & r' & E & N). exists k, l, r'.
  assert (M : matched_at 1 50 20 2 4 match50) by (repeat split).
  repeat (split; [first [exact E|exact N|exact M|exact ideal_keeps_length|cbn; lia]|]).
  destruct (realigned_times measure_patch_similarity ideal_fft false win50 (constant 50 1) (constant 52 1) _ _ _ _ 0%nat match50 r' 1 20 2 4
    ideal_keeps_length eq_refl ltac:(cbn; lia) ltac:(cbn; lia) ltac:(cbn; lia) E eq_refl N M ltac:(lia) ltac:(lia) ltac:(lia) ltac:(lia) ltac:(cbn; lia) ltac:(cbn; lia))
    as [X|(a & b & c & d & H1 & H2 & H3 & H4 & H5 & H6 & (_ & _ & T1 & T2) & _)]; [left; exact X|right]. exists a, b, c, d. repeat split; first [exact T1|exact T2|lia].
Qed.
