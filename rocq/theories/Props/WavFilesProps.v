(** Property C105: wav files in binary64, from their bytes to a defined comparison. *)
From Coq Require Import String.
From Coq Require Import ZArith List Bool Permutation Floats Lia.
From Verif Require Import Base.Res Base.Num Base.NumF Base.Mat Model.Window Model.Wav Model.Fft Model.Mappers Model.Visqol Model.Manager
  Spec.PcmSpec Spec.WavSpec Spec.DownmixSpec Spec.ManagerSpec Spec.TotalSpec Spec.LibmSpec Proofs.FftP Proofs.RoundedLibmP Proofs.AccurateCasesP Proofs.WavFloatP Proofs.WavFilesP.
Import ListNotations.
Open Scope Z_scope.

(** C105 for the bytes: whatever file is loaded, its samples are zero or between 2^-31 and 1 in size. *)
Theorem C105_samples all l : load_as_mono (T:=float) all = Ret l -> Forall pcm (elems (ld_data l)).
Proof. exact (loaded_pcm all l). Qed.
Print Assumptions C105_samples.
(** C105 for the down-mix: each sample is the number closest to the mean of the channels; no rounding error accumulates. *)
Theorem C105_mean channels rate extra samples rest : holdable channels rate samples -> Forall other_chunk extra ->
  exists M, load_as_mono (T:=float) (wav_file channels rate extra samples rest) = Ret (MkLoaded M (Some rate)) /\ length (elems M) = (length samples / Z.to_nat channels)%nat /\
    (forall i x, nth_error (elems M) i = Some x -> closest (mean_level (at_once (Z.to_nat channels) samples i)) x) /\ Forall pcm (elems M).
Proof. exact (file_loads channels rate extra samples rest). Qed.
Print Assumptions C105_mean.
(** C105 for the channels: their order makes no difference, nor does anything in the file besides the samples. *)
Theorem C105_channel_order channels rate extra extra' samples samples' rest rest' : holdable channels rate samples -> holdable channels rate samples' -> Forall other_chunk extra -> Forall other_chunk extra' ->
  length samples = length samples' -> (forall i, (i < length samples / Z.to_nat channels)%nat -> Permutation (at_once (Z.to_nat channels) samples i) (at_once (Z.to_nat channels) samples' i)) ->
  exists M M', load_as_mono (T:=float) (wav_file channels rate extra samples rest) = Ret (MkLoaded M (Some rate)) /\
    load_as_mono (T:=float) (wav_file channels rate extra' samples' rest') = Ret (MkLoaded M' (Some rate)) /\ elems M = elems M'.
Proof. exact (order_irrelevant channels rate extra extra' samples samples' rest rest'). Qed.
Print Assumptions C105_channel_order.
(** C105 for two files: long enough, at one rate, silent or not, their comparison is defined. *)
Theorem C105_files {L : Libm float} (w : world float) (m : manager float) rp dp cr er sr rr cd ed sd rd rate :
  accurate L -> keeps_length (w_fft w) -> mg_init m = true -> reachable m -> let st := mg_settings m in
  holdable cr rate sr -> holdable cd rate sd -> Forall other_chunk er -> Forall other_chunk ed ->
  w_file w rp = Some (wav_file cr rate er sr rr) -> w_file w dp = Some (wav_file cd rate ed sd rd) ->
  let nr := Z.of_nat (length sr) / cr in let nd := Z.of_nat (length sd) / cd in
  4000 <= rate <= 262144 -> nr < 2 ^ 29 -> nd < 2 ^ 29 -> nr + 2 * window_samples rate < 2 * nd ->
  (if st_speech st then 29 else 45) <= frames_in rate (Z.to_nat nr) -> (st_speech st = true -> window_samples rate mod 4 = 0) ->
  1 <= st_radius st -> frames_in rate (Z.to_nat nr) + st_radius st * (if st_speech st then 20 else 30) <= 2 ^ 31 -> can_predict (st_mapper st) ->
  (exists msg, snd (run_files w m rp dp) = Ret msg) \/ (st_no_realign st = false /\ snd (run_files w m rp dp) = Throw).
Proof. exact (files_defined w m rp dp cr er sr rr cd ed sd rd rate). Qed.
Print Assumptions C105_files.
Example C105_holdable : holdable 2 4000 (repeat 16384 (Z.to_nat 5400)) /\ holdable 1 4000 (repeat 0 (Z.to_nat 2700)). Proof. split; apply held; lia. Qed.
Example C105_order_example : Permutation (at_once 2 [1; 2; 3; 4] 1) (at_once 2 [2; 1; 4; 3] 1) /\ at_once 2 [1; 2; 3; 4] 1 = [3; 4]. Proof. split; [apply perm_swap|reflexivity]. Qed.
Example C105_example : exists msg, snd (run_files (L:=rounded_libm) file_world (plain_manager false) "s"%string "q"%string) = Ret msg. Proof. exact files_run. Qed.
