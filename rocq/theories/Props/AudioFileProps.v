(** Properties C44-C49, C64, C65, C70: audio files, channels and levels. *)
From Coq Require Import ZArith List Bool Reals Lra Lia String Ascii Floats.
From Verif Require Import Base.Res Base.Num Base.NumR Base.NumF Base.Lists Base.Mat Model.Amatrix
  Model.MiscMath Model.FilterBank Model.MiscAudio Model.Wav Model.Manager Spec.AudioSpec Spec.StatSpec
  Spec.WavSpec Proofs.MiscAudioP Proofs.FloatAudioP Proofs.WavP Proofs.WavLoadP Proofs.WavCutP Proofs.FileCasesP.
Import ListNotations.
Open Scope nat_scope.

(** C44: channel k gets samples k, k + nch, ...; putting whole frames back gives the input. *)
Theorem C44_channels {T} {N : Num T} nch (l : list T) : 1 <= nch ->
  exists chans, extract_multi_channel nch l = Ret chans /\ List.length chans = nch /\
    (forall k, k < nch -> List.length (nth k chans []) = List.length l / nch) /\
    (forall k i, k < nch -> i < List.length l / nch ->
       nth i (nth k chans []) n0 = nth (i * nch + k) l n0) /\
    (List.length l mod nch = 0 -> interleave n0 (List.length l / nch) chans = l).
Proof. exact (extract_spec nch l). Qed.
Print Assumptions C44_channels.
Example C44_channels_example : extract_multi_channel 2 [1; 2; 3; 4; 5; 6]%R = Ret [[1; 3; 5]; [2; 4; 6]]%R.
Proof. reflexivity. Qed.

(** C44: a mono signal is passed through unchanged. *)
Theorem C44_mono {T} {N : Num T} (M : mat T) : ncols M <= 1 -> to_mono M = M.
Proof. exact (to_mono_mono M). Qed.
Print Assumptions C44_mono.
Example C44_mono_example : ncols (MkMat 3 1 [1; 2; 3]%R) <= 1.
Proof. cbn. lia. Qed.

(** C44: otherwise every sample is the mean over the channels. *)
Theorem C44_mean (M : mat R) : 2 <= ncols M ->
  wf (to_mono M) /\ nrows (to_mono M) = nrows M /\ ncols (to_mono M) = 1 /\
  forall r, r < nrows M -> at_ (to_mono M) r 0 = mean (map (fun c => at_ M r c) (seq 0 (ncols M))).
Proof. exact (to_mono_mean M). Qed.
Print Assumptions C44_mean.
Example C44_mean_example : 2 <= ncols (MkMat 2 2 [1; 2; 3; 5]%R) /\ mean [1; 3]%R = 2%R.
Proof. split; [cbn; lia|]. unfold mean, total. cbn. lra. Qed.

(** C44: every 16-bit code, in binary64: the sample lies in [-1, 1) and gives the code back. *)
Theorem C44_int16 (z : Z) : (-32768 <= z < 32768)%Z ->
  ntrunc (nmul (@abs_scale PrimFloat.float NumF z) (nofZ 32768)) = Some z /\
  nleb (nofZ (-1)) (@abs_scale PrimFloat.float NumF z) = true /\
  nltb (@abs_scale PrimFloat.float NumF z) n1 = true.
Proof. exact (int16_exact z). Qed.
Print Assumptions C44_int16.
Example C44_int16_example : (-32768 <= -32768 < 32768)%Z /\ @abs_scale PrimFloat.float NumF (-32768) = (-1)%float.
Proof. split; [lia|reflexivity]. Qed.

(** C44: a whole file: the decoded mono signal. *)
Theorem C44_file channels rate extra samples rest :
  (1 <= channels < 65536)%Z -> (0 <= rate < 2 ^ 31)%Z -> Forall other_chunk extra ->
  samples <> [] -> (2 * Z.of_nat (List.length samples) < 2 ^ 32)%Z ->
  Forall (fun z => -32768 <= z < 32768)%Z samples ->
  let ch := Z.to_nat channels in
  let frames := List.length samples / ch in
  exists M, @load_as_mono R NumR (wav_file channels rate extra samples rest) = Ret (MkLoaded M (Some rate)) /\
    wf M /\ nrows M = frames /\ ncols M = 1 /\
    forall i, i < frames ->
      at_ M i 0 = mean (map (fun k => IZR (nth (i * ch + k) samples 0%Z) / 32768)%R (seq 0 ch)).
Proof. exact (load_wav_file channels rate extra samples rest). Qed.
Print Assumptions C44_file.
Example C44_file_example : (1 <= 2 < 65536)%Z /\ (0 <= 48000 < 2 ^ 31)%Z /\
  Forall other_chunk [("LIST"%string, str "abcd")] /\ [1; -2; 3; 4]%Z <> [] /\
  (2 * Z.of_nat (List.length [1; -2; 3; 4]%Z) < 2 ^ 32)%Z /\
  Forall (fun z => -32768 <= z < 32768)%Z [1; -2; 3; 4]%Z.
Proof.
  repeat split; try discriminate; try lia; try (repeat constructor; cbn; try lia; try discriminate).
  exists 2. reflexivity.
Qed.

(** C45: the degraded signal is scaled by one positive factor to the reference's level. *)
Theorem C45_level (ref deg : audio R) :
  (0 < energy (au_data ref))%R -> (0 < energy (au_data deg))%R ->
  exists f, (0 < f)%R /\
    au_data (scale_to_match_spl ref deg) = map (fun x => x * f)%R (au_data deg) /\
    au_sr (scale_to_match_spl ref deg) = au_sr deg /\
    spl (au_data (scale_to_match_spl ref deg)) = spl (au_data ref) /\
    (energy (au_data (scale_to_match_spl ref deg)) / INR (List.length (au_data deg)) =
      energy (au_data ref) / INR (List.length (au_data ref)))%R /\
    (spl (au_data deg) = spl (au_data ref) -> au_data (scale_to_match_spl ref deg) = au_data deg).
Proof. exact (level_matched ref deg). Qed.
Print Assumptions C45_level.
Example C45_example : (0 < energy [1; 2])%R /\ (0 < energy [0; 3; 0])%R.
Proof. unfold energy; cbn; lra. Qed.

(** C46 fails in binary64: whatever the reference (with a finite level) and whatever the maths library, if
    log10(0) is -infinity and 10^infinity is infinity, a silent degraded signal becomes NaN. *)
Theorem C46_silent_degraded_refuted (L : Libm PrimFloat.float) (ref : audio PrimFloat.float) (n : Z) :
  mlog10 0%float = neg_infinity -> mpow10 infinity = infinity ->
  is_finite (@sound_pressure_level PrimFloat.float NumF L ref) = true ->
  exists x, au_data (@scale_to_match_spl PrimFloat.float NumF L ref (MkAudio [0; 0]%float n)) = [x; x] /\
    is_nan x = true.
Proof. exact (silent_nan L ref n). Qed.
Print Assumptions C46_silent_degraded_refuted.
(** such a library, with a reference of level 0 *)
Example C46_example : let L := Build_Libm PrimFloat.float (fun x => x) (fun x => x)
    (fun x => if PrimFloat.eqb x 0 then neg_infinity else 0%float) (fun x => x) (fun x => x) (fun x => x) 3%float in
  @mlog10 _ L 0%float = neg_infinity /\ @mpow10 _ L infinity = infinity /\
  is_finite (@sound_pressure_level PrimFloat.float NumF L (MkAudio [1; 1]%float 8000)) = true.
Proof. vm_compute. auto. Qed.

Open Scope Z_scope.
(** C47: decoding what was encoded. *)
Theorem C47_round_trip_partial channels rate extra samples rest :
  1 <= channels < 65536 -> 0 <= rate < 2 ^ 31 -> Forall other_chunk extra ->
  samples <> [] -> 2 * Z.of_nat (List.length samples) < 2 ^ 32 ->
  Forall (fun z => -32768 <= z < 32768) samples ->
  let file := wav_file channels rate extra samples rest in
  exists w b r', parse_header file = Some w /\
    wv_channels w = channels /\ wv_rate w = rate /\ wv_total w = Z.of_nat (List.length samples) /\
    read_samples file (reader_init w) (wv_total w) = (b, wv_total w, r') /\
    samples_of (List.length samples) b = samples.
Proof. exact (decode_wav_file channels rate extra samples rest). Qed.
Print Assumptions C47_round_trip_partial.
Example C47_round_trip_example : Forall other_chunk [("LIST"%string, str "abcd"); ("fact"%string, [])] /\
  samples_of 2 (flat_map (le 2) [-32768; 77]) = [-32768; 77].
Proof.
  split; [|reflexivity].
  repeat constructor; cbn; try discriminate; try lia; [exists 2%nat|exists 0%nat]; reflexivity.
Qed.

(** C47: what an accepted file looks like (the fields are unsigned little-endian numbers). *)
Theorem C47_accepted_partial (all : bytes) w : parse_header all = Some w ->
  field all 0 4 = str "RIFF" /\ field all 8 4 = str "WAVE" /\ field all 12 4 = str "fmt " /\
  (le_val (field all 20 2) = 1 \/ le_val (field all 20 2) = 65534) /\
  16 <= le_val (field all 34 2) <= 23 /\
  wv_channels w = le_val (field all 22 2) /\ 1 <= wv_channels w <= 65535 /\
  wv_rate w = int_of (le_val (field all 24 4)) /\
  1 <= wv_total w /\ (44 <= wv_offset w <= List.length all)%nat /\
  field all (wv_offset w - 8) 4 = str "data" /\
  le_val (field all (wv_offset w - 4) 4) = 2 * wv_total w.
Proof. exact (parse_header_ok all w). Qed.
Print Assumptions C47_accepted_partial.
Example C47_accepted_example : exists w, parse_header (wav_file 2 48000 [] [1; 2; 3; 4] []) = Some w.
Proof. eexists. vm_compute. reflexivity. Qed.

(** C47: the search for the data chunk always ends within the file's length. *)
Theorem C47_termination_partial (all : bytes) pos : fst (find_data (S (List.length all)) all pos) = true.
Proof. exact (find_data_total (S (List.length all)) all pos ltac:(lia)). Qed.
Print Assumptions C47_termination_partial.
Example C47_termination_example : fst (find_data 0 [] 0) = false.
Proof. reflexivity. Qed.

(** C47 fails in the sample width: a file that declares 20 bits per sample is accepted. *)
Theorem C47_sample_width_refuted : exists file w, parse_header file = Some w /\ le_val (field file 34 2) = 20.
Proof. exact (ex_intro _ file20 file20_accepted). Qed.
Print Assumptions C47_sample_width_refuted.

(** C48 fails: a chunk of one byte followed by its pad byte makes the file unreadable. *)
Theorem C48_odd_chunk_refuted :
  parse_header (wav_bytes 1 8000 (chunk "LIST" (str "x") ++ [Ascii.zero]) [1; 2; 3] []) = None.
Proof. exact odd_chunk_rejected. Qed.
Print Assumptions C48_odd_chunk_refuted.

(** C49 fails: one sample is declared, three are requested and three are delivered. *)
Theorem C49_over_read_refuted : exists file w b r', parse_header file = Some w /\ wv_total w = 1 /\
  read_samples file (reader_init w) 3 = (b, 3, r') /\ samples_of 3 b = [5; 6; 7].
Proof. exact (ex_intro _ file_tail over_read). Qed.
Print Assumptions C49_over_read_refuted.

(** C49: as long as the requests add up to no more than what remains, together they deliver a prefix of
    the data and never more than was asked for. *)
Theorem C49_sequential_reads_partial all r requests : Forall (fun z => 0 <= z) requests ->
  zsum requests <= rd_remaining r < 2 ^ 63 -> (rd_pos r <= List.length all)%nat ->
  exists k, fst (reads all r requests) = firstn k (skipn (rd_pos r) all) /\
    snd (reads all r requests) <= zsum requests /\ Z.of_nat k <= 2 * zsum requests /\
    (k <= List.length all - rd_pos r)%nat /\
    2 * snd (reads all r requests) <= Z.of_nat k.
Proof. exact (reads_prefix all requests r). Qed.
Print Assumptions C49_sequential_reads_partial.
Example C49_example : Forall (fun z => 0 <= z) [1; 2] /\
  zsum [1; 2] <= rd_remaining (MkReader 44 true 3) < 2 ^ 63.
Proof. split; [repeat constructor; lia|cbn; lia]. Qed.

(** C64: loading whatever bytes, for every number type. *)
Theorem C64_loading_is_safe {T} {N : Num T} (all : bytes) : exists l, @load_as_mono T N all = Ret l.
Proof. exact (load_safe all). Qed.
Print Assumptions C64_loading_is_safe.
Example C64_example : @load_as_mono R NumR (str "RIFF") = Ret not_loaded.
Proof. reflexivity. Qed.

(** C65 fails: a file whose header is rejected, as reference or as degraded file, leaves the sample rate
    unset, and Run goes on to use it. *)
Theorem C65_malformed_file_refuted {T} {N : Num T} {L : Libm T} (w : world T) (m : manager T) rp dp b :
  mg_init m = true -> parse_header b = None ->
  (w_file w rp = Some b \/ w_file w dp = Some b) -> snd (run_files w m rp dp) = Ub.
Proof. exact (run_files_malformed w m rp dp b). Qed.
Print Assumptions C65_malformed_file_refuted.
Example C65_malformed_example : parse_header (str "not a wav file") = None.
Proof. reflexivity. Qed.

(** C65: a missing file next to a readable one is reported, and the manager is unchanged. *)
Theorem C65_missing_file_partial {T} {N : Num T} {L : Libm T} (w : world T) (m : manager T) rp dp p q l sr :
  mg_init m = true -> (p, q) = (rp, dp) \/ (p, q) = (dp, rp) ->
  w_file w p = None -> load_file (w_file w q) = Ret l -> ld_sr l = Some sr -> sr <> 0 ->
  run_files w m rp dp = (m, Err InvalidArgument).
Proof. exact (run_files_missing w m rp dp p q l sr). Qed.
Print Assumptions C65_missing_file_partial.
Example C65_missing_example : exists l, @load_file R NumR (Some (wav_file 1 8000 [] [1; 2] [])) = Ret l /\
  ld_sr l = Some 8000.
Proof. eexists. split; reflexivity. Qed.

(** C70: an accepted file cut anywhere after its first sample is still accepted, with the same header, and is loaded as
    if the missing bytes were zero; what follows the data makes no difference. *)
Theorem C70_header_of_prefix (all : bytes) n w : parse_header all = Some w -> (wv_offset w <= n)%nat -> parse_header (firstn n all) = Some w.
Proof. exact (parse_header_cut all n w). Qed.
Print Assumptions C70_header_of_prefix.
Theorem C70_cut_is_silence {T} {N : Num T} (all : bytes) w n : parse_header all = Some w ->
  (wv_offset w + 2 <= n)%nat -> (wv_offset w + 2 <= List.length all)%nat ->
  load_as_mono (T:=T) (firstn n all) = load_as_mono (firstn n all ++ repeat Ascii.zero (List.length all - n)).
Proof. exact (load_cut all w n). Qed.
Print Assumptions C70_cut_is_silence.
Theorem C70_rest_ignored {T} {N : Num T} (all : bytes) w x : parse_header all = Some w ->
  (wv_offset w + 2 * Z.to_nat (wv_total w) <= List.length all)%nat -> load_as_mono (T:=T) (all ++ x) = load_as_mono all.
Proof. exact (load_rest_ignored all w x). Qed.
Print Assumptions C70_rest_ignored.
(** C70: without a whole sample nothing is loaded. *)
Theorem C70_no_sample {T} {N : Num T} (all : bytes) w : parse_header all = Some w -> (List.length all < wv_offset w + 2)%nat ->
  load_as_mono (T:=T) all = Ret not_loaded.
Proof. exact (load_no_sample all w). Qed.
Print Assumptions C70_no_sample.
(** three samples cut after the first, and after one byte of the second: the low byte counts. *)
Example C70_nontrivial : exists w, parse_header (wav_file 1 8000 [] [5; 600; 7] []) = Some w /\ wv_offset w = 44%nat /\
  samples_of 3 (field (firstn 46 (wav_file 1 8000 [] [5; 600; 7] []) ++ repeat Ascii.zero 4) 44 6) = [5; 0; 0] /\
  samples_of 3 (field (firstn 47 (wav_file 1 8000 [] [5; 600; 7] []) ++ repeat Ascii.zero 3) 44 6) = [5; 88; 0].
Proof. eexists. repeat split; reflexivity. Qed.
