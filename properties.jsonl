{"id": "C01", "title": "Create accepts exactly the documented configurations", "statement": "VisqolApi::Create returns an InvalidArgument error when the config has no audio section, when the sample rate is 0, or when the sample rate is not 48000 while neither speech scoring nor allow_unsupported_sample_rates is set; in every other case its status is exactly the status of loading the quality model, with the documented defaults (radius 60 when unset or 0, default model path chosen by mode when the path is empty, lattice model when no options section is given).", "quantifier": "for every config message (any presence of audio/options, any int sample rate including negative, any flags, any radius, any path) and every outcome of loading the model", "why_tests_cant": "the input space is a product of presence bits, 32-bit integers, strings and an external load outcome; tests cover five points", "anchors": ["src/visqol_api.cc: VisqolApi::Create", "src/visqol_manager.cc: VisqolManager::Init, InitSimilarityToQualityMapper", "src/proto/visqol_config.proto"]}
{"id": "C02", "title": "Measuring before any successful initialisation is always Aborted", "statement": "For every history of Create/Measure (API) or Init/Run (manager) calls on one object in which no initialisation has succeeded, every Measure/Run returns an Aborted error and does not look at the audio; and once an initialisation has succeeded no later Measure/Run is rejected with Aborted by the library's own checks.", "quantifier": "for every finite history of calls with any arguments and any load outcomes", "why_tests_cant": "a statement about all call histories, not about one call", "anchors": ["src/visqol_manager.cc: Init, Run, ErrorIfNotInitialized", "src/include/visqol_manager.h: is_initialized_"]}
{"id": "C03", "title": "A failed re-initialisation does not leave a half-changed object in use", "statement": "After a Create/Init that returned an error, later Measure/Run calls either fail with Aborted or behave exactly as before the failed call.", "quantifier": "for every history of calls", "why_tests_cant": "needs a history success-then-failure followed by a comparison of behaviours with the counterfactual history", "anchors": ["src/visqol_manager.cc: Init", "src/visqol_api.cc: Create"]}
{"id": "C04", "title": "Differing sample rates are always rejected, equal ones never are", "statement": "Run on two signals with different sample rates returns InvalidArgument, whatever the signals, mode and settings; two signals with equal sample rates are never rejected for their sample rate or for their durations.", "quantifier": "for every pair of signals, sample rates and settings of an initialised manager", "why_tests_cant": "quantifies over all signals and rates", "anchors": ["src/visqol_manager.cc: ValidateInputAudio, Run"]}
{"id": "C05", "title": "A measurement does not depend on earlier measurements", "statement": "The outcome of Measure(ref, deg) on an object is a function of the latest configuration and of the two signals only: any sequence of previous measurements on the same object (successful or failing) leaves the outcome unchanged, although the object keeps mutable filter-bank state between calls.", "quantifier": "for every history of measurements and every pair of signals", "why_tests_cant": "the filter bank carries state across frames, signals and calls; tests only run one comparison per object or a few", "anchors": ["src/gammatone_spectrogram_builder.cc: Build", "src/gammatone_filterbank.cc: ApplyFilter, ResetFilterConditions, SetFilterCoefficients", "src/visqol_manager.cc: Run"]}
{"id": "C06", "title": "Measure leaves the caller's audio buffers unchanged; Run rewrites its degraded argument in a fixed way", "statement": "VisqolApi::Measure never changes the caller's buffers. VisqolManager::Run(ref, deg) leaves ref unchanged and, when the comparison gets as far as scoring, leaves deg equal to the globally aligned degraded signal scaled by one positive factor; when it is rejected at validation deg is untouched.", "quantifier": "for every pair of signals and every settings", "why_tests_cant": "aliasing/mutation contract over all inputs", "anchors": ["src/visqol_manager.cc: Run", "src/visqol_api.cc: Measure", "src/visqol.cc: CalculateSimilarity"]}
{"id": "C07", "title": "Audio that is too short is rejected with InvalidArgument in audio mode", "statement": "In audio mode, for every reference and degraded length, a reference or degraded signal no longer than one analysis window, or a reference whose spectrogram has fewer than 45 frames, gives InvalidArgument; no such input reaches undefined behaviour.", "quantifier": "for every sample rate with a non-zero hop and every pair of lengths", "why_tests_cant": "tests sample five lengths at 48 kHz", "anchors": ["src/gammatone_spectrogram_builder.cc: Build", "src/image_patch_creator.cc: CreateRefPatchIndices", "src/visqol.cc: CalculateSimilarity"]}
{"id": "C08", "title": "Speech mode rejects too-short references as audio mode does", "statement": "In speech mode a reference whose spectrogram is too short to hold a single patch is rejected with an error status, never by undefined behaviour or an exception.", "quantifier": "for every reference length and sample rate", "why_tests_cant": "the failing lengths are a thin band between 'rejected by the spectrogram builder' and 'one patch'", "anchors": ["src/vad_patch_creator.cc: CreateRefPatchIndices", "src/comparison_patches_selector.cc: FindMostOptimalDegPatches"]}
{"id": "C09", "title": "Audio-mode MOS is always within [1,5]", "statement": "In audio mode the reported MOS-LQO is a number between 1 and 5 inclusive, whatever the regression model predicts (including infinities and NaN).", "quantifier": "for every double the model can return and every per-band similarity", "why_tests_cant": "quantifies over all model files and all doubles", "anchors": ["src/svr_similarity_to_quality_mapper.cc: PredictQuality", "src/visqol.cc: AlterForSimilarityExtremes"]}
{"id": "C10", "title": "An undefined similarity is never reported as a perfect score", "statement": "If the prediction or similarity is not a number, the reported MOS-LQO is not the perfect score 5.0.", "quantifier": "for every model output / every speech similarity vector", "why_tests_cant": "NaN is outside every test vector", "anchors": ["src/svr_similarity_to_quality_mapper.cc: PredictQuality", "src/speech_similarity_to_quality_mapper.cc: PredictQuality", "src/tflite_quality_mapper.cc"]}
{"id": "C11", "title": "Speech (non-lattice) mapping is monotone, within [1,5], and perfect similarity scores 5 when scaled and 4.x when unscaled", "statement": "The speech mapping depends only on the mean of the per-band similarities, is non-decreasing in it, always yields a value in [1,5], yields 5 (to the mapping constants' precision) for mean similarity 1 with scaling, and a value in [4,4.1] without scaling.", "quantifier": "for every vector of per-band similarities (real arithmetic)", "why_tests_cant": "monotonicity and range are about all pairs of inputs", "anchors": ["src/speech_similarity_to_quality_mapper.cc: PredictQuality", "src/misc_math.cc: ExponentialFromFit"]}
{"id": "C12", "title": "Totally dissimilar signals score exactly 1, all others get the mapper's score", "statement": "If the reported vnsim is below 0.15 the reported MOS-LQO is exactly 1 in every mode; otherwise (including NaN) the MOS-LQO is exactly what the quality mapper returned.", "quantifier": "for every pair of doubles", "why_tests_cant": "all doubles including NaN and the boundary", "anchors": ["src/visqol.cc: AlterForSimilarityExtremes, CalculateSimilarity"]}
{"id": "C13", "title": "Reported aggregates are the stated means and have one entry per band", "statement": "In every successful result fvnsim, fvnsim10, fstdnsim, fvdegenergy and center_freq_bands have one entry per frequency band; fvnsim[b] is the mean over reported patches of that patch's freq_band_means[b]; vnsim is the mean of fvnsim; each patch has one freq_band_means entry per band.", "quantifier": "for every list of patch results produced by matching", "why_tests_cant": "relates all fields of every possible result", "anchors": ["src/visqol.cc: CalcPerPatchMeanFreqBandMeans, CalcPerPatchMeanFreqBandDegradedEnergy, CalculateSimilarity", "src/visqol_manager.cc: PopulateSimResultMsg"]}
{"id": "C14", "title": "fvnsim10 is the mean of the lowest decile and never exceeds fvnsim", "statement": "For every band, fvnsim10 is the mean of the max(1, floor(n/10)) smallest patch means (n patches), does not depend on the order of patches, and is at most fvnsim; with fewer than 20 patches it is the minimum.", "quantifier": "for every non-empty list of patches and every order of them", "why_tests_cant": "permutation invariance and inequality over all multisets", "anchors": ["src/visqol.cc: CalcPerPatchFreqBandQuantile"]}
{"id": "C15", "title": "fstdnsim is the standard deviation of the frames of all patches", "statement": "fstdnsim[b] is non-negative and equals the unbiased standard deviation of the per-frame similarities of all patches concatenated, when all patches span the same number of frames (the case without realignment).", "quantifier": "for every list of patches given by their per-frame similarities", "why_tests_cant": "an algebraic identity over all inputs; the code computes it from summary statistics", "anchors": ["src/visqol.cc: CalcPerPatchMeanFreqBandStdDevs"]}
{"id": "C16", "title": "fstdnsim stays correct when patches have different lengths", "statement": "The pooled standard deviation equals that of the concatenated frames also when realignment has shortened some patches.", "quantifier": "for every list of patches of any lengths", "why_tests_cant": "needs unequal patch lengths and exact arithmetic to see", "anchors": ["src/visqol.cc: CalcPerPatchMeanFreqBandStdDevs", "src/comparison_patches_selector.cc: FinelyAlignAndRecreatePatches"]}
{"id": "C17", "title": "Audio reference patches tile the spectrogram without overlap and inside it", "statement": "For every spectrogram with L frames and patch size p: with L < p + floor(p/2) an InvalidArgument error is returned; otherwise at least one patch is produced, patch k starts at frame floor(p/2)-1+k*p, patches do not overlap, every patch lies inside the spectrogram, and the number of patches is as stated by a closed formula.", "quantifier": "for every L and every patch size >= 2", "why_tests_cant": "all lengths; tests use two", "anchors": ["src/image_patch_creator.cc: CreateRefPatchIndices"]}
{"id": "C18", "title": "No complete trailing reference patch is left unscored in audio mode", "statement": "After the last audio patch fewer than p frames of the reference remain.", "quantifier": "for every spectrogram length", "why_tests_cant": "fails only at particular residues of the length", "anchors": ["src/image_patch_creator.cc: CreateRefPatchIndices"]}
{"id": "C19", "title": "Speech reference patches are exactly the grid patches with voice activity", "statement": "In speech mode the chosen patches are, in increasing order, exactly those grid positions floor(p/2)-1+k*p (inside the spectrogram) whose block of p voice-activity frames contains at least one active frame; the first grid patch is always chosen when there is one.", "quantifier": "for every spectrogram length and every voice-activity vector", "why_tests_cant": "quantifies over all activity patterns and lengths", "anchors": ["src/vad_patch_creator.cc: CreateRefPatchIndices, GetVoiceActivity", "src/rms_vad.cc"]}
{"id": "C20", "title": "Voice activity is declared absent exactly after three consecutive quiet chunks", "statement": "For every sequence of chunks, the activity result for chunk i is 'absent' iff i >= 2 and chunks i-2, i-1 and i all have RMS below 5000; there is one result per chunk (at least two).", "quantifier": "for every sequence of 16-bit chunks of any length", "why_tests_cant": "all sequences", "anchors": ["src/rms_vad.cc: RmsVad, ProcessChunk, GetVadResults, CheckPreviousChunksForSilence"]}
{"id": "C21", "title": "Voice activity analysis stays inside the reference signal", "statement": "In speech mode, the samples handed to voice-activity analysis always lie inside the reference signal.", "quantifier": "for every sample rate and every reference length accepted by the spectrogram builder", "why_tests_cant": "fails only at sample rates with fractional hop and long signals", "anchors": ["src/vad_patch_creator.cc: CreateRefPatchIndices, GetVoiceActivity", "src/gammatone_spectrogram_builder.cc: Build"]}
{"id": "C22", "title": "Reference patches are the exact spectrogram columns", "statement": "Each reference patch has all bands as rows and exactly p columns, column c being frame start+c of the reference spectrogram.", "quantifier": "for every spectrogram and every in-range index list", "why_tests_cant": "content equality over all matrices", "anchors": ["src/image_patch_creator.cc: CreatePatchesFromIndices"]}
{"id": "C23", "title": "Degraded patches have the reference patch's shape and are zero outside the degraded audio", "statement": "For every window start from 1-p (p the patch width, so that the window reaches the audio) up to the last degraded frame, the degraded patch built has the requested shape; its column c equals degraded frame start+c when that frame exists and silence (0) otherwise.", "quantifier": "for every degraded spectrogram, window start (including negative) and width", "why_tests_cant": "all offsets including both edges", "anchors": ["src/comparison_patches_selector.cc: BuildDegradedPatch"]}
{"id": "C24", "title": "Matched degraded patches keep time order", "statement": "For the patches that were matched (not marked as lost), the matched degraded start frames are strictly increasing in patch order, and every one lies inside the degraded spectrogram.", "quantifier": "for every similarity measure outcome (NaN-free), every index list, every radius >= 0", "why_tests_cant": "global property of the backtrace over all similarity tables", "anchors": ["src/comparison_patches_selector.cc: FindMostOptimalDegPatch, FindMostOptimalDegPatches"]}
{"id": "C25", "title": "Patch matching maximises the cumulative similarity", "statement": "The total similarity of the reported matching is the maximum over all time-ordered assignments of reference patches to degraded offsets within their search windows in which the first patch is matched and later patches may be skipped (a skipped patch contributing nothing).", "quantifier": "for every NaN-free similarity table, index list and radius whose windows cover the degraded spectrogram, in IEEE double arithmetic as well as in exact arithmetic", "why_tests_cant": "an optimality claim over exponentially many assignments", "anchors": ["src/comparison_patches_selector.cc: FindMostOptimalDegPatch, FindMostOptimalDegPatches", "src/include/comparison_patches_selector.h (doc comment)"]}
{"id": "C26", "title": "Matches stay inside the search window", "statement": "Every matched degraded patch starts within search_window_radius patch lengths of its reference patch, for positive similarities; in general (any similarities) as well.", "quantifier": "for every similarity table, index list and radius", "why_tests_cant": "needs a table where untouched table cells win", "anchors": ["src/comparison_patches_selector.cc: FindMostOptimalDegPatch, FindMostOptimalDegPatches"]}
{"id": "C27", "title": "Every search radius the configuration accepts is safe", "statement": "For every search_window_radius accepted by Create/Init and the command line, matching does not run into undefined behaviour.", "quantifier": "for every 32-bit radius", "why_tests_cant": "negative and huge radii are accepted and never tested", "anchors": ["src/comparison_patches_selector.cc: FindMostOptimalDegPatches", "src/visqol_api.cc: Create", "src/commandline_parser.cc"]}
{"id": "C28", "title": "Only trailing reference patches are dropped and at least one is always scored", "statement": "Given reference patches produced by the patch creators, the number of scored patches is exactly the number of leading patches up to the last one starting at most half a patch after the end of the degraded spectrogram; it is never zero and no out-of-range index is read.", "quantifier": "for every index list the creators can produce and every degraded length", "why_tests_cant": "loop with unsigned arithmetic and no lower guard", "anchors": ["src/comparison_patches_selector.cc: CalcMaxNumPatches"]}
{"id": "C29", "title": "Lost patches are reported as zero", "statement": "A reference patch with no match in the degraded signal is reported with similarity 0, all band means 0 and an empty degraded interval at 0; every other patch reports the similarity of the matched pair and an interval of exactly one patch duration on both sides, with the reference interval at its own position.", "quantifier": "for every outcome of matching (before realignment)", "why_tests_cant": "all tables", "anchors": ["src/comparison_patches_selector.cc: FindMostOptimalDegPatches"]}
{"id": "C30", "title": "Realignment never lowers a patch's similarity, never drops or reorders patches", "statement": "Fine realignment returns one result per input patch in the same order; lost patches are returned unchanged; every other result's similarity is at least the similarity before realignment, and if it is not the original result its intervals start at the original starts, one of them shifted by |lag|, and last as long as the truncated audio.", "quantifier": "for every list of patch results, signals and outcomes of alignment and spectrogram building", "why_tests_cant": "all results and all lags", "anchors": ["src/comparison_patches_selector.cc: FinelyAlignAndRecreatePatches"]}
{"id": "C31", "title": "Global alignment shifts by at most half the reference and does nothing else", "statement": "The aligned degraded signal is the degraded signal itself (reported lag 0), or the degraded signal without its first k samples (lag -k/sr), or with k zero samples in front (lag k/sr), with 1 <= k <= half the reference length; the sample rate is kept.", "quantifier": "for every pair of signals and every lag the correlator can return", "why_tests_cant": "all signals and lags", "anchors": ["src/alignment.cc: GloballyAlign"]}
{"id": "C32", "title": "The lag is the first maximiser of the cross-correlation", "statement": "The lag used for alignment is, over all lags from -(n-1) to n-1 (n the longer length), the smallest one maximising the linear cross-correlation of the two envelopes: the FFT length is large enough that no circular wrap-around contaminates it.", "quantifier": "for every pair of non-empty signals (exact arithmetic, ideal FFT)", "why_tests_cant": "equality of an FFT computation with a definition for all lengths", "anchors": ["src/xcorr.cc: FindLowestLagIndex, InverseFFTPointwiseProduct, FFTPointwiseProduct"]}
{"id": "C33", "title": "AlignAndTruncate returns two signals of equal length", "statement": "Whenever it returns, both signals have the same number of samples and one is a contiguous part of the reference, the other a contiguous part of the aligned degraded signal.", "quantifier": "for every pair of signals and every lag", "why_tests_cant": "all lags and lengths, and truncation of a double", "anchors": ["src/alignment.cc: AlignAndTruncate"]}
{"id": "C34", "title": "AlignAndTruncate never fails on valid signals", "statement": "For non-empty signals of any lengths AlignAndTruncate does not index outside its inputs.", "quantifier": "for every pair of signals", "why_tests_cant": "needs the reference shorter than the aligned degraded signal together with a negative lag", "anchors": ["src/alignment.cc: AlignAndTruncate"]}
{"id": "C35", "title": "Slicing returns the samples of the interval, in place", "statement": "The slice of a signal between two times consists of the samples in that interval, in order; parts of the interval outside the signal are silence at the corresponding side.", "quantifier": "for every signal, and every interval overlapping it", "why_tests_cant": "tests only use intervals inside the signal", "anchors": ["src/comparison_patches_selector.cc: Slice"]}
{"id": "C36", "title": "The analysis window is a Hann window", "statement": "For every window of at least two samples the weights lie in [0,1], are symmetric and vanish at both ends; applying the window never increases a sample's magnitude and keeps the frame length.", "quantifier": "for every frame and window size >= 2 (real arithmetic)", "why_tests_cant": "all sizes", "anchors": ["src/analysis_window.cc: AnalysisWindow, ApplyHannWindow"]}
{"id": "C37", "title": "The IIR filter satisfies its difference equation and can be run in pieces", "statement": "For every input, every numerator and denominator of equal length with leading denominator coefficient 1 (as the filter bank passes them) and every initial condition with fewer entries than coefficients, the output satisfies sum a_k y[n-k] = sum b_k x[n-k] + ic[n]; it is linear in signal and initial condition; filtering a concatenation equals filtering the pieces while passing the returned conditions.", "quantifier": "for every signal, coefficient vectors and split point", "why_tests_cant": "all signals, coefficients and splits", "anchors": ["src/signal_filter.cc: Filter"]}
{"id": "C38", "title": "Spectrogram geometry", "statement": "For every signal longer than one window, the spectrogram has one row per band and 1 + floor((n - w)/hop) columns, each frame lies inside the signal, a signal no longer than the window is rejected with InvalidArgument; every entry is the RMS of the band-filtered windowed frame and hence non-negative.", "quantifier": "for every signal length, window size and hop >= 1", "why_tests_cant": "all lengths", "anchors": ["src/gammatone_spectrogram_builder.cc: Build"]}
{"id": "C39", "title": "A positive sample rate always gives a usable analysis hop", "statement": "For every positive sample rate accepted by Create, building a spectrogram does not divide by zero.", "quantifier": "for every positive sample rate", "why_tests_cant": "only sub-50 Hz rates fail", "anchors": ["src/gammatone_spectrogram_builder.cc: Build", "src/analysis_window.cc"]}
{"id": "C40", "title": "Centre frequencies are strictly ascending and inside the band", "statement": "Reported centre frequencies are strictly increasing, start at the minimum frequency and stay below the upper edge.", "quantifier": "for every number of bands and every 0 <= low < high (real arithmetic)", "why_tests_cant": "all band counts and edges", "anchors": ["src/equivalent_rectangular_bandwidth.cc: CalcUniformCenterFreqs, MakeFilters", "src/gammatone_spectrogram_builder.cc: Build"]}
{"id": "C41", "title": "Compared spectrograms are normalised to a common non-negative floor", "statement": "After preparation neither spectrogram has a negative entry, the smallest entry over both is exactly 0, every entry of a shared frame is at least the larger of the two frames' maxima minus 45 dB, and within a shared frame louder entries never end up below quieter ones; shapes are unchanged.", "quantifier": "for every pair of spectrograms with equal band counts and any frame counts", "why_tests_cant": "all matrices, with NaN and infinities for the no-NaN part", "anchors": ["src/misc_audio.cc: PrepareSpectrogramsForComparison", "src/spectrogram.cc"]}
{"id": "C42", "title": "NSIM of a patch with itself is 1, it is symmetric and at most 1", "statement": "The similarity of any patch with itself is exactly 1 with every band mean 1 and every band deviation 0; swapping the patches does not change the similarity; for non-negative patches no entry of the similarity map exceeds 1.", "quantifier": "for every patch of every shape (real arithmetic)", "why_tests_cant": "Cauchy-Schwarz style bound over all matrices", "anchors": ["src/neurogram_similiarity_index_measure.cc: MeasurePatchSimilarity"]}
{"id": "C43", "title": "Smoothing is the 3x3 weighted average with replicated borders", "statement": "The smoothed patch has the patch's shape and entry (r,c) is the weighted sum of the nine neighbours with coordinates clamped to the patch; it is monotone, linear, and keeps constant patches constant.", "quantifier": "for every non-empty matrix", "why_tests_cant": "all shapes incl. one row or one column", "anchors": ["src/convolution_2d.cc: Valid2DConvWithBoundary, AddMatrixBoundary, CopyMatrixWithinPadding"]}
{"id": "C44", "title": "Down-mixing is the channel mean and mono audio is passed through", "statement": "A mono signal is unchanged; for c channels each output sample is the mean of the c samples at that instant; de-interleaving followed by interleaving is the identity and channel k gets samples k, k+c, ...; decoded 16-bit samples lie in [-1,1) and distinct codes stay distinct.", "quantifier": "for every number of channels and samples", "why_tests_cant": "all sizes", "anchors": ["src/misc_audio.cc: ToMono, ExtractMultiChannel, LoadAsMono", "src/misc_math.cc: NormalizeInt16ToDouble"]}
{"id": "C45", "title": "Level matching equalises sound pressure level", "statement": "Scaling the degraded signal gives it the sound pressure level of the reference, by one positive factor, whenever both signals have non-zero energy; a signal already at the right level is unchanged.", "quantifier": "for every pair of signals with non-zero energy (real arithmetic)", "why_tests_cant": "algebraic identity over all signals", "anchors": ["src/misc_audio.cc: ScaleToMatchSoundPressureLevel, CalcSoundPressureLevel"]}
{"id": "C46", "title": "A silent degraded signal is handled", "statement": "Level matching of an all-zero degraded signal yields finite samples.", "quantifier": "for every reference", "why_tests_cant": "0*inf in floating point", "anchors": ["src/misc_audio.cc: ScaleToMatchSoundPressureLevel, CalcSoundPressureLevel"]}
{"id": "C47", "title": "WAV decoding round-trips and rejects everything malformed without overrunning", "statement": "For every 16-bit PCM content, channel count and sample rate, decoding the canonical RIFF encoding yields exactly those samples, count, channels and rate, also when other even-length chunks precede the data chunk; for every byte string the parser terminates, and if it accepts, then it is RIFF/WAVE/fmt with 16-bit samples, at least one channel and sample, and the data offset lies inside the file.", "quantifier": "for every byte string / every PCM content", "why_tests_cant": "parsers need all byte strings", "anchors": ["src/wav_reader.cc: ParseHeader, ReadSamples", "src/misc_audio.cc: LoadAsMono"]}
{"id": "C48", "title": "WAV files with an odd-length chunk before the data are decoded", "statement": "A well-formed RIFF file whose non-data chunk has odd length (and therefore a pad byte) is decoded like any other.", "quantifier": "for every well-formed RIFF file", "why_tests_cant": "needs an odd-sized metadata chunk", "anchors": ["src/wav_reader.cc: ParseHeader"]}
{"id": "C49", "title": "Sequential reads never deliver samples beyond the data chunk", "statement": "For every sequence of ReadSamples requests, the delivered samples together are a prefix of the data chunk's samples and no more than the declared number is ever delivered.", "quantifier": "for every request sequence and every file", "why_tests_cant": "all request sequences", "anchors": ["src/wav_reader.cc: ReadSamples"]}
{"id": "C50", "title": "Forward and inverse transform wrappers are inverse to each other", "statement": "For an ideal FFT, the forward wrapper returns the full conjugate-symmetric spectrum of the zero-padded signal, and the inverse wrapper applied to it returns the zero-padded signal; the packed-buffer layout round-trips for every spectrum.", "quantifier": "for every signal and every power-of-two size >= 32", "why_tests_cant": "all sizes", "anchors": ["src/fast_fourier_transform.cc", "src/fft_manager.cc"]}
{"id": "C51", "title": "FFT sizes are the next power of two", "statement": "For 1 <= n <= 2^31 the padded size is the least power of two >= n (at least 32); the block multiply scales every sample exactly once for every length.", "quantifier": "for every 32-bit n and every buffer length", "why_tests_cant": "bit trick over all 32-bit integers", "anchors": ["src/misc_math.cc: NextPowTwo", "src/fft_manager.cc: FftManager, SimdScalarMultiply/ApplyReverseFftScaling"]}
{"id": "C52", "title": "Batch files are read back as written", "statement": "For every list of path pairs (paths without commas, CR or newlines, non-empty degraded path), parsing the batch file with header, in LF or CRLF form, with or without final newline, yields exactly those pairs in order.", "quantifier": "for every list of path pairs", "why_tests_cant": "round-trip over all strings", "anchors": ["src/commandline_parser.cc: ReadFilesToCompare"]}
{"id": "C53", "title": "Any batch file is handled without undefined behaviour", "statement": "Whatever the content of the batch file, reading it does not run into undefined behaviour.", "quantifier": "for every byte string", "why_tests_cant": "a blank or one-column line suffices", "anchors": ["src/commandline_parser.cc: ReadFilesToCompare"]}
{"id": "C54", "title": "Batch comparisons are isolated and ordered", "statement": "After a successful start-up every listed pair is compared in order; the results written are exactly those of the successful pairs in order; a failing pair changes neither the other pairs' results nor the exit status (0); a failed parse or initialisation writes nothing and exits non-zero.", "quantifier": "for every list of pairs and every pattern of failures", "why_tests_cant": "all patterns of failures", "anchors": ["src/main.cc", "src/visqol_manager.cc: Run"]}
{"id": "C55", "title": "The results CSV has exactly one header and one row per result across any number of runs", "statement": "Starting from no file, after any sequence of results appended by any number of runs in one mode, the file is the header line followed by one line per result in order; pre-existing content is never modified.", "quantifier": "for every sequence of writes and any pre-existing file content", "why_tests_cant": "history property over runs", "anchors": ["src/include/sim_results_writer.h: WriteResultsToCSV"]}
{"id": "C56", "title": "A crash while writing results never damages earlier rows", "statement": "If the process dies at any point while appending to the results file, the file is the previous content followed by a prefix of the new text, and a later run appends after it without a second header.", "quantifier": "for every crash point and history", "why_tests_cant": "crash points", "anchors": ["src/include/sim_results_writer.h: WriteResultsToCSV, WriteDebugJSON"]}
{"id": "C57", "title": "CSV rows can be read back", "statement": "Each result row splits at commas into exactly the columns of the header.", "quantifier": "for every result, including any file paths", "why_tests_cant": "paths are arbitrary strings", "anchors": ["src/include/sim_results_writer.h: WriteResultsToCSV"]}
{"id": "C58", "title": "The command line is validated before any work", "statement": "Parsing succeeds iff the batch file exists (when given) or both signal files exist, the explicitly named model exists in audio mode, and the default model exists when none is named; a batch file makes the single-pair flags irrelevant.", "quantifier": "for every combination of flags and every file-system state", "why_tests_cant": "product of flags and file existence", "anchors": ["src/commandline_parser.cc: Parse, BuildFilePairPaths"]}
{"id": "C59", "title": "Features reach the quality models in the right slots", "statement": "Band i of the similarity vector is passed to the regression model as feature i+1 of a -1-terminated list, and to the lattice model under a name unique to its kind and band; no two inputs share a slot and none is missing.", "quantifier": "for every number of bands", "why_tests_cant": "injectivity of naming over all band numbers", "anchors": ["src/libsvm_target_observation_convertor.cc", "src/tflite_quality_mapper.cc", "src/support_vector_regression_model.cc"]}
{"id": "C60", "title": "Matrix helpers obey the algebra the pipeline relies on", "statement": "Row ranges and vertical joins are inverse to each other, transposition is an involution, per-dimension means and unbiased standard deviations are the textbook ones, element order is column-major; all for every shape.", "quantifier": "for every matrix", "why_tests_cant": "all shapes", "anchors": ["src/amatrix.cc"]}
{"id": "C61", "title": "Matrix equality implies equal contents", "statement": "Two matrices reported equal have the same shape and the same elements.", "quantifier": "for every pair of matrices", "why_tests_cant": "needs differing column counts", "anchors": ["src/amatrix.cc: operator=="]}
{"id": "C62", "title": "The filter honours any coefficients it is given", "statement": "SignalFilter::Filter satisfies the difference equation also when the leading denominator coefficient is not 1 and when the numerator is longer than the denominator.", "quantifier": "for every numerator and denominator the function accepts", "why_tests_cant": "only visible for coefficients the shipped filter bank never passes, but the function is public", "anchors": ["src/signal_filter.cc: SignalFilter::Filter"]}
{"id": "C63", "title": "Patch similarity is the published formula", "statement": "The similarity of two patches of equal shape is the mean over bands of the band mean of (2 mx my + c1)/(mx^2 + my^2 + c1) * (cov + c3)/(sqrt(vx vy) + c3), with 3x3-smoothed means, variances and covariance, c1 = 0.0001 and c3 = 0.00045; the reported band deviations are the unbiased standard deviations over frames and the band energies the band means of the degraded patch.", "quantifier": "for every pair of non-empty patches of equal shape, over exact reals", "why_tests_cant": "the formula is computed by a chain of whole-matrix operations; tests compare a handful of numbers", "anchors": ["src/neurogram_similiarity_index_measure.cc: MeasurePatchSimilarity", "src/convolution_2d.cc"]}
{"id": "C64", "title": "Loading any file content is safe", "statement": "For every byte string used as an audio file, loading returns (a signal or an empty one); it never reads outside a buffer, throws or divides by zero.", "quantifier": "for every byte string", "why_tests_cant": "files are attacker-controlled; tests use well-formed recordings and two or three broken headers", "anchors": ["src/misc_audio.cc: LoadAsMono, ExtractMultiChannel", "src/wav_reader.cc: ParseHeader, ReadSamples"]}
{"id": "C65", "title": "An unusable input file is reported as an error", "statement": "Comparing two paths of which at least one is missing or is not a readable wav file returns an error status, without undefined behaviour.", "quantifier": "for every pair of file contents", "why_tests_cant": "the sample rate that is left unset on this path usually happens to be zero in a test run", "anchors": ["src/misc_audio.cc: LoadAsMono", "src/audio_signal.h", "src/visqol_manager.cc: Run, ValidateInputAudio"]}
{"id": "C66", "title": "Lost patches enter the summary as silence", "statement": "A reference patch for which no degraded segment was found enters fvnsim, fstdnsim and fvdegenergy as frames of zero similarity and zero degraded energy: its band means, standard deviations and energies are all zero.", "quantifier": "for every matching with lost patches", "why_tests_cant": "tests look at the similarity and the interval of a lost patch, not at the two other columns kept in the same record", "anchors": ["src/comparison_patches_selector.cc: FindMostOptimalDegPatches", "src/visqol.cc: CalcPerPatchMeanFreqBandStdDevs, CalcPerPatchMeanFreqBandDegradedEnergy"]}
{"id": "C67", "title": "Each patch is weighted by the frames it has", "statement": "The number of frames with which a patch enters fstdnsim, computed from its start and end times in binary64, is the number of frames of the patch.", "quantifier": "for every frame duration, patch position and patch size", "why_tests_cant": "the rounding depends on the position of the patch; a test of the first patches of one rate shows the right count", "anchors": ["src/visqol.cc: CalcPerPatchMeanFreqBandStdDevs, CalcFrameDuration", "src/comparison_patches_selector.cc: FindMostOptimalDegPatches"]}
{"id": "C68", "title": "The analysis window is 80 ms and the hop a quarter of it", "statement": "At every sample rate the analysis window has the whole number of samples nearest to 0.08 s (there is never a tie) and the hop is a quarter of it, rounded down; binary64 gives exactly the same numbers as real arithmetic.", "quantifier": "for every sample rate from 0 to 2^31-1", "why_tests_cant": "0.08 has no exact binary64 representation; tests use a handful of rates", "anchors": ["src/analysis_window.cc: AnalysisWindow", "src/gammatone_spectrogram_builder.cc: Build", "src/visqol.cc: CalcFrameDuration", "src/visqol_manager.cc: kOverlap"]}
{"id": "C69", "title": "The structure term never divides by zero", "statement": "In binary64 the denominator of the structure term is positive and at least C3, also when rounding makes the product of the two variances negative.", "quantifier": "for every value of the product of the variances other than NaN", "why_tests_cant": "exactly computed variances are never negative; the guard only matters for patches whose rounding error dominates", "anchors": ["src/neurogram_similiarity_index_measure.cc: MeasurePatchSimilarity"]}
{"id": "C70", "title": "A recording that ends early is completed with silence", "statement": "A wav file accepted by the reader and then cut at any byte after its first sample is still accepted with the same header and is loaded as if the missing bytes were zeros; bytes after the data make no difference; with less than one sample nothing is loaded.", "quantifier": "for every accepted file and every cut", "why_tests_cant": "all byte positions of all files, including cuts inside a sample", "anchors": ["src/misc_audio.cc: LoadAsMono", "src/wav_reader.cc: ParseHeader, ReadSamples"]}
{"id": "C71", "title": "Concurrent runs can share a results file", "statement": "Several runs appending to one results file at the same time leave it with one header, and lose no text.", "quantifier": "for every number of runs and every interleaving of their checks and writes", "why_tests_cant": "the window between the check for the file and its creation is microseconds", "anchors": ["src/include/sim_results_writer.h: WriteResultsToCSV"]}
{"id": "C72", "title": "Printing a result never reads past its fields", "statement": "For every result the program produces, printing it (verbose or not) reads every repeated field inside its bounds; without --verbose the console shows exactly the conformance version, the mode and the score.", "quantifier": "for every result and every combination of flags", "why_tests_cant": "the fields are filled in four different places; a mismatch shows only as a wild read", "anchors": ["src/include/sim_results_writer.h: WriteToConsole, FormatFVNSIM, FormatPatchSimilarity", "src/visqol_manager.cc: PopulateSimResultMsg"]}
{"id": "C73", "title": "The second alignment never makes a comparison fail", "statement": "Once the patches of a comparison have been matched, cutting out each matched pair, aligning it again and comparing it again always yields a result: no exception, no error status, no undefined behaviour.", "quantifier": "for every pair of signals, every matching and both modes", "why_tests_cant": "the failure depends on how the start and end times of two patches round at one sample rate; one frame pair in tens of thousands is affected", "anchors": ["src/comparison_patches_selector.cc: FinelyAlignAndRecreatePatches, Slice", "src/alignment.cc: AlignAndTruncate"]}
{"id": "C74", "title": "Signals that are long enough are always compared", "statement": "Computed in exact arithmetic, an initialised object whose model can answer returns a result for every pair of signals of equal rate (44 Hz or more, below 2^29 samples) whose reference holds at least 45 windows (29 in speech mode, where the window must be a multiple of four samples) and whose degraded signal is longer than half the reference plus one window: no stage throws, reports an error or has undefined behaviour.", "quantifier": "for every pair of such signals, both modes, every search radius, with and without each of the two alignments", "why_tests_cant": "the claim crosses every stage; tests run a few recordings of one or two lengths", "anchors": ["src/visqol_manager.cc: Run", "src/visqol.cc: CalculateSimilarity", "src/alignment.cc: GloballyAlign", "src/comparison_patches_selector.cc: FindMostOptimalDegPatches, FinelyAlignAndRecreatePatches", "src/vad_patch_creator.cc: CreateRefPatchIndices"]}
{"id": "C75", "title": "A regression model's memory is freed exactly once", "statement": "Whatever a program does with a regression model object between construction and destruction (loading, training, asking, in any order, including nothing), and for any sequence of initialisations of the manager, destroying it frees exactly the memory allocated on its behalf, once, and no step has undefined behaviour.", "quantifier": "for every sequence of uses and every earlier state of the heap", "why_tests_cant": "leaks and double frees change no result; tests initialise once", "anchors": ["src/support_vector_regression_model.cc: constructor, destructor, Init, Predict", "src/visqol_manager.cc: InitMapper"]}
{"id": "C76", "title": "Training data of any shape is handled", "statement": "Training a regression model either presents every observation to libsvm exactly as a question about it would be presented, or reports that the data is malformed; it never reads outside the data.", "quantifier": "for every list of observations and targets", "why_tests_cant": "tests train on one well-formed file pair", "anchors": ["src/support_vector_regression_model.cc: Init", "src/libsvm_target_observation_convertor.cc: ConvertObservations"]}
{"id": "C77", "title": "Training files are read back as written", "statement": "A matrix written with one row per line, values separated by a character that no value's text contains, is read back unchanged.", "quantifier": "for every matrix, separator and printing of values that the number parser reads back", "why_tests_cant": "all matrices, including those with empty rows or one column", "anchors": ["src/svr_training/training_data_file_reader.cc: Read"]}
{"id": "C78", "title": "Malformed training files are noticed", "statement": "The reader yields one row per line with one value per item; a file in which some item is not a number, or some row is empty, does not silently produce a shifted row or undefined behaviour.", "quantifier": "for every text", "why_tests_cant": "the test files are well-formed", "anchors": ["src/svr_training/training_data_file_reader.cc: Read", "src/include/misc_vector.h: ConvertVecOfVecToVec"]}
{"id": "C79", "title": "The lattice mapper is initialised and destroyed in a safe order", "statement": "Init of the lattice mapper reports OK exactly when the model, the interpreter, its tensors and (except for a tolerated delegate error) the delegate are in place; destroying the mapper destroys what is used after what uses it: the interpreter before the model and before the delegate.", "quantifier": "for every combination of answers of the library", "why_tests_cant": "the library never fails in tests, and use after destruction is usually silent", "anchors": ["src/tflite_quality_mapper.cc: Init", "src/include/tflite_quality_mapper.h: TFLiteQualityMapper"]}
{"id": "C80", "title": "The header's duration is the signal's duration", "statement": "For every accepted wav file with at least one sample, the duration the reader computes from the header equals the duration of the signal loaded from it.", "quantifier": "for every accepted file", "why_tests_cant": "the two use different integer types for the rate; they part only for rates no test uses", "anchors": ["src/wav_reader.cc: GetDuration", "src/include/audio_signal.h: GetDuration"]}
{"id": "C81", "title": "The loudness of the degraded signal has no influence", "statement": "Computed in exact arithmetic, multiplying the degraded signal by any positive factor changes neither the answer (result, error or exception) nor the state the object is left in, whether or not the signals are aligned first.", "quantifier": "for every pair of signals, every positive factor, every state of the object and every transform that commutes with scaling", "why_tests_cant": "all factors and signals; floating-point tests can only compare approximately", "anchors": ["src/misc_audio.cc: ScaleToMatchSoundPressureLevel", "src/alignment.cc: GloballyAlign", "src/visqol.cc: CalculateSimilarity", "src/visqol_manager.cc: Run"]}
{"id": "C82", "title": "A recording compared with itself is perfect", "statement": "Computed in exact arithmetic, comparing any long enough recording (silence included) with itself returns a result in which every patch has similarity 1, every band has mean 1 and standard deviation 0, and the lag is 0. The speech fit then gives a score just below 5 (4.01 to 4.02 unscaled), and with the speech fit or the regression model the score is the same for all recordings.", "quantifier": "for every recording, sample rate, mode, search radius and state of an initialised object", "why_tests_cant": "tests compare a few recordings with themselves to stored scores", "anchors": ["src/visqol_manager.cc: Run", "src/visqol.cc: CalculateSimilarity", "src/alignment.cc: GloballyAlign", "src/comparison_patches_selector.cc: FindMostOptimalDegPatches", "src/neurogram_similiarity_index_measure.cc: MeasurePatchSimilarity"]}
{"id": "C83", "title": "Models can be loaded from several threads", "statement": "When any number of threads load regression models, on the same or different objects, at most one is inside the library's loader at any time; each call reports OK exactly if its own file, loaded with nothing else running, gives a model; there is no deadlock, and all calls return if every file can be read to its end.", "quantifier": "for every number of threads, every assignment of objects and files, and every interleaving of their steps", "why_tests_cant": "interleavings cannot be enumerated by tests; a race shows up rarely", "anchors": ["src/support_vector_regression_model.cc: Init", "src/include/support_vector_regression_model.h: load_model_mutex_"]}
{"id": "C84", "title": "Polarity has no influence", "statement": "Computed in exact arithmetic, inverting the polarity of the degraded signal, or of the reference, does not change the result.", "quantifier": "for every pair of signals and every state of the object", "why_tests_cant": "no test inverts a signal; an envelope with a mean added shifts only signals with a DC offset", "anchors": ["src/envelope.cc: CalcUpperEnv", "src/gammatone_spectrogram_builder.cc: Build", "src/visqol_manager.cc: Run"]}
{"id": "C85", "title": "Every number in a result is in its range", "statement": "Computed in exact arithmetic, in every result the similarity of every patch and of every band of every patch, the band means, the lowest-decile means and vnsim are between -1 and 1; standard deviations and energies are never negative; the lowest-decile mean of a band never exceeds its mean; and the score of the speech fit or the regression model is between 1 and 5.", "quantifier": "for every successful comparison of an object in any state, every transform, model and implementation of the elementary functions", "why_tests_cant": "ranges must hold for all signals, lost patches and realigned patches included", "anchors": ["src/visqol.cc: CalculateSimilarity", "src/neurogram_similiarity_index_measure.cc: MeasurePatchSimilarity", "src/comparison_patches_selector.cc: FinelyAlignAndRecreatePatches", "src/misc_audio.cc: PrepareSpectrogramsForComparison"]}
{"id": "C86", "title": "The FFT buffers are used safely and carry nothing over", "statement": "A manager made for any number of samples up to 2^30 and used for any sequence of forward and inverse transforms, each given enough input, never reads a float that has not been written, never goes outside a buffer, never uses a buffer after freeing it, and frees every buffer exactly once; every result is what the same call gives on fresh buffers. In particular this holds for the cross-correlation and for the envelope.", "quantifier": "for every number of samples, sequence of calls and contents (memory not exhausted)", "why_tests_cant": "tests compare results of single calls; reads of stale or uninitialised floats, and leaks, do not change them", "anchors": ["src/fft_manager.cc: FftManager, ~FftManager, FreqFromTimeDomain, TimeFromFreqDomain, ApplyReverseFftScaling, SimdScalarMultiply", "src/include/audio_channel.h: AudioChannel", "src/fast_fourier_transform.cc: Forward1d, Inverse1d", "src/xcorr.cc: InverseFFTPointwiseProduct", "src/envelope.cc: Hilbert"]}
{"id": "C87", "title": "The upper envelope is the magnitude of the analytic signal", "statement": "Computed with an ideal FFT, the upper envelope of a signal is its mean plus the magnitude of the analytic signal of its deviation from the mean; it lies nowhere below the signal.", "quantifier": "for every non-empty signal (exact arithmetic, ideal FFT)", "why_tests_cant": "the tests compare with numbers recorded from the program; an inverse transform that keeps only the real part gives numbers of the same size", "anchors": ["src/envelope.cc: CalcUpperEnv, Hilbert", "src/fast_fourier_transform.cc: Inverse1d"]}
{"id": "C88", "title": "The gammatone filters are stable and pass a tone at their centre frequency unchanged in level", "statement": "For every sample rate, number of bands and frequency range, every filter made by MakeFilters is stable (the output of ApplyFilter for a band is bounded by a constant of the filter times the largest input sample, for signals of every length), and a sinusoid at the band's centre frequency comes out, once the filter has settled, as a sinusoid of the same frequency and the same amplitude.", "quantifier": "for all positive sample rates, band counts, frequency ranges, bands, signals of every length, tones of every phase and amplitude (real arithmetic)", "why_tests_cant": "Stability and steady-state gain are statements about infinitely long signals; a test can only run finitely many samples of finitely many bands.", "anchors": ["src/equivalent_rectangular_bandwidth.cc: MakeFilters", "src/gammatone_filterbank.cc: ApplyFilter", "src/signal_filter.cc: Filter"]}
{"id": "C89", "title": "The arrays of the filter bank stay in step", "statement": "Building a spectrogram never goes outside any of the arrays and matrices of the filter bank, whatever they hold from earlier signals; row b of the result is made with the coefficients designed for the centre frequency reported for row b and with conditions of its own, starting from zero in every frame; the old contents of the bank influence nothing.", "quantifier": "for every positive sample rate, number of bands, positive minimum frequency, signal, window and contents of the bank (real arithmetic; any choice of angle by std::arg)", "why_tests_cant": "An index or a column off by one in ten parallel arrays shifts bands slightly or reads stale values; stored test scores are compared with tolerances.", "anchors": ["src/equivalent_rectangular_bandwidth.cc: MakeFilters", "src/gammatone_filterbank.cc: ApplyFilter, SetFilterCoefficients, ResetFilterConditions", "src/gammatone_spectrogram_builder.cc: Build", "src/include/complex_valarray.h", "src/complex_valarray.cc"]}
{"id": "C90", "title": "The level at which both recordings were made has no influence", "statement": "Multiplying every sample of both recordings by the same positive factor does not change the result of a comparison.", "quantifier": "for every pair of recordings and every factor (exact arithmetic)", "why_tests_cant": "the tests compare recordings at the levels they were made at; what the absolute floor of the spectrograms hides depends on the level of every band of every frame", "anchors": ["src/misc_audio.cc: PrepareSpectrogramsForComparison, ScaleToMatchSoundPressureLevel", "src/visqol.cc: CalculateSimilarity", "src/gammatone_spectrogram_builder.cc: Build"]}
{"id": "C91", "title": "A patch scores 1 only if it is identical to what it was matched with", "statement": "The similarity of two patches of the same shape is 1 exactly when they are equal, cell for cell. In a comparison, a patch reported with similarity 1 equals the frames of the degraded spectrogram at the offset it was matched with.", "quantifier": "for all patches of the same non-empty shape; for every successful comparison of an object in any state without second alignment, every transform and model (exact arithmetic)", "why_tests_cant": "a test shows that equal patches score 1; that no others do needs that blurring with the 3x3 window and the border policy loses nothing, for every shape", "anchors": ["src/neurogram_similiarity_index_measure.cc: MeasurePatchSimilarity", "src/convolution_2d.cc: Valid2DConvWithBoundary", "src/comparison_patches_selector.cc: FindMostOptimalDegPatches"]}
{"id": "C92", "title": "A wider search never lowers the score", "statement": "Raising the search window radius never lowers the total similarity of the matched patches, and so neither vnsim nor the score in speech mode; once the radius reaches over both recordings its value has no influence on the result.", "quantifier": "for every pair of recordings, every pair of radii, every state of the object", "why_tests_cant": "the tests use the default radius of 60; the dynamic programming reads cells that the search of another patch never wrote, which depends on all similarities at once", "anchors": ["src/comparison_patches_selector.cc: FindMostOptimalDegPatch, FindMostOptimalDegPatches", "src/visqol.cc: CalculateSimilarity", "src/speech_similarity_to_quality_mapper.cc: PredictQuality"]}
{"id": "C93", "title": "Rounding does not noticeably change the similarity of two patches", "statement": "For patches with values within 100 of zero, the similarity computed in binary64 is within 0.01 of the value of the formula computed exactly.", "quantifier": "for all patches of the same shape with up to 10^6 bands and frames", "why_tests_cant": "the tests compare with recorded numbers, which contain the same rounding errors; the cancellation in the variances depends on the values of the whole neighbourhood", "anchors": ["src/neurogram_similiarity_index_measure.cc: MeasurePatchSimilarity", "src/convolution_2d.cc: Valid2DConvWithBoundary", "src/include/amatrix.h: Mean"]}
{"id": "C94", "title": "The computed similarity of two patches is at most 1", "statement": "For patches with values within 100 of zero, the similarity computed in binary64 does not exceed 1 (by more than rounding errors of a few millionths).", "quantifier": "for all patches of the same shape with up to 10^6 bands and frames", "why_tests_cant": "it takes a nearly constant patch whose variance comes out negative, against a varying one; recorded examples do not contain one", "anchors": ["src/neurogram_similiarity_index_measure.cc: MeasurePatchSimilarity", "src/convolution_2d.cc: Valid2DConvWithBoundary"]}
{"id": "C95", "title": "A delayed copy of a recording is aligned exactly", "statement": "If the degraded signal is the sound of the reference, scaled by a factor other than 0 and placed at another position between silence, the alignment moves it to the position of the sound in the reference and reports the displacement as the lag; a recording and its copy started late come out of alignment and truncation as the same samples.", "quantifier": "for every sound that is not silent, every factor and every displacement up to half the length of the reference (exact arithmetic, ideal Fourier transform)", "why_tests_cant": "the alignment correlates upper envelopes, not signals; whether the true displacement is the best lag depends on every sample and on the constant part of the sound", "anchors": ["src/alignment.cc: GloballyAlign, AlignAndTruncate", "src/envelope.cc: CalcUpperEnv", "src/xcorr.cc: FindLowestLagIndex"]}
{"id": "C96", "title": "The audio taken for the second alignment is the audio of the matched frames", "statement": "For every matched pair the second alignment works on the samples of the patch's frames: the reference from the first sample of its first frame to the first sample after its last hop, the degraded signal likewise at the matched offset.", "quantifier": "for every matched pair that ends before the recording does, every sample rate, hop, patch length and frame number", "why_tests_cant": "the sample positions are computed from frame numbers through times in seconds, in binary64; whether truncation hits the intended sample depends on the rate and on the frame number, and off-by-one starts do not change a score visibly", "anchors": ["src/comparison_patches_selector.cc: FindMostOptimalDegPatches, FinelyAlignAndRecreatePatches, Slice", "src/visqol.cc: CalcFrameDuration"]}
{"id": "C97", "title": "The times reported after the second alignment are the times of the audio compared", "statement": "After the second alignment a result is either unchanged, or its start and end times delimit two equally long pieces of the recordings, inside the frames of the matched patches and at least half as long, and its similarity, means, deviations and energies are those of comparing exactly these two pieces.", "quantifier": "for every list of matched pairs, every comparison function, every length-preserving Fourier transform", "why_tests_cant": "the times are computed from the lag and a duration while the audio is moved by zeros and cut separately; a mismatch changes no score, only which audio a user believes was scored", "anchors": ["src/comparison_patches_selector.cc: FinelyAlignAndRecreatePatches, Slice", "src/alignment.cc: AlignAndTruncate"]}
{"id": "C98", "title": "Only finite levels are compared, and what is undefined counts as silence", "statement": "Whatever numbers the two spectrograms contain, after the preparation (decibels, noise floor, subtraction of the minimum) every entry is a finite number between 0 and 4045 and the least is 0; an entry that is not a number has the same effect as an entry of 0, the level of silence.", "quantifier": "for every pair of spectrograms in binary64, including zeros, infinities and NaN, and every log10 with sane values", "why_tests_cant": "NaN entries arise only from division of silence by silence or overflow; every comparison with NaN is false, so the outcome depends on the way each comparison is written", "anchors": ["src/misc_audio.cc: PrepareSpectrogramsForComparison", "src/spectrogram.cc: ConvertSampleToDb, GetMinimumValue, SubtractFloor, RaiseFloor"]}
{"id": "C99", "title": "Finite samples give a defined comparison in binary64", "statement": "Comparing two recordings with finite samples in binary64 arithmetic reads no uninitialised offset and accesses nothing outside its arrays: a result is returned, or (second alignment on) an exception is thrown.", "quantifier": "for every pair of recordings of fewer than 2^29 samples at a common rate from 44 Hz, every settings reachable through the interface, every mapper that can predict, every length-preserving Fourier transform", "why_tests_cant": "the matching table is filled by strict comparisons; whether any of them succeeds depends on no similarity being NaN, hence on every intermediate result of filters, squares, convolutions and quotients staying finite", "anchors": ["src/comparison_patches_selector.cc: FindMostOptimalDegPatches", "src/neurogram_similiarity_index_measure.cc: MeasurePatchSimilarity", "src/gammatone_filterbank.cc: ApplyFilter", "src/visqol.cc: CalculateSimilarity"]}
{"id": "C100", "title": "The gammatone filters do not overflow", "statement": "In binary64, with stable filters (poles in the closed unit disk, numerators not huge), no recording with samples up to 2^100 makes a filter overflow: every output sample, every entry of the spectrogram is a finite number, and comparing two such recordings is defined (a result, or with the second alignment on possibly an exception).", "quantifier": "for every stable filter, every window of up to 2^20 samples, every recording with samples up to 2^100, every sequence of rounding errors that binary64 can make", "why_tests_cant": "a recursive filter feeds its rounding errors back; whether they grow depends on the poles and on every sample, and an overflow needs a particular signal of thousands of samples", "anchors": ["src/signal_filter.cc: Filter", "src/gammatone_filterbank.cc: ApplyFilter", "src/gammatone_spectrogram_builder.cc: Build", "src/equivalent_rectangular_bandwidth.cc: MakeFilters"]}
{"id": "C101", "title": "Integer recordings are compared without undefined behaviour in binary64, silence included", "statement": "With elementary functions that have 40 correct bits, the gammatone filters of both modes are stable at every sample rate from 4000 to 262144 Hz; the level of a recording of integer samples is minus infinity if it is silent and between -300 and 110 dB otherwise; a silent degraded recording turns into undefined samples when it is scaled; and a comparison of two recordings of integer samples, silent or not, has no undefined behaviour, and returns a result unless the second alignment throws.", "quantifier": "all sample rates 4000..262144, all recordings of samples that are zero or at least 2^-31 in size and at most 1, all reachable managers, all accurate elementary functions, binary64", "why_tests_cant": "the coefficients differ for every sample rate and come from cancelling products of exponentials and cosines; a pole that rounding pushes outside the unit disk at one rate of a quarter of a million, or one level that overflows, needs a particular input", "anchors": ["src/equivalent_rectangular_bandwidth.cc: MakeFilters", "src/misc_audio.cc: CalcSoundPressureLevel, ScaleToMatchSoundPressureLevel", "src/gammatone_filterbank.cc: ApplyFilter", "src/visqol_manager.cc: Run"]}
{"id": "C102", "title": "Every member of the matrix class does what it says and touches nothing else", "statement": "Constructing, reading, assigning, taking rows, columns or rectangles, replacing a row or column, arithmetic with a number or another matrix, joining, flipping, resizing and the statistics give a matrix of the stated size whose element in each row and column is the stated one; indices or sizes that do not fit throw, and undefined behaviour is confined to access by one index for writing, to construction from too few data and to construction from no columns.", "quantifier": "for every matrix of every size, every index and every number type", "why_tests_cant": "each operation is a composition of library views with inclusive ends and column-major storage; a transposed or shifted index agrees with the right one on square, symmetric or one-column examples, and the pipeline uses few shapes", "anchors": ["src/amatrix.cc", "src/include/amatrix.h"]}
{"id": "C103", "title": "The summary of a column shows its beginning, middle and end", "statement": "PrintSummary prints the first five, middle ten and last five values of a column, whatever its length.", "quantifier": "for every column of fewer than 2^63 values", "why_tests_cant": "the summary is a debugging aid that no test calls; its last section starts at length - 6 in unsigned arithmetic and its middle at length / 2 - 4, so short columns behave differently from long ones", "anchors": ["src/amatrix.cc: PrintSummary"]}
{"id": "C104", "title": "The tables printed on the console are aligned and show the numbers of the result", "statement": "In verbose mode every line of the two tables has the same width, the bars stand below those of the header, and there is one row for each patch and each frequency band, showing its numbers in the columns of their headings.", "quantifier": "for every result and every number formatting", "why_tests_cant": "the widths are literals in two places (header and rows) and the numbers are only padded, never cut, so misalignment needs a number of a particular size", "anchors": ["src/include/sim_results_writer.h: FormatFVNSIM, FormatPatchSimilarity"]}
{"id": "C105", "title": "Wav files are mixed down without accumulated error and their comparison is defined in binary64", "statement": "Whatever file is loaded, its samples are zero or between 2^-31 and 1 in size; each sample is the binary64 number closest to the mean of the channels, independently of the order of the channels; and the comparison of two sufficiently long files at one rate, silent or not, has no undefined behaviour and returns a result unless the second alignment throws.", "quantifier": "for every byte string; every number of channels up to 65535 and every 16-bit samples; all reachable managers, all accurate elementary functions, binary64", "why_tests_cant": "sums over channels are rounded in general; that they are exact here, and that no signed zero makes the order of channels visible, depends on the bounds of all samples and channel counts together", "anchors": ["src/misc_audio.cc: LoadAsMono, ToMono, ExtractMultiChannel", "src/misc_math.cc: NormalizeInt16ToDouble", "src/wav_reader.cc", "src/visqol_manager.cc: Run"]}
{"id": "C106", "title": "In binary64 a recording compared with itself gets a similarity close to one", "statement": "The similarity (vnsim) of an audible recording of integer samples and itself is at least 0.999 despite all rounding errors, and each patch compared with itself has a similarity within 0.0006 of 1.", "quantifier": "for every patch of up to a million bands and frames with values up to 4100 dB; for every audible recording of integer samples at 4000 to 262144 Hz that the search window covers and the first alignment leaves in place; all reachable managers, all accurate elementary functions, second alignment on or off, binary64", "why_tests_cant": "the variances are differences of large sums, so cancellation decides how far the similarity of equal patches is from one; and the matching prefers whichever offset rounding favours, so the bound concerns every path through the search, not only the diagonal", "anchors": ["src/neurogram_similiarity_index_measure.cc: MeasurePatchSimilarity", "src/comparison_patches_selector.cc: FindMostOptimalDegPatches, FinelyAlignAndRecreatePatches", "src/misc_audio.cc: ScaleToMatchSoundPressureLevel, PrepareSpectrogramsForComparison", "src/visqol.cc: CalculateSimilarity"]}
{"id": "C107", "title": "In binary64 the degraded recording is brought to the level of the reference", "statement": "The computed level of a recording of integer samples is within 1/100000 dB of the exact one, and after scaling every sample of the degraded recording is finite and its mean power is that of the reference to one part in 100000.", "quantifier": "for every pair of recordings of 1 to 2^30 - 1 integer samples, neither of them silent, and all accurate elementary functions, binary64", "why_tests_cant": "the rounding errors of the sum of squares grow with the number of samples, and the level differences reach 400 dB", "anchors": ["src/misc_audio.cc: CalcSoundPressureLevel, ScaleToMatchSoundPressureLevel"]}
{"id": "C108", "title": "With single precision transforms the lag found is the best one", "statement": "With an FFT library of relative accuracy e, every computed cross-correlation is within 25 e |s1| |s2| of the exact one (|s| being the root of the sum of squares); the lag found is never worse than any other by more than twice that, and it is the exact best lag when that one is better than all others by more.", "quantifier": "for every FFT library accurate to e between 2^-40 and 2^-10, and every pair of finite signals of 9 to 2^30 samples with |s| between 2^-20 and 2^20, binary64", "why_tests_cant": "the errors of the 32-bit transforms depend on all samples at once, and the search compares the computed values of every lag", "anchors": ["src/xcorr.cc: FindLowestLagIndex, InverseFFTPointwiseProduct, FFTPointwiseProduct", "src/fast_fourier_transform.cc: Forward1d, Inverse1d", "src/fft_manager.cc: FreqFromTimeDomain, TimeFromFreqDomain"]}
{"id": "C109", "title": "With single precision transforms the first alignment shifts the degraded recording by the exact best lag", "statement": "With an FFT library accurate to e in the mean square, the computed envelope of a signal s is within 18 e |s| of the exact one; if the exact envelopes of two recordings correlate better at the lag g than at every other by more than 1700 e |ref| |deg|, the degraded recording is shifted by exactly g samples and g is reported as the lag; and a recording compared with itself with the alignment on has a similarity of at least 0.999 if its exact envelope has such a peak at lag zero.", "quantifier": "for every FFT library accurate to e between 2^-23 and 2^-10 and every pair of finite recordings of up to 2^26 samples with |s| between 2^-16 and 2^16, binary64", "why_tests_cant": "the errors of mean, transforms, rectification and correlation accumulate over all samples before the lag is chosen", "anchors": ["src/alignment.cc: GloballyAlign", "src/envelope.cc: CalcUpperEnv, Hilbert", "src/xcorr.cc: FindLowestLagIndex", "src/visqol_manager.cc: Run"]}
{"id": "C110", "title": "Ratings of speech follow the published formula in binary64, and a speech file compared with itself is rated at least 4.99", "statement": "The rating reported for speech is 1 where the similarity is below 0.15 and otherwise within 1e-9 of min(max(scale * (-262.847869 + exp(0.0154302525 (v + 361.063949))), 1), 5) for the reported similarity v; a recording or file compared with itself is rated at least 4.99 (4.01 unscaled), second alignment or not.", "quantifier": "for every comparison in speech mode with the exponential mapper whose similarity is at most 2 in size; for every 16-bit recording of enough frames that is not silent and every reachable manager whose search reaches every frame; binary64, libm accurate to 40 bits with a monotone exp", "why_tests_cant": "the rounding of similarity, exponent and scale add up differently for every recording", "anchors": ["src/speech_similarity_to_quality_mapper.cc: PredictQuality", "src/misc_math.cc: ExponentialFromFit", "src/visqol.cc: AlterForSimilarityExtremes", "src/visqol_manager.cc: Run"]}
{"id": "C111", "title": "A recording that starts late is aligned and then compared exactly as the recording itself", "statement": "If the degraded recording is the reference with k samples in front (whatever they are, at most half as many as the reference has) and the exact envelopes correlate at the lag -k better than at every other lag by more than 1700 e |ref| |deg|, the outcome is that of comparing the reference with itself with the first alignment off, except that the reported lag is the quotient of -k and the sample rate; so the similarity is at least 0.999 and speech is rated at least 4.99 (4.01 unscaled).", "quantifier": "for every finite reference and front within the size limits and every FFT library accurate to e in the mean square; for the scores every 16-bit reference of enough frames and every reachable manager whose search reaches every frame; binary64, libm accurate to 40 bits with a monotone exp", "why_tests_cant": "the delay, what precedes the recording and the errors of the single precision transforms are all free", "anchors": ["src/alignment.cc: GloballyAlign", "src/xcorr.cc: FindLowestLagIndex", "src/envelope.cc: CalcUpperEnv", "src/visqol_manager.cc: Run"]}
{"id": "C112", "title": "Warnings about the input are given exactly when they apply", "statement": "An initialised manager warns about the durations exactly when they differ by more than one second, also when the sample rates differ; it warns about the sample rate exactly when both rates agree and the rate is above 16000 Hz for speech or not 48000 Hz for audio.", "quantifier": "for all pairs of recordings and all initialised managers; durations exact for all positive rates, and in binary64 for equal rates up to 2^30 and up to 2^40 samples", "why_tests_cant": "the computed difference of the durations is above 1 or not depending on the rounding of both quotients", "anchors": ["src/visqol_manager.cc: ValidateInputAudio", "src/visqol_manager.cc: Run", "src/include/audio_signal.h: GetDuration"]}
{"id": "C113", "title": "Incomplete input is announced", "statement": "Loading a file logs nothing exactly when its header is accepted and all announced samples are there, the warning about missing samples gives the right counts, no recording is empty unless an error is logged, and dropped reference patches are reported with their number.", "quantifier": "for all files and all inputs of the patch matching, with any measure of similarity", "why_tests_cant": "a test of the loader does not look at what is logged, and the message is computed apart from the result it describes", "anchors": ["src/misc_audio.cc: LoadAsMono", "src/comparison_patches_selector.cc: FindMostOptimalDegPatches", "src/include/wav_reader.h"]}
{"id": "C114", "title": "The gammatone filters are accurate in binary64", "statement": "The output of a band computed in binary64 differs from the output of the exact filter with the same coefficients by at most a fixed fraction of the largest sample, however long the signal is, and so do the entries of the spectrogram; for the 50 Hz band at 48 kHz, where the filter rings longest, the fraction is below 3e-7.", "quantifier": "for all bands with a damped pair of poles and coefficients of moderate size, all signals, all frames", "why_tests_cant": "rounding errors are fed back through four recursive stages; a test compares with another floating-point implementation on a few signals", "anchors": ["src/signal_filter.cc: Filter", "src/gammatone_filterbank.cc: ApplyFilter", "src/gammatone_spectrogram_builder.cc: Build"]}
{"id": "C115", "title": "The filter banks of the program are accurate in binary64", "statement": "With accurate elementary functions every gammatone filter the program designs is well conditioned: its poles are a damped pair, it amplifies at most 3500 times, and up to 48 kHz its output for samples within [-1,1] is within 6 millionths of the exact output of the same filter, so every entry of a spectrogram is within 1/100000 of the exact level of its windowed frame.", "quantifier": "for all elementary functions accurate to 40 bits, all sample rates from 4000 to 262144 Hz (48000 Hz for the error), all numbers of bands up to 32, both modes, all signals and windows, all reachable managers", "why_tests_cant": "the coefficients depend on the sample rate and the band through exp, sin and cos and the gain through a quotient of complex products; tests design a few banks", "anchors": ["src/equivalent_rectangular_bandwidth.cc: MakeFilters", "src/gammatone_filterbank.cc: ApplyFilter", "src/gammatone_spectrogram_builder.cc: Build"]}
{"id": "C116", "title": "The decibels that are compared are accurate in binary64", "statement": "Preparing two spectrograms of finite numbers (decibels, absolute and relative noise floor, subtraction of the minimum) gives in binary64 the entries that exact arithmetic gives, to 0.00000002 dB; an error d in the spectrograms changes them by at most 20 log10(1 + 31623 d) dB; the prepared spectrograms of the program are within 2.4 dB of those obtained from exact filters and exact levels, and entries of -20 dB or more are exact to 0.005 dB before preparation.", "quantifier": "for all elementary functions accurate to 40 bits, all spectrograms of finite numbers of any size; for all signals within [-1,1], all sample rates from 4000 to 48000 Hz, all windows and all reachable managers", "why_tests_cant": "whether rounding of a level near the noise floor is amplified by the logarithm depends on every entry of both spectrograms; tests compare a few final scores", "anchors": ["src/spectrogram.cc: ConvertSampleToDb, RaiseFloor, RaiseFloorPerFrame, SubtractFloor", "src/misc_audio.cc: PrepareSpectrogramsForComparison"]}
{"id": "C117", "title": "The similarities and energies of a result are finite numbers in binary64", "statement": "When a comparison in binary64 returns, the similarity, its mean, lowest decile and spread in every band, the energy of every band, the similarities of every patch, the lag of the first alignment and the times at which every patch starts and ends in the reference are finite numbers, and every patch ends after it starts: none is undefined or infinite, even when the degraded recording is silent and every one of its scaled samples is undefined.", "quantifier": "for all elementary functions accurate to 40 bits, all integer recordings from 4000 to 262144 Hz, all reachable managers and both alignments; for all samples whatsoever whose spectrograms do not overflow, without the second alignment", "why_tests_cant": "an undefined sample, a zero denominator or an overflow anywhere among millions of operations would spread to the result; tests use ordinary speech and music", "anchors": ["src/visqol.cc: CalcPerPatchMeanFreqBandMeans, CalcPerPatchFreqBandQuantile, CalcPerPatchMeanFreqBandStdDevs, CalcPerPatchMeanFreqBandDegradedEnergy", "src/neurogram_similiarity_index_measure.cc: MeasurePatchSimilarity", "src/comparison_patches_selector.cc: FindMostOptimalDegPatches, FinelyAlignAndRecreatePatches"]}
{"id": "C118", "title": "A sample variance is never negative in binary64", "statement": "The variance of a row or column, computed as the sum of squared deviations less a correction and divided by one less than their number, is a finite number at least zero, so its square root, the standard deviation of a band of a patch, is never undefined.", "quantifier": "for all lists of at most 64 numbers, each zero or of magnitude from 2^-250 to 2^100, and all matrices of them", "why_tests_cant": "the correction is of the size of rounding errors; whether it can exceed the sum it is subtracted from depends on the last bits of 64 numbers", "anchors": ["src/amatrix.cc: AMatrix::StdDev", "src/neurogram_similiarity_index_measure.cc: MeasurePatchSimilarity"]}
{"id": "C119", "title": "A mean similarity lies between the similarities it summarises", "statement": "The reported similarity lies between the smallest and the largest similarity of a band, and the similarity of a band between the smallest and the largest similarity of a patch in that band.", "quantifier": "for all comparisons that return a result", "why_tests_cant": "the largest of a handful of numbers is rarely exceeded by their rounded mean, and then only in the last digit", "anchors": ["src/visqol.cc: CalculateSimilarity, CalcPerPatchMeanFreqBandMeans", "src/visqol_manager.cc: PopulateSimResultMsg"]}
