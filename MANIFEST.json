{
 "claims": [
  {
   "property": "C01",
   "status": "proved",
   "theorems": [
    "C01_no_audio_section",
    "C01_rate_rejected",
    "C01_otherwise_load_status"
   ],
   "note": "For every config and every previous state of the object, with the model loader as an arbitrary oracle. The rate is the int32 of the proto field."
  },
  {
   "property": "C02",
   "status": "partial",
   "theorems": [
    "C02_never_initialised",
    "C02_once_initialised",
    "C02_api_partial",
    "C02_uninitialised_rate_refuted"
   ],
   "note": "Refuted as stated: Measure on an object on which no Create ever saw an audio section reads the uninitialised sample_rate_ (C02_uninitialised_rate_refuted). Proved for the manager over all call histories, and for the API once some Create has an audio section."
  },
  {
   "property": "C03",
   "status": "partial",
   "theorems": [
    "C03_failed_load_refuted",
    "C03_failed_init_partial",
    "C03_reinit_case_refuted",
    "C03_rate_kept_refuted"
   ],
   "note": "Refuted as stated: an Init that fails leaves is_initialized_ true with the new (unusable) settings, and a Create with rate 0 overwrites sample_rate_ (C03_failed_load_refuted, C03_reinit_case_refuted, C03_rate_kept_refuted). Proved: a never initialised object stays unusable, and after a failed Init no comparison returns a result."
  },
  {
   "property": "C04",
   "status": "proved",
   "theorems": [
    "C04_rates_differ",
    "C04_rates_equal_not_realigned",
    "C04_rates_equal",
    "C04_rates_equal_binary64"
   ],
   "note": "Different rates: every number type. Equal rates: without the second alignment for every number type, with it for exact arithmetic and for binary64 (signals of 1 to 2^29-1 samples, any FFT that keeps the length of its buffer)."
  },
  {
   "property": "C05",
   "status": "proved",
   "theorems": [
    "C05_history_irrelevant",
    "C05_api",
    "C05_latest_configuration"
   ],
   "note": "All histories of Init and Run/Measure calls; the outcome is a function of the latest successful configuration and the inputs."
  },
  {
   "property": "C06",
   "status": "proved",
   "theorems": [
    "C06_degraded_argument",
    "C06_scaled_aligned"
   ],
   "note": "C06_degraded_argument for every number type; C06_scaled_aligned in exact arithmetic."
  },
  {
   "property": "C07",
   "status": "partial",
   "theorems": [
    "C07_short_audio_partial",
    "C07_empty_refuted",
    "C07_padded_refuted"
   ],
   "note": "Refuted as stated: two empty signals are undefined behaviour, and global alignment pads a short degraded signal so that it is accepted. C07_short_audio_partial is about the signal after alignment."
  },
  {
   "property": "C08",
   "status": "partial",
   "theorems": [
    "C08_short_speech_refuted",
    "C08_window_partial",
    "C08_case_refuted"
   ],
   "note": "Refuted as stated: in speech mode a reference of more than a window but fewer than 29 frames makes the VAD patch creator throw. C08_window_partial is the remaining case."
  },
  {
   "property": "C09",
   "status": "proved",
   "theorems": [
    "C09_audio_score_range",
    "C09_reported_score_range"
   ],
   "note": "Binary64, any model output including NaN and infinities, any libm. Only the regression (audio) mapper clamps; the lattice mapper of speech mode is reported unclamped."
  },
  {
   "property": "C10",
   "status": "partial",
   "theorems": [
    "C10_undefined_is_not_perfect_refuted",
    "C10_every_run_refuted",
    "C10_speech_partial"
   ],
   "note": "Refuted as stated: std::min(5.0, NaN) is 5.0, so a NaN prediction of the regression model is reported as the perfect score (C10_undefined_is_not_perfect_refuted, C10_every_run_refuted). What holds: the speech mapping keeps NaN (C10_speech_partial), given exp(NaN) = NaN."
  },
  {
   "property": "C11",
   "status": "proved",
   "theorems": [
    "C11_speech_mapping",
    "C11_fit_constants"
   ],
   "note": "Exact real arithmetic with the real exponential; the scale is the single-precision constant.  A perfect similarity scores between 5 - 10^-7 and 5 (not exactly 5)."
  },
  {
   "property": "C12",
   "status": "proved",
   "theorems": [
    "C12_dissimilar_scores_one"
   ],
   "note": "Every number type, mode, mapper and history; at the level of VisqolManager::Run."
  },
  {
   "property": "C13",
   "status": "proved",
   "theorems": [
    "C13_aggregates",
    "C13_energy"
   ],
   "note": "Every number type, every reachable manager; signals shorter than 2^31-2 samples. fvdegenergy at the level of CalculateSimilarity because the message has no per-patch energies."
  },
  {
   "property": "C14",
   "status": "proved",
   "theorems": [
    "C14_lowest_decile",
    "C14_order_irrelevant",
    "C14_message_binary64"
   ],
   "note": "Exact arithmetic for all claims; the count and the selection also in binary64 on the reported message."
  },
  {
   "property": "C15",
   "status": "proved",
   "theorems": [
    "C15_stddev_of_all_frames",
    "C15_matched_patches",
    "C15_nonnegative_binary64"
   ],
   "note": "Exact arithmetic, for patches of one length given by their frames and for the patches matching returns when none is lost; non-negativity in binary64. Frame counts in binary64: see C67."
  },
  {
   "property": "C16",
   "status": "partial",
   "theorems": [
    "C16_other_lengths_refuted",
    "C16_equal_means_partial"
   ],
   "note": "Refuted as stated (C16_other_lengths_refuted); C16_equal_means_partial covers the lists of patches whose plain average of means is the overall mean."
  },
  {
   "property": "C17",
   "status": "proved",
   "theorems": [
    "C17_too_short_is_error",
    "C17_audio_patches_tile"
   ],
   "note": "Closed form of the index loop for every patch size >= 2 and every frame count below 2^64."
  },
  {
   "property": "C18",
   "status": "partial",
   "theorems": [
    "C18_no_full_patch_left_refuted",
    "C18_rest_partial"
   ],
   "note": "Refuted as stated (L=75, p=30 leaves 31 frames); what holds is that at most p+1 frames remain."
  },
  {
   "property": "C19",
   "status": "proved",
   "theorems": [
    "C19_speech_patches_are_active_grid_patches"
   ],
   "note": "Over exact reals, for every signal; whenever the selection returns."
  },
  {
   "property": "C20",
   "status": "proved",
   "theorems": [
    "C20_absent_iff_three_quiet"
   ],
   "note": "For every number type and every sequence of chunks."
  },
  {
   "property": "C21",
   "status": "partial",
   "theorems": [
    "C21_vad_inside_when_hop_integral_partial",
    "C21_vad_inside_refuted"
   ],
   "note": "Proved when window size is a multiple of 4; refuted in general (11025 Hz, 124 s reference throws)."
  },
  {
   "property": "C22",
   "status": "proved",
   "theorems": [
    "C22_patches_are_columns"
   ],
   "note": "For every matrix and index list inside it, any number type."
  },
  {
   "property": "C23",
   "status": "proved",
   "theorems": [
    "C23_degraded_patch"
   ],
   "note": "Every number type, every matrix and window start from 1-p to the last degraded frame; windows further left make the bounds check throw but are never requested."
  },
  {
   "property": "C24",
   "status": "proved",
   "theorems": [
    "C24_time_order"
   ],
   "note": "Every number type, similarity measure, index list and radius, whenever matching returns."
  },
  {
   "property": "C25",
   "status": "proved",
   "theorems": [
    "C25_best_total",
    "C25_best_total_binary64"
   ],
   "note": "Exact reals with the code's similarity measure; binary64 with any finite measure of absolute value at most 2 (floating-point totals). Needs windows that cover the spectrogram or positive similarities."
  },
  {
   "property": "C26",
   "status": "partial",
   "theorems": [
    "C26_inside_window_partial",
    "C26_inside_window_refuted"
   ],
   "note": "Refuted as stated: with negative similarities a patch is reported outside its window. Proved for positive similarities, in binary64."
  },
  {
   "property": "C27",
   "status": "partial",
   "theorems": [
    "C27_radius_safe_partial",
    "C27_radius_safe_refuted"
   ],
   "note": "Refuted as stated: radius -1, radius 0 with a patch past the end, and radii near 2^31/p are undefined behaviour. Proved safe for every radius >= 1 whose window fits an int."
  },
  {
   "property": "C28",
   "status": "proved",
   "theorems": [
    "C28_scored_patches_audio",
    "C28_scored_patches_speech"
   ],
   "note": "Audio mode in binary64; speech mode with selection over exact reals."
  },
  {
   "property": "C29",
   "status": "proved",
   "theorems": [
    "C29_reported_results"
   ],
   "note": "Every number type and similarity measure, whenever matching returns."
  },
  {
   "property": "C30",
   "status": "proved",
   "theorems": [
    "C30_realignment"
   ],
   "note": "Every number type, FFT, similarity measure and bank state, whenever realignment returns."
  },
  {
   "property": "C31",
   "status": "proved",
   "theorems": [
    "C31_shift_only",
    "C31_shift_only_binary64"
   ],
   "note": "Exact arithmetic and binary64, for every FFT that keeps the buffer length; fewer than 2^30 samples (the FFT size is computed in 32 bits)."
  },
  {
   "property": "C32",
   "status": "partial",
   "theorems": [
    "C32_first_maximiser_partial",
    "C32_lag_search_partial",
    "C32_short_signals_refuted"
   ],
   "note": "Refuted as stated: up to eight samples the FFT is larger than the number of samples read back, so every negative lag counts as 0 (C32_short_signals_refuted). Proved for a longer signal of nine samples or more, in exact arithmetic with an ideal FFT."
  },
  {
   "property": "C33",
   "status": "proved",
   "theorems": [
    "C33_equal_lengths"
   ],
   "note": "Every number type, FFT and lag, when it returns; both signals have the same sample rate."
  },
  {
   "property": "C34",
   "status": "partial",
   "theorems": [
    "C34_no_failure_partial",
    "C34_no_failure_binary64_partial",
    "C34_longer_degraded_refuted"
   ],
   "note": "Refuted as stated: a degraded signal longer than the reference with a negative lag makes the start row a negative int converted to size_t, and the row check throws (C34_longer_degraded_refuted). Proved for degraded signals no longer than the reference (exact arithmetic, ideal FFT), and in binary64 for any FFT when they are also more than half as long."
  },
  {
   "property": "C35",
   "status": "partial",
   "theorems": [
    "C35_slice_partial",
    "C35_past_end_refuted"
   ],
   "note": "Refuted as stated: past the end the silence goes in front and the last sample is dropped (C35_past_end_refuted). Proved for intervals ending before the last sample, exact arithmetic."
  },
  {
   "property": "C36",
   "status": "proved",
   "theorems": [
    "C36_hann_weights",
    "C36_windowing_shrinks"
   ],
   "note": "Exact reals, every window of at least two samples (a one-sample window has weight 0/0)."
  },
  {
   "property": "C37",
   "status": "proved",
   "theorems": [
    "C37_difference_equation",
    "C37_pieces",
    "C37_linear"
   ],
   "note": "Difference equation and linearity over exact reals; running in pieces for every number type including binary64."
  },
  {
   "property": "C38",
   "status": "proved",
   "theorems": [
    "C38_spectrogram_geometry",
    "C38_rms",
    "C38_too_short"
   ],
   "note": "Geometry for every number type; RMS formula over exact reals."
  },
  {
   "property": "C39",
   "status": "partial",
   "theorems": [
    "C39_positive_hop_refuted",
    "C39_hop_positive_from_44Hz_partial"
   ],
   "note": "Refuted as stated: 43 Hz is accepted by Create and gives hop 0, hence a division by zero when a spectrogram is built. Proved: the hop is positive from 44 Hz on."
  },
  {
   "property": "C40",
   "status": "proved",
   "theorems": [
    "C40_center_frequencies",
    "C40_spectrogram_bands"
   ],
   "note": "Exact reals."
  },
  {
   "property": "C41",
   "status": "proved",
   "theorems": [
    "C41_common_nonnegative_floor",
    "C41_closed_form"
   ],
   "note": "Exact reals; closed form and its consequences."
  },
  {
   "property": "C42",
   "status": "proved",
   "theorems": [
    "C42_self_similarity_is_one",
    "C42_symmetric",
    "C42_symmetric_binary64",
    "C42_bounded"
   ],
   "note": "Exact reals; symmetry also bit-for-bit in binary64."
  },
  {
   "property": "C43",
   "status": "proved",
   "theorems": [
    "C43_weighted_average",
    "C43_smoothing_laws"
   ],
   "note": "Exact reals."
  },
  {
   "property": "C44",
   "status": "proved",
   "theorems": [
    "C44_channels",
    "C44_mono",
    "C44_mean",
    "C44_int16",
    "C44_file"
   ],
   "note": "De-interleaving for every number type, mean over exact reals, 16-bit codes exhaustively in binary64, and the whole file-to-signal path over exact reals."
  },
  {
   "property": "C45",
   "status": "proved",
   "theorems": [
    "C45_level"
   ],
   "note": "Exact reals."
  },
  {
   "property": "C46",
   "status": "partial",
   "theorems": [
    "C46_silent_degraded_refuted"
   ],
   "note": "Refuted as stated: in binary64 the scaled silent signal is NaN. C45 is the positive part."
  },
  {
   "property": "C47",
   "status": "partial",
   "theorems": [
    "C47_round_trip_partial",
    "C47_accepted_partial",
    "C47_termination_partial",
    "C47_sample_width_refuted"
   ],
   "note": "Refuted as stated in one point: 17 to 23 bits per sample are accepted as well. Proved: round trip, everything else about accepted files, termination."
  },
  {
   "property": "C48",
   "status": "partial",
   "theorems": [
    "C48_odd_chunk_refuted"
   ],
   "note": "Refuted: the pad byte of an odd chunk is not skipped and the file is rejected."
  },
  {
   "property": "C49",
   "status": "partial",
   "theorems": [
    "C49_over_read_refuted",
    "C49_sequential_reads_partial"
   ],
   "note": "Refuted as stated: a request larger than the remaining count is served from behind the data chunk. Proved for request sequences that stay within the declared count."
  },
  {
   "property": "C50",
   "status": "proved",
   "theorems": [
    "C50_forward",
    "C50_symmetric",
    "C50_round_trip",
    "C50_layout",
    "C50_layout_spectrum"
   ],
   "note": "Exact arithmetic, ideal FFT; layout for every number type."
  },
  {
   "property": "C51",
   "status": "proved",
   "theorems": [
    "C51_size",
    "C51_next_power",
    "C51_multiply"
   ],
   "note": ""
  },
  {
   "property": "C52",
   "status": "proved",
   "theorems": [
    "C52_batch_round_trip"
   ],
   "note": "Both line endings, with or without a final line ending; paths free of commas, CR and LF, degraded path not empty."
  },
  {
   "property": "C53",
   "status": "partial",
   "theorems": [
    "C53_no_ub_refuted",
    "C53_defined_when_two_columns_partial"
   ],
   "note": "Refuted as stated: a blank line (back() of an empty string) or a line with one column (index past the end of a vector) is undefined behaviour. Proved: reading is defined exactly when each line after the first names two files, and undefined otherwise."
  },
  {
   "property": "C54",
   "status": "partial",
   "theorems": [
    "C54_isolated_and_ordered_partial",
    "C54_paths",
    "C54_failed_start",
    "C54_exception_refuted",
    "C54_malformed_file_refuted",
    "C54_short_file_ends_batch_refuted",
    "C54_empty_file_ends_batch_refuted"
   ],
   "note": "Refuted as stated: a comparison that throws (for example speech files of 31 samples at 50 Hz) or a malformed wav file ends the whole batch. Proved for batches in which every comparison returns a result or an error status, and for failed starts."
  },
  {
   "property": "C55",
   "status": "proved",
   "theorems": [
    "C55_one_header_one_line_per_result",
    "C55_content_kept",
    "C55_same_columns"
   ],
   "note": "The results file is assumed to be different from the debug file and from all input files, and to be openable; formatting of numbers is an oracle. C55_same_columns needs signals shorter than 2^31 samples."
  },
  {
   "property": "C56",
   "status": "proved",
   "theorems": [
    "C56_crash_keeps_earlier_rows",
    "C56_crash_keeps_debug_text",
    "C56_undisturbed"
   ],
   "note": "The stream is modelled as appending characters in order to the end of the file. A crash between opening and writing leaves a file without header for good (the second example); a torn row is continued by the next one."
  },
  {
   "property": "C57",
   "status": "partial",
   "theorems": [
    "C57_read_back_partial",
    "C57_columns",
    "C57_comma_in_path_refuted",
    "C57_mixed_modes_refuted"
   ],
   "note": "Refuted as stated: paths are not quoted, so a comma in a path adds columns; results of speech (21 bands) and audio mode (32) in one file have different columns. Proved when no field holds a comma or a line feed."
  },
  {
   "property": "C58",
   "status": "proved",
   "theorems": [
    "C58_required_files",
    "C58_batch_overrides",
    "C58_one_pair",
    "C58_no_other_outcome"
   ],
   "note": "An existence check that throws is included (C58_no_other_outcome)."
  },
  {
   "property": "C59",
   "status": "proved",
   "theorems": [
    "C59_svr_slots",
    "C59_names_distinct",
    "C59_lattice_slots",
    "C59_none_missing"
   ],
   "note": "For every number type. A lattice model without one of the names is undefined behaviour (null tensor), stated in the theorem."
  },
  {
   "property": "C60",
   "status": "proved",
   "theorems": [
    "C60_transpose",
    "C60_split_join",
    "C60_join_split",
    "C60_order",
    "C60_outside",
    "C60_statistics"
   ],
   "note": "Structure for every number type, statistics over exact reals."
  },
  {
   "property": "C61",
   "status": "partial",
   "theorems": [
    "C61_equality_refuted",
    "C61_equality_partial"
   ],
   "note": "Refuted: the column counts are not compared. Proved when they agree."
  },
  {
   "property": "C62",
   "status": "partial",
   "theorems": [
    "C62_filter_general_coefficients_refuted"
   ],
   "note": "Refuted: the leading denominator coefficient and numerator coefficients beyond the denominator's length are ignored. C37 states what holds for the coefficients actually used."
  },
  {
   "property": "C63",
   "status": "proved",
   "theorems": [
    "C63_similarity_formula"
   ],
   "note": "Exact reals."
  },
  {
   "property": "C64",
   "status": "proved",
   "theorems": [
    "C64_loading_is_safe"
   ],
   "note": "Every number type. Memory exhaustion is not modelled."
  },
  {
   "property": "C65",
   "status": "partial",
   "theorems": [
    "C65_malformed_file_refuted",
    "C65_missing_file_partial"
   ],
   "note": "Refuted as stated: a rejected header leaves the sample rate unset and Run reads it. Proved: one missing file next to a readable one gives InvalidArgument."
  },
  {
   "property": "C66",
   "status": "partial",
   "theorems": [
    "C66_lost_patches_count_as_silence_refuted"
   ],
   "note": "Refuted as stated: only the means of a lost patch are cleared."
  },
  {
   "property": "C67",
   "status": "partial",
   "theorems": [
    "C67_patch_frames_refuted",
    "C67_patch_frames_partial"
   ],
   "note": "Refuted as stated: 31 instead of 30 frames for the third patch at 48 kHz; C67_patch_frames_partial bounds the error by one frame."
  },
  {
   "property": "C68",
   "status": "proved",
   "theorems": [
    "C68_window_80ms_hop_quarter"
   ],
   "note": "Exact reals and binary64."
  },
  {
   "property": "C69",
   "status": "proved",
   "theorems": [
    "C69_structure_denominator_positive"
   ],
   "note": "Binary64; the product of the variances is an argument."
  },
  {
   "property": "C70",
   "status": "proved",
   "theorems": [
    "C70_header_of_prefix",
    "C70_cut_is_silence",
    "C70_rest_ignored",
    "C70_no_sample"
   ],
   "note": "A cut inside a sample keeps its low byte (see the example)."
  },
  {
   "property": "C71",
   "status": "partial",
   "theorems": [
    "C71_nothing_lost_partial",
    "C71_two_headers_refuted"
   ],
   "note": "Refuted as stated: two runs that both find no file both write a header. Proved: nothing is lost, earlier content and other files stay, each text arrives as a subsequence."
  },
  {
   "property": "C72",
   "status": "proved",
   "theorems": [
    "C72_console_defined",
    "C72_console_quiet"
   ],
   "note": "Number formatting is an oracle."
  },
  {
   "property": "C73",
   "status": "partial",
   "theorems": [
    "C73_second_alignment_returns",
    "C73_second_alignment_partial",
    "C73_rounding_refuted"
   ],
   "note": "Refuted as stated: in binary64 the start and end times of a patch can round so that the two slices have one sample too few and one too many; a one-sample lag then makes the degraded slice longer than the reference and the truncation throws (C73_rounding_refuted). Proved: exact arithmetic always returns; binary64 returns or throws, never an error status or undefined behaviour."
  },
  {
   "property": "C74",
   "status": "proved",
   "theorems": [
    "C74_long_enough_signals_compare",
    "C74_audio_48000"
   ],
   "note": "Exact arithmetic (reals). In binary64 the second alignment can still throw (C73_rounding_refuted), so the binary64 form is false."
  },
  {
   "property": "C75",
   "status": "partial",
   "theorems": [
    "C75_loaded_partial",
    "C75_not_loaded_partial",
    "C75_trained_partial",
    "C75_manager",
    "C75_never_initialised_refuted",
    "C75_twice_refuted",
    "C75_copy_refuted",
    "C75_ask_unloaded_refuted"
   ],
   "note": "Refuted as stated: the destructor of a never initialised object reads an unset pointer (C75_never_initialised_refuted), initialising twice leaks the first model (C75_twice_refuted), copies are freed twice (C75_copy_refuted) and a question after a failed load is undefined (C75_ask_unloaded_refuted). Proved for objects initialised once (C75_loaded_partial, C75_not_loaded_partial, C75_trained_partial) and, completely, for the way the manager uses the object (C75_manager)."
  },
  {
   "property": "C76",
   "status": "partial",
   "theorems": [
    "C76_rows_partial",
    "C76_shapes_refuted"
   ],
   "note": "Refuted as stated: C76_shapes_refuted gives exactly the data that can be trained on; for all other data (no observation, a row shorter than the first, more targets than observations) training is undefined instead of reporting. C76_rows_partial: for well-shaped data every row equals the row of a question."
  },
  {
   "property": "C77",
   "status": "proved",
   "theorems": [
    "C77_read_back"
   ],
   "note": ""
  },
  {
   "property": "C78",
   "status": "partial",
   "theorems": [
    "C78_rows_partial",
    "C78_dropped_refuted",
    "C78_blank_line_refuted"
   ],
   "note": "Refuted as stated: an unreadable item is dropped and the rest of the row shifts (C78_dropped_refuted); a blank last line becomes an empty row whose first column is undefined (C78_blank_line_refuted). C78_rows_partial says what is read for every text."
  },
  {
   "property": "C79",
   "status": "partial",
   "theorems": [
    "C79_status_partial",
    "C79_model_last_partial",
    "C79_delegate_first_refuted"
   ],
   "note": "Refuted as stated: the delegate is destroyed before the interpreter that runs on it (C79_delegate_first_refuted). The status (C79_status_partial) and the order of interpreter and model (C79_model_last_partial) are as claimed."
  },
  {
   "property": "C80",
   "status": "partial",
   "theorems": [
    "C80_same_duration_partial",
    "C80_huge_rate_refuted"
   ],
   "note": "Refuted as stated for rates of 2^31 Hz or more, which the reader holds as a negative int (C80_huge_rate_refuted); proved for all other accepted files (C80_same_duration_partial)."
  },
  {
   "property": "C81",
   "status": "proved",
   "theorems": [
    "C81_loudness_is_removed"
   ],
   "note": "In exact arithmetic, for every transform that commutes with scaling (the exact discrete Fourier transform does)."
  },
  {
   "property": "C82",
   "status": "proved",
   "theorems": [
    "C82_self_is_perfect",
    "C82_self_speech_score",
    "C82_self_score_is_constant"
   ],
   "note": "In exact arithmetic. Any transform of the right length if global alignment is off, the exact discrete Fourier transform if it is on. Long enough: at least 45 windows (29 in speech mode, with the window a multiple of four samples), lengths and frame numbers far from the limits of int, a rate of at least 44 Hz, and a mapper that can answer. The lattice mapper also looks at the signal's energy, so its score is not constant."
  },
  {
   "property": "C83",
   "status": "proved",
   "theorems": [
    "C83_one_at_a_time",
    "C83_same_as_alone",
    "C83_model_of_some_call",
    "C83_no_deadlock",
    "C83_all_return"
   ],
   "note": "The loader of the LIBSVM library is an oracle that works in steps on a static buffer, which opening a file resets; the mutex is modelled as granting the lock to one thread when free. Returning the lock and deciding the status are one step."
  },
  {
   "property": "C84",
   "status": "partial",
   "theorems": [
    "C84_polarity_partial",
    "C84_alignment_refuted"
   ],
   "note": "Refuted as stated when the signals are aligned: CalcUpperEnv adds the signal's mean back to the envelope, so inverting a signal with a non-zero mean can change the lag (C84_alignment_refuted). Proved with both alignments off: for the degraded signal in every mode, for the reference in audio mode (C84_polarity_partial); in speech mode the voice activity detector clamps to -32768..32767, which is not symmetric."
  },
  {
   "property": "C85",
   "status": "proved",
   "theorems": [
    "C85_similarities_in_range",
    "C85_score_in_range"
   ],
   "note": "Similarities in range for every successful run (in_range); score in 1..5 for the speech fit and the regression model. The lattice's raw output is not limited by the code (see C10)."
  },
  {
   "property": "C86",
   "status": "proved",
   "theorems": [
    "C86_session",
    "C86_cross_correlation",
    "C86_envelope",
    "C86_needs_memory"
   ],
   "note": "Memory taken to suffice: C86_needs_memory shows that the code does not check for it. PFFFT's use of the buffers it is given is an assumption of the model (transform)."
  },
  {
   "property": "C87",
   "status": "partial",
   "theorems": [
    "C87_hilbert_envelope_refuted",
    "C87_above_the_signal_refuted",
    "C87_rectified_signal",
    "C87_above_partial",
    "C87_above_mean"
   ],
   "note": "Refuted as stated (C87_hilbert_envelope_refuted, C87_above_the_signal_refuted): the inverse transform keeps only the real part, so the result is twice the absolute deviation from the mean with an alternating error (C87_rectified_signal). It lies above the signal when there is no content at half the sample rate (C87_above_partial) and above the mean always (C87_above_mean)."
  },
  {
   "property": "C88",
   "status": "proved",
   "theorems": [
    "C88_stable",
    "C88_unit_gain"
   ],
   "note": "Real arithmetic with the real exp, cos, sin; the ideal transcendental functions are those of the Coq reals. Stated for the coefficients MakeFilters produces and the four cascaded sections of ApplyFilter from zero conditions."
  },
  {
   "property": "C89",
   "status": "proved",
   "theorems": [
    "C89_each_row_its_own_band",
    "C89_history",
    "C89_too_short"
   ],
   "note": "Array-level model: rd/wr are unchecked valarray accesses (out of range is undefined behaviour), armadillo accesses checked. Real arithmetic; std::arg is an arbitrary function returning some angle of every non-zero number; std::pow(complex,double) is the libstdc++ polar form. MakeFilters is called with a positive minimum frequency (50 Hz in the code)."
  },
  {
   "property": "C90",
   "status": "partial",
   "theorems": [
    "C90_level_refuted",
    "C90_quiet_is_perfect",
    "C90_loud_partial"
   ],
   "note": "Refuted as stated: C90_level_refuted (the spectrograms have an absolute floor of -45 dB, so what a difference counts for depends on the level). C90_quiet_is_perfect: below a level that depends only on mode, rate and length every comparison is declared perfect. C90_loud_partial: when every band of every frame of both recordings is above the floor, a factor of at least 1 changes nothing (second alignment off)."
  },
  {
   "property": "C91",
   "status": "proved",
   "theorems": [
    "C91_one_means_identical",
    "C91_patches_of_a_run"
   ],
   "note": "Real arithmetic. Patches: any shape. Runs: second alignment off; with it on, the offset is one in samples of a recut piece."
  },
  {
   "property": "C92",
   "status": "partial",
   "theorems": [
    "C92_wider_refuted",
    "C92_wider_partial",
    "C92_reaching_radius"
   ],
   "note": "Refuted as stated: offsets outside the window of a patch count as a total of 0, so with negative similarities a wider search can report a smaller total (C92_wider_refuted). Proved: with positive similarities neither vnsim nor the speech score falls (C92_wider_partial); a radius that reaches over both recordings has no influence, in every number type (C92_reaching_radius)."
  },
  {
   "property": "C93",
   "status": "partial",
   "theorems": [
    "C93_rounding_refuted",
    "C93_rounding_partial",
    "C93_identical"
   ],
   "note": "Refuted as stated: for three frames of 50 against 98, 8, 97 the computed similarity is more than 0.05 below the exact one, because the variance of a constant patch comes out as about 1e-12 instead of 0 and is multiplied by the other variance (C93_rounding_refuted). Proved: within 4/1000000 where every local variance of both patches is at least 1/10000 (C93_rounding_partial), and within 3/1000000 of 1 for a patch and itself, constant or not (C93_identical)."
  },
  {
   "property": "C94",
   "status": "partial",
   "theorems": [
    "C94_at_most_one_refuted",
    "C94_at_most_one_partial",
    "C94_at_most_four_partial"
   ],
   "note": "Refuted as stated: a nearly constant patch gives a computed similarity above 1.02 (C94_at_most_one_refuted). Proved: between -1 and 1 up to 4/1000000 where every local variance of both patches is at least 1/10000 (C94_at_most_one_partial); at most 4 in magnitude, in every band, without any condition on the variances (C94_at_most_four_partial)."
  },
  {
   "property": "C95",
   "status": "partial",
   "theorems": [
    "C95_copy_aligned_refuted",
    "C95_copy_aligned_partial",
    "C95_delayed_copy_partial"
   ],
   "note": "Refuted as stated: C95_copy_aligned_refuted shows a constant sound of twelve samples, delayed by two, for which another lag is chosen (the envelope adds the average back after rectifying). C95_copy_aligned_partial proves it for every sound without constant part and without part at half the sample rate, C95_delayed_copy_partial the consequence for alignment followed by truncation."
  },
  {
   "property": "C96",
   "status": "partial",
   "theorems": [
    "C96_matched_audio_refuted",
    "C96_matched_audio_exact_partial",
    "C96_reference_audio_partial",
    "C96_degraded_audio_partial"
   ],
   "note": "Refuted as stated: C96_matched_audio_refuted shows that in binary64 at 48 kHz the audio of the frames from frame 29 begins one sample early, for every signal. C96_matched_audio_exact_partial proves it in exact arithmetic; C96_reference_audio_partial and C96_degraded_audio_partial prove for every matched pair in binary64 that each end is right or one sample early."
  },
  {
   "property": "C97",
   "status": "partial",
   "theorems": [
    "C97_reported_times_refuted",
    "C97_reported_times_partial"
   ],
   "note": "Refuted as stated: when the degraded patch ends after its signal, zeros are put in front of its audio and the reported times no longer are those of the samples compared (C97_reported_times_refuted, binary64). Proved in exact arithmetic for every pair that ends before the signals do (C97_reported_times_partial); in binary64 each end can be one sample early (C96)."
  },
  {
   "property": "C98",
   "status": "partial",
   "theorems": [
    "C98_only_finite_levels_refuted",
    "C98_only_finite_levels_partial",
    "C98_undefined_is_silence"
   ],
   "note": "Refuted as stated: one infinite entry turns every entry of both spectrograms into NaN (C98_only_finite_levels_refuted). Proved for spectrograms without infinite entries (C98_only_finite_levels_partial); that undefined entries count as silence holds without restriction (C98_undefined_is_silence)."
  },
  {
   "property": "C99",
   "status": "partial",
   "theorems": [
    "C99_finite_samples_safe_refuted",
    "C99_no_overflow_returns_partial"
   ],
   "note": "Refuted as stated: samples of 2^600 are finite but overflow in the filters; every similarity is NaN, no offset is found and an uninitialised one is read (C99_finite_samples_safe_refuted). Proved when the spectrograms of the two compared signals do not overflow, without the second alignment (C99_no_overflow_returns_partial); samples up to 2^100 and stable filters suffice, with or without the second alignment (C100)."
  },
  {
   "property": "C100",
   "status": "proved",
   "theorems": [
    "C100_band_bounded",
    "C100_spectrogram_finite",
    "C100_comparison_defined"
   ],
   "note": "Filters, spectrogram and comparison in binary64 with stable filters; that the filters of both modes are stable at every sample rate from 4000 to 262144 Hz is C101."
  },
  {
   "property": "C101",
   "status": "proved",
   "theorems": [
    "C101_filters_stable",
    "C101_level",
    "C101_silence_becomes_undefined",
    "C101_comparison_defined"
   ],
   "note": "Filters, level and comparison in binary64; what is asked of exp, log, log10, pow, cos and sin is the record accurate in Spec/LibmSpec.v, met by correctly rounded functions (C101_functions). The FFT is only asked to keep lengths."
  },
  {
   "property": "C102",
   "status": "proved",
   "theorems": [
    "C102_of_data",
    "C102_of_columns",
    "C102_linear_access",
    "C102_assignment",
    "C102_rows",
    "C102_columns",
    "C102_column",
    "C102_span",
    "C102_row",
    "C102_row_part",
    "C102_to_vector",
    "C102_set_row",
    "C102_set_column",
    "C102_scalar",
    "C102_elementwise",
    "C102_join",
    "C102_shape",
    "C102_statistics_shape"
   ],
   "note": ""
  },
  {
   "property": "C103",
   "status": "partial",
   "theorems": [
    "C103_summary_refuted",
    "C103_summary_partial"
   ],
   "note": "Refuted as stated: PrintSummary prints six instead of five last values, and throws for columns of 8 to 10 or fewer than 5 values (C103_summary_refuted); what is printed of a column of any length is C103_summary_partial"
  },
  {
   "property": "C104",
   "status": "partial",
   "theorems": [
    "C104_wide_refuted",
    "C104_patches_partial",
    "C104_bands_partial",
    "C104_console_partial"
   ],
   "note": "Refuted as stated: a patch ending after 1000 s makes the row wider than the header (C104_wide_refuted); where the numbers fit their columns the tables are aligned and complete (C104_patches_partial, C104_bands_partial), and the whole verbose output is the stated lines (C104_console_partial)"
  },
  {
   "property": "C105",
   "status": "proved",
   "theorems": [
    "C105_samples",
    "C105_mean",
    "C105_channel_order",
    "C105_files"
   ],
   "note": ""
  },
  {
   "property": "C106",
   "status": "proved",
   "theorems": [
    "C106_patch",
    "C106_similarity",
    "C106_returned"
   ],
   "note": "Needs the first alignment off or leaving the recording in place, the search window reaching every frame, and pow(10,0)=1; the upper bound for whole comparisons is not claimed (rounding can push single similarities above 1, see C94)"
  },
  {
   "property": "C107",
   "status": "proved",
   "theorems": [
    "C107_level",
    "C107_matched"
   ],
   "note": ""
  },
  {
   "property": "C108",
   "status": "proved",
   "theorems": [
    "C108_values",
    "C108_nearly_best",
    "C108_best"
   ],
   "note": ""
  },
  {
   "property": "C109",
   "status": "proved",
   "theorems": [
    "C109_envelope",
    "C109_alignment",
    "C109_self"
   ],
   "note": ""
  },
  {
   "property": "C110",
   "status": "proved",
   "theorems": [
    "C110_formula",
    "C110_self",
    "C110_files"
   ],
   "note": ""
  },
  {
   "property": "C111",
   "status": "proved",
   "theorems": [
    "C111_same",
    "C111_scores"
   ],
   "note": ""
  },
  {
   "property": "C112",
   "status": "partial",
   "theorems": [
    "C112_durations_refuted",
    "C112_durations_partial",
    "C112_exact",
    "C112_rates",
    "C112_shown"
   ],
   "note": "Refuted as stated: recordings of 32002 and 16002 samples at 16000 Hz differ by exactly one second and are warned about (C112_durations_refuted). For equal rates and durations that do not differ by exactly one second the warning is right in binary64 (C112_durations_partial), without rounding always (C112_exact), the warnings about the rate are right in any arithmetic (C112_rates), and the durations shown are those of the reference and the degraded recording (C112_shown)"
  },
  {
   "property": "C113",
   "status": "partial",
   "theorems": [
    "C113_empty_refuted",
    "C113_quiet_partial",
    "C113_files_partial",
    "C113_missing",
    "C113_fewer",
    "C113_error",
    "C113_loaded",
    "C113_dropped"
   ],
   "note": "Refuted as stated (C113_empty_refuted): a file with two channels and one sample is loaded as an empty recording without any message. C113_quiet_partial, C113_files_partial, C113_missing, C113_fewer, C113_error, C113_loaded and C113_dropped prove the other parts."
  },
  {
   "property": "C114",
   "status": "proved",
   "theorems": [
    "C114_band",
    "C114_level",
    "C114_spectrogram"
   ],
   "note": "C114_band for the four stages, C114_level for the root mean square, C114_spectrogram for every entry; the exact filter is the same model over the reals with the values of the computed coefficients (how these follow from the elementary functions is C101)."
  },
  {
   "property": "C115",
   "status": "proved",
   "theorems": [
    "C115_filters",
    "C115_error",
    "C115_spectrogram"
   ],
   "note": "C115_filters for all sample rates, C115_error up to 48 kHz, C115_spectrogram for every entry of a spectrogram of a manager; accurate is the predicate of C101 and correctly rounded functions have it. The exact filter has the values of the computed coefficients."
  },
  {
   "property": "C116",
   "status": "proved",
   "theorems": [
    "C116_rounding",
    "C116_levels",
    "C116_spectrograms",
    "C116_audible"
   ],
   "note": ""
  },
  {
   "property": "C117",
   "status": "proved",
   "theorems": [
    "C117_recordings",
    "C117_without_overflow"
   ],
   "note": ""
  },
  {
   "property": "C118",
   "status": "proved",
   "theorems": [
    "C118_variance",
    "C118_deviations"
   ],
   "note": ""
  },
  {
   "property": "C119",
   "status": "partial",
   "theorems": [
    "C119_above_refuted",
    "C119_exact",
    "C119_near_partial"
   ],
   "note": "Refuted as stated (C119_above_refuted): the summary of a patch whose 21 bands all have the similarity 0.8 reports a similarity above 0.8. Without rounding it holds for every comparison (C119_exact), and in binary64 the range is left by less than a billionth (C119_near_partial)."
  }
 ]
}