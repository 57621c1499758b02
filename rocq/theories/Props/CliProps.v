(** Properties C52-C58, C71, C72: the command line, batch files, the results file and the main program. *)
From Coq Require Import ZArith List Bool Ascii String Lia Floats.
From Verif Require Import Base.Res Base.Num Base.NumF Base.Lists Model.Visqol Model.FilterBank Model.Mappers Model.Manager Model.Cli Spec.ManagerSpec Spec.ApiSpec Spec.CliSpec
  Proofs.WavLoadP Proofs.CliP Proofs.CliRunP Proofs.CliFileP Proofs.CliWriterP Proofs.ToyRunP Proofs.CliCasesP Model.Wav.
Import ListNotations.
Open Scope string_scope.

(** C52: a batch file in either form is read back as the pairs it was written from. *)
Theorem C52_batch_round_trip e final header pairs : free_of char_nl header -> Forall clean_pair pairs ->
  read_files_to_compare (Some (batch_text e final header pairs)) = Ret pairs.
Proof. exact (batch_round_trip e final header pairs). Qed.
Print Assumptions C52_batch_round_trip.
Example C52_nontrivial :
  batch_text CRLF false "reference,degraded" [("a b.wav", "c.wav"); ("", "d")] =
    "reference,degraded" ++ String char_cr (String char_nl ("a b.wav,c.wav" ++ String char_cr (String char_nl ",d"))) /\
  read_files_to_compare (Some (batch_text CRLF false "reference,degraded" [("a b.wav", "c.wav"); ("", "d")])) = Ret [("a b.wav", "c.wav"); ("", "d")].
Proof. split; reflexivity. Qed.

(** C53 is false: a blank line or a line with one column is enough. *)
Theorem C53_no_ub_refuted :
  read_files_to_compare (Some ("reference,degraded" ++ String char_nl ("a.wav,b.wav" ++ String char_nl (String char_nl "")))) = Ub /\
  read_files_to_compare (Some ("reference,degraded" ++ String char_nl "a.wav")) = Ub.
Proof. exact (conj eq_refl eq_refl). Qed.
Print Assumptions C53_no_ub_refuted.

(** C53: what is required of the file.  Reading it succeeds when each line after the first names two files, and is
    undefined otherwise. *)
Theorem C53_defined_when_two_columns_partial s :
  ((exists ps, read_files_to_compare (Some s) = Ret ps) <-> Forall names_two (tl (text_lines s))) /\
  (~ Forall names_two (tl (text_lines s)) -> read_files_to_compare (Some s) = Ub).
Proof. exact (conj (read_defined s) (read_undefined s)). Qed.
Print Assumptions C53_defined_when_two_columns_partial.
Example C53_nontrivial :
  Forall names_two (tl (text_lines ("h" ++ String char_nl "a,b,c"))) /\ ~ Forall names_two (tl (text_lines ("h" ++ String char_nl "a,"))).
Proof.
  split.
  - repeat constructor. exists "a", "b,c". repeat split; [|discriminate]. intros [Q|[]]. discriminate.
  - intros Q. apply read_defined in Q. destruct Q as [ps Q]. discriminate.
Qed.

Section Main.
  Context {T : Type} {N : Num T} {L : Libm T}.

  (** C54: if no comparison ends with an exception or undefined behaviour, every pair is compared as if it were the only
      one; the files hold the results of the successful ones in order, and the exit status is 0. *)
  Theorem C54_isolated_and_ordered_partial (F : formats T) w exists_ content f fs a pairs m :
    parse exists_ (w_cwd w) f = Ret a -> build_file_pair_paths exists_ content a = Ret pairs -> init_of w a = (m, None) ->
    Forall survives (outcomes w m pairs) -> Forall (printable (ca_verbose a)) (successes (outcomes w m pairs)) ->
    exists fs' out, main_ F w exists_ content f fs = Ret (0%Z, fs', out) /\
      (ca_results a <> "" -> ca_results a <> ca_debug a -> fm_open F (ca_results a) = true ->
         fs' (ca_results a) = results_file F (fs (ca_results a)) (successes (outcomes w m pairs))) /\
      (ca_debug a <> "" -> ca_debug a <> ca_results a -> fm_open F (ca_debug a) = true ->
         fs' (ca_debug a) = debug_file F (fs (ca_debug a)) (successes (outcomes w m pairs))) /\
      (forall q, q <> ca_results a -> q <> ca_debug a -> fs' q = fs q) /\
      prints F a (successes (outcomes w m pairs)) out.
  Proof. exact (main_batch F w exists_ content f fs a pairs m). Qed.

  (** C54: the result of a pair carries the two paths of that pair, the reference as the reference. *)
  Theorem C54_paths w (m : manager T) pairs i r d x : nth_error pairs i = Some (r, d) -> nth_error (outcomes w m pairs) i = Some (Ret x) ->
    ms_ref_path x = r /\ ms_deg_path x = d.
  Proof. exact (outcome_paths w m pairs i r d x). Qed.

  (** C54: a failed start writes nothing and exits with a status other than 0. *)
  Theorem C54_failed_start (F : formats T) w exists_ content f fs :
    (forall c, parse exists_ (w_cwd w) f = Err c -> main_ F w exists_ content f fs = Ret ((-1)%Z, fs, "")) /\
    (forall a pairs m c, parse exists_ (w_cwd w) f = Ret a -> build_file_pair_paths exists_ content a = Ret pairs -> init_of w a = (m, Some c) ->
       main_ F w exists_ content f fs = Ret ((-1)%Z, fs, "")).
  Proof. exact (conj (main_parse_fails F w exists_ content f fs) (main_init_fails F w exists_ content f fs)). Qed.

  (** C54 is false when a comparison throws or a WAV file is malformed: there is no outcome for the other pairs. *)
  Theorem C54_exception_refuted (F : formats T) w exists_ content f fs a before r d after m :
    parse exists_ (w_cwd w) f = Ret a -> build_file_pair_paths exists_ content a = Ret (before ++ (r, d) :: after)%list ->
    init_of w a = (m, None) -> Forall survives (outcomes w m before) ->
    Forall (printable (ca_verbose a)) (successes (outcomes w m before)) -> snd (run_files w m r d) = Throw ->
    main_ F w exists_ content f fs = Throw.
  Proof. exact (main_dies F w exists_ content f fs a before r d after m). Qed.
  Theorem C54_malformed_file_refuted (F : formats T) w exists_ content f fs a before r d after m b :
    parse exists_ (w_cwd w) f = Ret a -> build_file_pair_paths exists_ content a = Ret (before ++ (r, d) :: after)%list ->
    init_of w a = (m, None) -> Forall survives (outcomes w m before) ->
    Forall (printable (ca_verbose a)) (successes (outcomes w m before)) ->
    parse_header b = None -> (w_file w r = Some b \/ w_file w d = Some b) ->
    main_ F w exists_ content f fs = Ub.
  Proof. exact (main_malformed F w exists_ content f fs a before r d after m b). Qed.

  (** C55: any number of executions in one mode on one results file: a header if there was no file, then one line for
      each result in order. *)
  Theorem C55_one_header_one_line_per_result (F : formats T) speech path fs ms fs' : path <> "" -> fm_open F path = true ->
    sessions F speech path fs ms fs' -> fs' path = results_file F (fs path) ms.
  Proof. exact (sessions_results F speech path fs ms fs'). Qed.
  (** C55: what was in the file stays. *)
  Theorem C55_content_kept (F : formats T) before (ms : list (sim_msg T)) s : before = Some s ->
    exists t, results_file F before ms = Some (s ++ t).
  Proof. exact (results_keep F before ms s). Qed.
  (** C55: in one mode all results have the same columns (hence the header fits all lines). *)
  Theorem C55_same_columns w (m : manager T) ref deg m' deg' msg : reachable m ->
    (Z.of_nat (List.length (au_data ref)) + 1 < 2 ^ 31)%Z -> (Z.of_nat (List.length (au_data deg')) + 1 < 2 ^ 31)%Z ->
    run w m ref deg = (m', deg', Ret msg) -> has_bands (if st_speech (mg_settings m) then 21 else 32) msg.
  Proof. exact (run_bands w m ref deg m' deg' msg). Qed.

  (** C56: a crash after any number of steps of the write leaves the earlier content followed by a prefix of the new
      text; if the file had been opened, a later run appends its line there, without a header. *)
  Theorem C56_crash_keeps_earlier_rows (F : formats T) path k m m2 fs : fm_open F path = true ->
    exists fs' w pre post, schedule F path fs [WCheck m] (repeat 0%nat k) = (fs', [w]) /\
      (match fs path with Some _ => "" | None => line (columns_for m) end) ++ line (columns F m) = pre ++ post /\
      (forall q, q <> path -> fs' q = fs q) /\
      ((fs' path = fs path /\ (k <= 1)%nat) \/
       (fs' path = Some (content_of fs path ++ pre) /\ write_csv F fs' path m2 path = Some (content_of fs path ++ pre ++ line (columns F m2)))).
  Proof. exact (crash_and_after F path k m m2 fs). Qed.
  (** C56, the debug file. *)
  Theorem C56_crash_keeps_debug_text (F : formats T) path k t fs :
    exists fs' w pre post, schedule F path fs [WOpen t] (repeat 0%nat k) = (fs', [w]) /\ t = pre ++ post /\
      (forall q, q <> path -> fs' q = fs q) /\ (k = 0%nat -> fs' path = fs path) /\
      ((1 <= k)%nat -> fs' path = Some (content_of fs path ++ pre)) /\ ((1 + String.length t <= k)%nat -> post = "" /\ w = WWrite "").
  Proof. exact (text_steps F path k t fs). Qed.
  (** C56: undisturbed, these steps are the write. *)
  Theorem C56_undisturbed (F : formats T) path fs m k : fm_open F path = true -> (2 + String.length (csv_text F fs path m) <= k)%nat ->
    fst (schedule F path fs [WCheck m] (repeat 0%nat k)) path = write_csv F fs path m path.
  Proof. exact (complete_write F path fs m k). Qed.

  (** C57: if no path and no number holds a comma or a line feed, the file splits into the header and the rows, and with
      the same numbers of bands all have as many columns. *)
  Theorem C57_read_back_partial (F : formats T) (ms : list (sim_msg T)) m0 s :
    Forall (fun m => Forall plain_text (columns F m)) (m0 :: ms) -> results_file F None (m0 :: ms) = Some s ->
    map (split_at char_comma) (text_lines s) = columns_for m0 :: map (columns F) (m0 :: ms).
  Proof. exact (read_back F ms m0 s). Qed.
  Theorem C57_columns (F : formats T) n (m : sim_msg T) : has_bands n m -> List.length (columns F m) = (3 + 4 * n)%nat.
  Proof. exact (columns_bands F n m). Qed.
  (** C57 is false for paths with a comma: nothing is quoted, so the row has more columns than its header. *)
  Theorem C57_comma_in_path_refuted (F : formats T) (m : sim_msg T) : ~ free_of char_comma (ms_ref_path m) ->
    (List.length (columns_for m) < List.length (split_at char_comma (String.concat "," (columns F m))))%nat.
  Proof. exact (comma_in_path F m). Qed.

  (** C71: any number of writers on one file, in any interleaving of their checks and characters: all text arrives, and
      earlier content and other files stay. *)
  Theorem C71_nothing_lost_partial (F : formats T) path fs ms s fs' ws' : schedule F path fs (map WCheck ms) s = (fs', ws') -> Forall finished ws' ->
    exists t texts, content_of fs' path = content_of fs path ++ t /\
      Forall2 (fun m x => x = line (columns F m) \/ (fs path = None /\ x = line (columns_for m) ++ line (columns F m))) ms texts /\
      Forall (fun x => subsequence x t) texts /\ String.length t = list_sum (map String.length texts) /\
      (forall q, q <> path -> fs' q = fs q).
  Proof. exact (concurrent_done F path fs ms s fs' ws'). Qed.
  (** C71 is false: two runs that both find no file both write a header. *)
  Theorem C71_two_headers_refuted (F : formats T) path (m1 m2 : sim_msg T) fs : fs path = None -> exists s fs' ws',
    schedule F path fs [WCheck m1; WCheck m2] s = (fs', ws') /\ Forall finished ws' /\
    fs' path = Some (line (columns_for m1) ++ line (columns F m1) ++ line (columns_for m2) ++ line (columns F m2)).
  Proof. exact (two_headers F path m1 m2 fs). Qed.

  (** C72: results with the same number of bands everywhere (by [C55_same_columns] those of the program) are printed
      without reading past the end of a field. *)
  Theorem C72_console_defined (F : formats T) n verbose speech lattice (m : sim_msg T) : has_bands n m ->
    exists out, console F verbose speech lattice m = Ret out.
  Proof. exact (fun H => console_ret F verbose speech lattice m (has_bands_printable n verbose m H)). Qed.
  (** C72: without --verbose the console shows the conformance number, the mode and the score, for every result. *)
  Theorem C72_console_quiet (F : formats T) speech lattice (m : sim_msg T) :
    console F false speech lattice m =
    Ret ("ViSQOL conformance version: 333" ++ nl
         ++ (if speech then "Speech mode, " ++ (if lattice then "lattice model" else "exponential model") ++ nl
             else "Audio mode, support vector regression model" ++ nl)
         ++ "MOS-LQO:" ++ tab_ ++ tab_ ++ fm_general F 6 (ms_moslqo m) ++ nl).
  Proof. exact (console_quiet F speech lattice m). Qed.
End Main.
Print Assumptions C54_isolated_and_ordered_partial.
Print Assumptions C54_paths.
Print Assumptions C54_failed_start.
Print Assumptions C54_exception_refuted.
Print Assumptions C54_malformed_file_refuted.
Print Assumptions C55_one_header_one_line_per_result.
Print Assumptions C55_content_kept.
Print Assumptions C55_same_columns.
Print Assumptions C56_crash_keeps_earlier_rows.
Print Assumptions C56_crash_keeps_debug_text.
Print Assumptions C56_undisturbed.
Print Assumptions C57_read_back_partial.
Print Assumptions C57_columns.
Print Assumptions C57_comma_in_path_refuted.
Print Assumptions C71_nothing_lost_partial.
Print Assumptions C71_two_headers_refuted.
Print Assumptions C72_console_defined.
Print Assumptions C72_console_quiet.

(** C54, C55: a batch of one pair of small WAV files, in speech mode. *)
Example C54_nontrivial (fs : files) : fs "out.csv" = None -> exists fs' out x,
  main_ (L:=run_libm) cli_formats cli_world cli_exists (cli_content [("ref.wav", "deg.wav")]) cli_flags fs = Ret (0%Z, fs', out) /\
  fs' "out.csv" = Some (line (column_names 21 21 21 21) ++ line (columns cli_formats x)) /\ ms_ref_path x = "ref.wav".
Proof. exact (good_session fs). Qed.
(** C54, refuted: with a pair of too short files before it there is no result file at all. *)
Theorem C54_short_file_ends_batch_refuted (fs : files) :
  main_ (L:=run_libm) cli_formats cli_world cli_exists (cli_content [("short.wav", "short.wav"); ("ref.wav", "deg.wav")]) cli_flags fs = Throw.
Proof. exact (throwing_pair fs). Qed.
Print Assumptions C54_short_file_ends_batch_refuted.
Theorem C54_empty_file_ends_batch_refuted (fs : files) :
  main_ (L:=run_libm) cli_formats cli_world cli_exists (cli_content [("ref.wav", "deg.wav"); ("ref.wav", "bad.wav"); ("ref.wav", "deg.wav")])
        cli_flags fs = Ub.
Proof. exact (malformed_batch fs). Qed.
Print Assumptions C54_empty_file_ends_batch_refuted.

(** C55: one execution and then another. *)
Example C55_nontrivial : exists fs1 fs2 ms, sessions (L:=run_libm) cli_formats true "out.csv" no_files ms fs1 /\ List.length ms = 1%nat /\
  sessions (L:=run_libm) cli_formats true "out.csv" no_files (ms ++ ms) fs2.
Proof. exact two_sessions. Qed.
(** C56: a crash in the middle of the header. *)
Example C56_nontrivial :
  fst (schedule cli_formats "out.csv" no_files [WCheck (small_msg "a" "b" 1)] (repeat 0%nat 5)) "out.csv" = Some "ref" /\
  fst (schedule cli_formats "out.csv" no_files [WCheck (small_msg "a" "b" 1)] (repeat 0%nat 2)) "out.csv" = Some "".
Proof. split; reflexivity. Qed.
(** C57: a file with one result, read back; and a path with a comma. *)
Example C57_nontrivial :
  map (split_at char_comma) (text_lines (content_of (write_csv cli_formats no_files "o" (small_msg "a" "b" 1)) "o")) =
    [["reference"; "degraded"; "moslqo"; "fvnsim0"; "fvnsim10_0"; "fstdnsim0"; "fvdegenergy0"];
     ["a"; "b"; "1.5"; "1.5"; "1.5"; "1.5"; "1.5"]] /\
  List.length (split_at char_comma (String.concat "," (columns cli_formats (small_msg "a,b" "c" 1)))) = 8%nat.
Proof. split; reflexivity. Qed.
(** C57 is false as well when one file collects results of both modes: 87 columns and then 131. *)
Theorem C57_mixed_modes_refuted :
  results_file cli_formats None [small_msg "a" "b" 21; small_msg "c" "d" 32] =
    Some (line (columns_for (small_msg "a" "b" 21)) ++ line (columns cli_formats (small_msg "a" "b" 21)) ++ line (columns cli_formats (small_msg "c" "d" 32))) /\
  Forall plain_text (columns cli_formats (small_msg "c" "d" 32)) /\
  List.length (columns_for (small_msg "a" "b" 21)) = 87%nat /\
  List.length (split_at char_comma (String.concat "," (columns cli_formats (small_msg "c" "d" 32)))) = 131%nat.
Proof. exact mixed_modes. Qed.
Print Assumptions C57_mixed_modes_refuted.
Example C71_nontrivial : exists fs ws,
  schedule cli_formats "o" no_files [WCheck (small_msg "a" "b" 1); WCheck (small_msg "c" "d" 1)] (repeat 0%nat 300 ++ repeat 1%nat 300) = (fs, ws) /\
  Forall finished ws /\ List.length (text_lines (content_of fs "o")) = 3%nat.
Proof. eexists. eexists. split; [reflexivity|]. split; [repeat constructor|reflexivity]. Qed.
Example C72_nontrivial : has_bands 3 (small_msg "a" "b" 3) /\ exists out, console cli_formats true true true (small_msg "a" "b" 3) = Ret out /\ String.length out = 710%nat.
Proof. split; [repeat split|]. eexists. split; reflexivity. Qed.

(** C58: with an existence check that gives an answer, the files named in [required] decide, and these are the arguments. *)
Theorem C58_required_files (ex : string -> bool) cwd f :
  parse (fun p => Ret (ex p)) cwd f =
  if forallb ex (required cwd f)
  then Ret (MkArgs (if String.eqb (fl_batch f) "" then fl_ref f else "") (if String.eqb (fl_batch f) "" then fl_deg f else "") (model_of cwd f)
              (fl_results f) (fl_batch f) (fl_debug f) (fl_verbose f) (fl_speech f) (fl_unscaled f) (fl_radius f) (fl_lattice f)
              (fl_no_global f) (fl_no_realign f))
  else Err InvalidArgument.
Proof. exact (parse_total ex cwd f). Qed.
Print Assumptions C58_required_files.
(** C58: a batch file makes the flags for one pair irrelevant. *)
Theorem C58_batch_overrides exists_ cwd f r d : fl_batch f <> "" ->
  parse exists_ cwd (MkFlags r d (fl_batch f) (fl_results f) (fl_debug f) (fl_model f) (fl_verbose f) (fl_speech f) (fl_lattice f)
    (fl_unscaled f) (fl_radius f) (fl_no_global f) (fl_no_realign f)) = parse exists_ cwd f.
Proof. exact (parse_batch_flags exists_ cwd f r d). Qed.
Print Assumptions C58_batch_overrides.
(** C58: without a batch file one pair is compared if both its files are (still) there when the list of pairs is made. *)
Theorem C58_one_pair (ex later : string -> bool) content cwd f a : fl_batch f = "" -> parse (fun p => Ret (ex p)) cwd f = Ret a ->
  build_file_pair_paths (fun p => Ret (later p)) content a =
  Ret (if later (fl_ref f) && later (fl_deg f) then [(fl_ref f, fl_deg f)] else []).
Proof. exact (one_pair ex later content cwd f a). Qed.
Print Assumptions C58_one_pair.
(** C58: an existence check that throws ends the parsing with that exception or not at all. *)
Theorem C58_no_other_outcome exists_ cwd f : (forall p, exists_ p = Throw \/ exists b, exists_ p = Ret b) ->
  parse exists_ cwd f = Throw \/ parse exists_ cwd f = Err InvalidArgument \/ exists a, parse exists_ cwd f = Ret a.
Proof. exact (parse_cases exists_ cwd f). Qed.
Print Assumptions C58_no_other_outcome.
Example C58_nontrivial :
  required "/w" (MkFlags "r" "d" "" "" "" "m" false true false false 60 false false) = ["r"; "d"] /\
  required "/w" (MkFlags "r" "d" "" "" "" "m" false false false false 60 false false) = ["r"; "d"; "m"] /\
  required "/w" (MkFlags "r" "d" "b" "" "" "" false false false false 60 false false) = ["b"; "/w/model/libsvm_nu_svr_model.txt"].
Proof. repeat split; reflexivity. Qed.
