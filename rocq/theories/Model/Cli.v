(** Model of src/commandline_parser.cc, src/include/sim_results_writer.h and src/main.cc. *)
From Coq Require Import ZArith List Bool Ascii String.
From Verif Require Import Base.Res Base.Num Base.Lists Model.Nsim Model.Mappers Model.Wav Model.Manager.
Import ListNotations.
Open Scope string_scope.

(** *** commandline_parser.cc *)

(** the flags, commandline_parser.cc:32-90 *)
Record flags := MkFlags {
  fl_ref : string; fl_deg : string; fl_batch : string; fl_results : string; fl_debug : string;
  fl_model : string; fl_verbose : bool; fl_speech : bool; fl_lattice : bool; fl_unscaled : bool;
  fl_radius : Z; fl_no_global : bool; fl_no_realign : bool }.

(** CommandLineArgs, commandline_parser.h:29-80 *)
Record cli_args := MkArgs {
  ca_ref : string; ca_deg : string; ca_model : string; ca_results : string; ca_batch : string;
  ca_debug : string; ca_verbose : bool; ca_speech : bool; ca_unscaled : bool; ca_radius : Z;
  ca_lattice : bool; ca_no_global : bool; ca_no_realign : bool }.

Definition is_empty (s : string) : bool := match s with EmptyString => true | _ => false end.

(** commandline_parser.cc:100-187 Parse, after absl::ParseCommandLine has filled in the flags.
    [exists_] is FilePath::Exists (std::filesystem::exists, which throws when the path cannot be examined), [cwd] the
    current directory.  The flags are checked one after the other, all of them (the operator is |=). *)
Definition parse (exists_ : string -> res bool) (cwd : string) (f : flags) : res cli_args :=
  let batch := negb (is_empty (fl_batch f)) in
  let ref := if batch then "" else fl_ref f in
  let deg := if batch then "" else fl_deg f in
  do error <- (if batch then do b <- exists_ (fl_batch f); Ret (negb b)
               else do b <- exists_ (fl_ref f); do c <- exists_ (fl_deg f); Ret (negb b || negb c));
  do error <- (if negb (is_empty (fl_model f)) && negb (fl_speech f)
               then do b <- exists_ (fl_model f); Ret (error || negb b) else Ret error);
  if error : bool then Err InvalidArgument
  else
    let default := append cwd (if fl_speech f then kDefaultSpeechModelFile else kDefaultAudioModelFile) in
    do missing <- (if is_empty (fl_model f) && negb (is_empty default)
                   then do b <- exists_ default; Ret (negb b) else Ret false);
    if missing : bool then Err InvalidArgument
    else
      Ret (MkArgs ref deg (if is_empty (fl_model f) then default else fl_model f) (fl_results f)
                  (fl_batch f) (fl_debug f) (fl_verbose f) (fl_speech f) (fl_unscaled f) (fl_radius f)
                  (fl_lattice f) (fl_no_global f) (fl_no_realign f)).

(** std::getline until it fails: the pieces ended by [c]; an empty rest after the last delimiter is
    not a piece *)
Fixpoint getlines_from (c : ascii) (cur : string) (s : string) : list string :=
  match s with
  | EmptyString => match cur with EmptyString => [] | _ => [cur] end
  | String a t =>
      if Ascii.eqb a c then cur :: getlines_from c "" t
      else getlines_from c (cur ++ String a "") t
  end.
Definition getlines (c : ascii) (s : string) : list string := getlines_from c "" s.

Definition newline : ascii := "010"%char.
Definition cr : ascii := "013"%char.
Definition comma : ascii := ","%char.

(** last character; None for the empty string, on which string::back() is undefined *)
Fixpoint last_char (s : string) : option ascii :=
  match s with
  | EmptyString => None
  | String a t => match t with EmptyString => Some a | _ => last_char t end
  end.
(** string::pop_back *)
Fixpoint pop_back (s : string) : string :=
  match s with
  | EmptyString => EmptyString
  | String a t => match t with EmptyString => EmptyString | _ => String a (pop_back t) end
  end.

(** commandline_parser.cc:201-212: one line of the batch file *)
Definition parse_line (line : string) : res (string * string) :=
  match last_char line with
  | None => Ub
  | Some c =>
      let line := if Ascii.eqb c cr then pop_back line else line in
      match getlines comma line with
      | r :: d :: _ => Ret (r, d)
      | _ => Ub
      end
  end.
Fixpoint parse_lines (l : list string) : res (list (string * string)) :=
  match l with
  | [] => Ret []
  | x :: t => do p <- parse_line x; do r <- parse_lines t; Ret (p :: r)
  end.

(** commandline_parser.cc:189-218 ReadFilesToCompare; [None]: the file cannot be opened *)
Definition read_files_to_compare (content : option string) : res (list (string * string)) :=
  match content with
  | None => Ret []
  | Some s => match getlines newline s with [] => Ret [] | _ :: rest => parse_lines rest end
  end.

(** commandline_parser.cc:228-239 BuildFilePairPaths *)
Definition build_file_pair_paths (exists_ : string -> res bool) (content : string -> option string)
           (a : cli_args) : res (list (string * string)) :=
  if negb (is_empty (ca_batch a)) then read_files_to_compare (content (ca_batch a))
  else
    do b <- exists_ (ca_ref a);
    do c <- (if b : bool then exists_ (ca_deg a) else Ret false);
    if c : bool then Ret [(ca_ref a, ca_deg a)] else Ret [].

(** *** sim_results_writer.h *)

(** the file system as far as the writer is concerned: contents of files by path *)
Definition files := string -> option string.
Definition content_of (fs : files) (path : string) : string := match fs path with Some s => s | None => "" end.
(** text reaching a file opened for appending (which creates it) *)
Definition file_append (fs : files) (path text : string) : files :=
  fun p => if String.eqb p path then Some (append (content_of fs path) text) else fs p.
Definition file_exists (fs : files) (path : string) : bool :=
  match fs path with Some _ => true | None => false end.
Definition nl : string := String newline "".
Definition tab_ : string := String "009" "".
Definition rule39 : string := "---------------------------------------".
Definition rule76 : string := "----------------------------------------------------------------------------".
Fixpoint spaces (n : nat) : string := match n with O => "" | S n => String " " (spaces n) end.
(** std::setw, filling on the left *)
Definition pad (w : nat) (s : string) : string := spaces (w - String.length s) ++ s.
(** conformance.h:36 *)
Definition kVisqolConformanceNumber : nat := 333.

Section Writer.
  Context {T : Type} {N : Num T}.
  (** operator<< of a double with a given precision, in the default and in the std::fixed notation; the JSON text of a
      message (None: conversion failed); whether a path can be opened for appending *)
  Record formats := MkFormats {
    fm_general : nat -> T -> string;
    fm_fixed : nat -> T -> string;
    fm_json : sim_msg T -> option string;
    fm_open : string -> bool }.
  Variable F : formats.

  (** sim_results_writer.h:102-119 FormatFVNSIM; reading a repeated field past its end is undefined *)
  Definition fvnsim_line (m : sim_msg T) (i : nat) : res string :=
    match nth_error (ms_fvnsim m) i, nth_error (ms_fvnsim10 m) i, nth_error (ms_cfb m) i with
    | Some a, Some b, Some c =>
        Ret ("| " ++ pad 8 (fm_fixed F 6 a) ++ " | " ++ pad 10 (fm_fixed F 6 b) ++ " | " ++ pad 9 (fm_fixed F 1 c)
                  ++ "Hz" ++ " |" ++ nl)
    | _, _, _ => Ub
    end.
  Definition format_fvnsim (m : sim_msg T) : res string :=
    do ls <- sequence (map (fvnsim_line m) (seq 0 (List.length (ms_fvnsim m))));
    Ret (rule39 ++ nl ++ "|  FVNSIM  |  FVNSIM10  |  Freq Band  |" ++ nl ++ rule39 ++ nl ++ String.concat "" ls
                ++ rule39 ++ nl ++ nl).
  (** sim_results_writer.h:128-170 FormatPatchSimilarity *)
  Definition patch_line (i : nat) (p : patch_msg T) : string :=
    "| " ++ pad 9 (dec_string i) ++ " | " ++ pad 10 (fm_fixed F 6 (pm_sim p))
         ++ " | " ++ pad 11 (fm_fixed F 3 (pm_ref_start p)) ++ "  - " ++ pad 7 (fm_fixed F 3 (pm_ref_end p))
         ++ " | " ++ pad 11 (fm_fixed F 3 (pm_deg_start p)) ++ "  - " ++ pad 7 (fm_fixed F 3 (pm_deg_end p)) ++ " |" ++ nl.
  Fixpoint patch_lines (i : nat) (l : list (patch_msg T)) : string :=
    match l with [] => "" | p :: t => patch_line i p ++ patch_lines (S i) t end.
  Definition format_patches (m : sim_msg T) : string :=
    rule76 ++ nl ++ "| Patch Idx | Similarity | Ref Patch: Start - End | Deg Patch: Start - End |" ++ nl
           ++ rule76 ++ nl ++ patch_lines 0 (ms_patches m) ++ rule76 ++ nl ++ nl.
  (** sim_results_writer.h:68-92 WriteToConsole *)
  Definition console (verbose speech lattice : bool) (m : sim_msg T) : res string :=
    do details <- (if verbose then do a <- format_fvnsim m; Ret (nl ++ a ++ nl ++ format_patches m ++ nl) else Ret "");
    Ret ("ViSQOL conformance version: " ++ dec_string kVisqolConformanceNumber ++ nl
         ++ (if speech then "Speech mode, " ++ (if lattice then "lattice model" else "exponential model") ++ nl
             else "Audio mode, support vector regression model" ++ nl)
         ++ (if verbose then nl ++ "Reference Filepath:" ++ tab_ ++ ms_ref_path m ++ nl
                                ++ "Degraded Filepath:" ++ tab_ ++ ms_deg_path m ++ nl else "")
         ++ "MOS-LQO:" ++ tab_ ++ tab_ ++ fm_general F 6 (ms_moslqo m) ++ nl ++ details).

  (** sim_results_writer.h:223-242: the numbered column titles *)
  Definition titles (base : string) (l : list T) : string :=
    String.concat "" (map (fun i => "," ++ base ++ dec_string i) (seq 0 (List.length l))).
  (** sim_results_writer.h:217-244 *)
  Definition csv_header (m : sim_msg T) : string :=
    "reference,degraded" ++ ",moslqo" ++ titles "fvnsim" (ms_fvnsim m) ++ titles "fvnsim10_" (ms_fvnsim10 m)
      ++ titles "fstdnsim" (ms_fstdnsim m) ++ titles "fvdegenergy" (ms_fvdegenergy m) ++ nl.
  (** sim_results_writer.h:246-272 *)
  Definition values (l : list T) : string := String.concat "" (map (fun x => "," ++ fm_general F 9 x) l).
  Definition csv_row (m : sim_msg T) : string :=
    ms_ref_path m ++ "," ++ ms_deg_path m ++ "," ++ fm_general F 9 (ms_moslqo m) ++ values (ms_fvnsim m)
      ++ values (ms_fvnsim10 m) ++ values (ms_fstdnsim m) ++ values (ms_fvdegenergy m) ++ nl.

  (** sim_results_writer.h:206-274 WriteResultsToCSV.  The check for the file, then the opening; a stream that could
      not be opened swallows the text. *)
  Definition csv_text (fs : files) (path : string) (m : sim_msg T) : string :=
    (if file_exists fs path then "" else csv_header m) ++ csv_row m.
  Definition write_csv (fs : files) (path : string) (m : sim_msg T) : files :=
    if fm_open F path then file_append fs path (csv_text fs path m) else fs.

  (** A writer at work, for crashes and concurrent runs: before the check; having decided on the text but not opened
      the file; having opened it, with the text still to come.  The characters arrive at the end of the file (the
      stream is opened with O_APPEND) in order, in any grouping. *)
  Inductive writer := WCheck (m : sim_msg T) | WOpen (text : string) | WWrite (text : string).
  Definition writer_step (path : string) (fs : files) (w : writer) : files * writer :=
    match w with
    | WCheck m => (fs, WOpen (csv_text fs path m))
    | WOpen t => (file_append fs path "", WWrite t)
    | WWrite (String c t) => (file_append fs path (String c ""), WWrite t)
    | WWrite "" => (fs, WWrite "")
    end.

  (** sim_results_writer.h:181-194 WriteDebugJSON *)
  Definition write_debug_json (fs : files) (path : string) (m : sim_msg T) : files :=
    match fm_json F m with
    | Some s => if fm_open F path then file_append fs path s else fs
    | None => fs
    end.

  (** sim_results_writer.h:46-59 Write: the files and the text on the console *)
  Definition write (a : cli_args) (fs : files) (m : sim_msg T) : res (files * string) :=
    do out <- console (ca_verbose a) (ca_speech a) (ca_lattice a) m;
    let fs := if is_empty (ca_debug a) then fs else write_debug_json fs (ca_debug a) m in
    Ret (if is_empty (ca_results a) then fs else write_csv fs (ca_results a) m, out).

  (** *** main.cc *)
  Context {L : Libm T}.

  (** main.cc:46-64: the loop over the pairs.  The files written to are not the ones read from. *)
  Fixpoint main_loop (w : world T) (a : cli_args) (m : manager T) (pairs : list (string * string)) (fs : files)
           (out : string) : res (files * string) :=
    match pairs with
    | [] => Ret (fs, out)
    | (r, d) :: t =>
        let '(m', x) := run_files w m r d in
        match x with
        | Ret msg => do q <- write a fs msg; main_loop w a m' t (fst q) (out ++ snd q)
        | Err Aborted => Ret (fs, out)
        | Err _ => main_loop w a m' t fs out
        | Throw => Throw
        | Ub => Ub
        end
    end.

  (** main.cc:22-67: exit status, files afterwards and standard output *)
  Definition main_ (w : world T) (exists_ : string -> res bool) (content : string -> option string)
             (f : flags) (fs : files) : res (Z * files * string) :=
    match parse exists_ (w_cwd w) f with
    | Ret a =>
        do pairs <- build_file_pair_paths exists_ content a;
        let '(m, status) :=
          init w manager_new (MkInit (ca_model a) (ca_speech a) (ca_unscaled a) (ca_radius a)
                                     (ca_lattice a) (ca_no_global a) (ca_no_realign a)) in
        match status with
        | Some _ => Ret ((-1)%Z, fs, "")
        | None => do q <- main_loop w a m pairs fs ""; Ret (0%Z, fst q, snd q)
        end
    | Err _ => Ret ((-1)%Z, fs, "")
    | Throw => Throw
    | Ub => Ub
    end.
End Writer.
Arguments formats : clear implicits.
Arguments writer : clear implicits.
