(** Spec: the batch file format, the results file, and what a session of the program is expected to do. *)
From Coq Require Import ZArith List Bool Ascii String.
From Coq Require DecimalString.
From Verif Require Import Base.Res Base.Num Model.Mappers Model.Manager Model.Cli.
Import ListNotations.
Open Scope string_scope.

Definition free_of (c : ascii) (s : string) : Prop := ~ In c (list_ascii_of_string s).
Definition char_nl : ascii := "010"%char.
Definition char_cr : ascii := "013"%char.
Definition char_comma : ascii := ","%char.

(** *** the command line: the model used, and the files that must exist *)
Definition default_model_of (cwd : string) (f : flags) : string :=
  cwd ++ (if fl_speech f
          then "/model/lattice_tcditugenmeetpackhref_ls2_nl60_lr12_bs2048_learn.005_ep2400_train1_7_raw.tflite"
          else "/model/libsvm_nu_svr_model.txt").
Definition model_of (cwd : string) (f : flags) : string :=
  if String.eqb (fl_model f) "" then default_model_of cwd f else fl_model f.
Definition required (cwd : string) (f : flags) : list string :=
  app (if String.eqb (fl_batch f) "" then [fl_ref f; fl_deg f] else [fl_batch f])
      (if String.eqb (fl_model f) "" then [default_model_of cwd f] else if fl_speech f then [] else [fl_model f]).

(** *** the batch file *)
Inductive ending := LF | CRLF.
Definition eol (e : ending) : string :=
  match e with LF => String char_nl "" | CRLF => String char_cr (String char_nl "") end.
Definition pair_line (p : string * string) : string := fst p ++ "," ++ snd p.
Definition batch_text (e : ending) (final : bool) (header : string) (pairs : list (string * string)) : string :=
  String.concat (eol e) (header :: map pair_line pairs) ++ (if final then eol e else "").
Definition clean_path (s : string) : Prop := free_of char_nl s /\ free_of char_cr s /\ free_of char_comma s.
Definition clean_pair (p : string * string) : Prop := clean_path (fst p) /\ clean_path (snd p) /\ snd p <> "".

(** lines of a text: what the line feeds separate, without an empty last one *)
Fixpoint split_at (c : ascii) (s : string) : list string :=
  match s with
  | EmptyString => [EmptyString]
  | String a t =>
      if Ascii.eqb a c then "" :: split_at c t
      else match split_at c t with [] => [] | h :: r => String a h :: r end
  end.
Definition text_lines (s : string) : list string :=
  match rev (split_at char_nl s) with EmptyString :: t => rev t | l => rev l end.
(** the line without one carriage return at its end *)
Definition without_cr (l : string) : string :=
  match rev (list_ascii_of_string l) with
  | c :: t => if Ascii.eqb c char_cr then string_of_list_ascii (rev t) else l
  | [] => l
  end.
(** a line that names two files: its first comma is not its last character *)
Definition names_two (l : string) : Prop :=
  exists r rest, free_of char_comma r /\ rest <> "" /\ without_cr l = r ++ "," ++ rest.

(** *** the results file *)
Section Results.
  Context {T : Type} {N : Num T}.

  (** all five vectors have [n] entries *)
  Definition has_bands (n : nat) (m : sim_msg T) : Prop :=
    List.length (ms_fvnsim m) = n /\ List.length (ms_fvnsim10 m) = n /\ List.length (ms_fstdnsim m) = n /\
    List.length (ms_fvdegenergy m) = n /\ List.length (ms_cfb m) = n.
  Definition numbered (base : string) (n : nat) : list string :=
    map (fun i => base ++ DecimalString.NilZero.string_of_uint (Nat.to_uint i)) (seq 0 n).
  Definition column_names (n n10 nsd ne : nat) : list string :=
    ["reference"; "degraded"; "moslqo"] ++ numbered "fvnsim" n ++ numbered "fvnsim10_" n10 ++ numbered "fstdnsim" nsd
      ++ numbered "fvdegenergy" ne.
  Definition columns_for (m : sim_msg T) : list string :=
    column_names (List.length (ms_fvnsim m)) (List.length (ms_fvnsim10 m)) (List.length (ms_fstdnsim m))
                 (List.length (ms_fvdegenergy m)).
  Definition columns (F : formats T) (m : sim_msg T) : list string :=
    [ms_ref_path m; ms_deg_path m; fm_general F 9 (ms_moslqo m)] ++
    map (fm_general F 9) (ms_fvnsim m ++ ms_fvnsim10 m ++ ms_fstdnsim m ++ ms_fvdegenergy m).
  Definition line (cols : list string) : string := String.concat "," cols ++ String char_nl "".

  (** the results file after some results: a header only if there was no file *)
  Definition results_file (F : formats T) (before : option string) (ms : list (sim_msg T)) : option string :=
    match ms with
    | [] => before
    | m0 :: _ => Some ((match before with Some s => s | None => line (columns_for m0) end)
                         ++ String.concat "" (map (fun m => line (columns F m)) ms))
    end.
  (** a text that holds neither a comma nor a line feed *)
  Definition plain_text (s : string) : Prop := free_of char_comma s /\ free_of char_nl s.
  (** what printing a result in full needs *)
  Definition printable (verbose : bool) (m : sim_msg T) : Prop :=
    verbose = true -> (List.length (ms_fvnsim m) <= List.length (ms_fvnsim10 m))%nat /\ (List.length (ms_fvnsim m) <= List.length (ms_cfb m))%nat.
  (** the console shows the results one after the other *)
  Definition prints (F : formats T) (a : cli_args) (ms : list (sim_msg T)) (out : string) : Prop :=
    exists ts, Forall2 (fun m t => console F (ca_verbose a) (ca_speech a) (ca_lattice a) m = Ret t) ms ts /\ out = String.concat "" ts.
  (** the debug file: the JSON texts one after the other *)
  Definition debug_file (F : formats T) (before : option string) (ms : list (sim_msg T)) : option string :=
    match flat_map (fun m => match fm_json F m with Some s => [s] | None => [] end) ms with
    | [] => before
    | ts => Some ((match before with Some s => s | None => "" end) ++ String.concat "" ts)
    end.
End Results.

(** *** sessions *)
Section Sessions.
  Context {T : Type} {N : Num T} {L : Libm T}.

  (** the outcomes of comparing the pairs one by one, each with the object as it was initialised *)
  Definition outcomes (w : world T) (m : manager T) (pairs : list (string * string)) : list (res (sim_msg T)) :=
    map (fun p => snd (run_files w m (fst p) (snd p))) pairs.
  Definition successes (l : list (res (sim_msg T))) : list (sim_msg T) :=
    flat_map (fun r => match r with Ret x => [x] | _ => [] end) l.
  Definition survives (r : res (sim_msg T)) : Prop := r <> Throw /\ r <> Ub.

  (** the manager a command line asks for *)
  Definition init_of (w : world T) (a : cli_args) : manager T * option code :=
    init w manager_new (MkInit (ca_model a) (ca_speech a) (ca_unscaled a) (ca_radius a) (ca_lattice a)
                               (ca_no_global a) (ca_no_realign a)).
  (** the results of one execution of the program *)
  Definition session_results (w : world T) (exists_ : string -> res bool) (content : string -> option string)
             (f : flags) : list (sim_msg T) :=
    match parse exists_ (w_cwd w) f with
    | Ret a =>
        match build_file_pair_paths exists_ content a, init_of w a with
        | Ret pairs, (m, None) => successes (outcomes w m pairs)
        | _, _ => []
        end
    | _ => []
    end.
  (** executions one after the other, in one mode and on one results file; the list collects their results *)
  Inductive sessions (F : formats T) (speech : bool) (path : string) : files -> list (sim_msg T) -> files -> Prop :=
  | se_none fs : sessions F speech path fs [] fs
  | se_run fs ms fs1 w exists_ content f status fs2 out :
      sessions F speech path fs ms fs1 -> fl_speech f = speech -> fl_results f = path -> fl_debug f <> path ->
      main_ F w exists_ content f fs1 = Ret (status, fs2, out) ->
      sessions F speech path fs (ms ++ session_results w exists_ content f) fs2.
End Sessions.

(** *** writers at work *)
Section Writers.
  Context {T : Type} {N : Num T}.
  (** any number of writers on one file under a schedule: the numbers of those that take the next step *)
  Fixpoint update_nth {A} (l : list A) (i : nat) (x : A) : list A :=
    match l, i with [], _ => [] | _ :: t, O => x :: t | a :: t, S i => a :: update_nth t i x end.
  Fixpoint schedule (F : formats T) (path : string) (fs : files) (ws : list (writer T)) (s : list nat) : files * list (writer T) :=
    match s with
    | [] => (fs, ws)
    | i :: t =>
        match nth_error ws i with
        | None => schedule F path fs ws t
        | Some w => let '(fs', w') := writer_step F path fs w in schedule F path fs' (update_nth ws i w') t
        end
    end.
  Definition finished (w : writer T) : Prop := w = WWrite "".
  (** [b] is [a] with letters of other texts in between *)
  Inductive subsequence : string -> string -> Prop :=
  | sub_nil : subsequence "" ""
  | sub_skip c a b : subsequence a b -> subsequence a (String c b)
  | sub_keep c a b : subsequence a b -> subsequence (String c a) (String c b).
End Writers.
