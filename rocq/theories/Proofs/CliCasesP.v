(** A small file system for the main program: one good pair, one that is too short, one unreadable file. *)
From Coq Require Import ZArith List Bool Ascii String Lia Floats.
From Verif Require Import Base.Res Base.Num Base.NumF Base.Lists Base.Mat Model.Amatrix Model.MiscMath Model.Window
  Model.FilterBank Model.Fft Model.MiscAudio Model.Wav Model.Mappers Model.Visqol Model.Manager Model.Cli Spec.WavSpec Spec.ManagerSpec Spec.ApiSpec Spec.CliSpec
  Proofs.WavLoadP Proofs.FileCasesP Proofs.ApiP Proofs.ShortP Proofs.ToyRunP Proofs.ApiCasesP Proofs.CliP Proofs.CliRunP.
Import ListNotations.
Open Scope Z_scope.

Definition tone (n : nat) (k : Z) : bytes := wav_file 1 50 [] (map (fun i => k * (Z.of_nat i * Z.of_nat i mod 7)) (seq 0 n)) [].
Definition cli_world : world PrimFloat.float :=
  MkWorld (MkPffft (fun l => l) (fun l => l) (fun x => x)) (fun _ => None) (fun _ => inl Unknown)
    (fun p => if String.eqb p "ref.wav" then Some (tone 33 1000) else if String.eqb p "deg.wav" then Some (tone 33 2000) else
              if String.eqb p "short.wav" then Some (tone 31 1) else if String.eqb p "bad.wav" then Some [] else None) "/w".
Definition cli_flags : flags :=
  MkFlags "" "" "batch.csv" "out.csv" "" "none" false true false false 0 true true.
Definition cli_exists (p : string) : res bool := Ret (String.eqb p "batch.csv").
Definition cli_content (pairs : list (string * string)) (p : string) : option string :=
  if String.eqb p "batch.csv" then Some (batch_text LF true "reference,degraded" pairs) else None.
Definition cli_formats : formats PrimFloat.float := MkFormats (fun _ _ => "1.5"%string) (fun _ _ => "1.500000"%string) (fun _ => None) (fun _ => true).
Definition cli_parsed : cli_args :=
  MkArgs "" "" "none" "out.csv" "batch.csv" "" false true false 0 false true true.

Lemma cli_parse : parse cli_exists (w_cwd cli_world) cli_flags = Ret cli_parsed.
Proof. reflexivity. Qed.
Lemma cli_pairs pairs : Forall clean_pair pairs -> build_file_pair_paths cli_exists (cli_content pairs) cli_parsed = Ret pairs.
Proof. intros H. change (read_files_to_compare (Some (batch_text LF true "reference,degraded" pairs)) = Ret pairs). apply batch_round_trip; [|exact H].
  unfold free_of. cbn. intros Q. repeat (destruct Q as [Q|Q]; [discriminate|]). exact Q. Qed.
Lemma cli_init : init_of cli_world cli_parsed = (run_manager, None).
Proof. reflexivity. Qed.

Lemma good_pair : exists x, snd (run_files (L:=run_libm) cli_world run_manager "ref.wav" "deg.wav") = Ret x /\ has_bands 21 x /\
  ms_ref_path x = "ref.wav"%string /\ ms_deg_path x = "deg.wav"%string.
Proof. eexists. split; [vm_compute; reflexivity|]. repeat split. Qed.

Lemma short_load : load_file (T:=PrimFloat.float) (w_file cli_world "short.wav") =
  Ret (MkLoaded (MkMat 31 1 (map (fun i => (nofZ (Z.of_nat i * Z.of_nat i mod 7) / 32768)%float) (seq 0 31))) (Some 50)).
Proof. vm_compute. reflexivity. Qed.
Lemma short_pair (L : Libm PrimFloat.float) : snd (run_files cli_world run_manager "short.wav" "short.wav") = Throw.
Proof.
  unfold run_files. rewrite short_load. cbn [negb mg_init bind audio_of ld_sr ld_data elems].
  change (mg_init run_manager) with true. cbn [negb].
  set (ref := MkAudio _ 50).
  destruct window_50 as [W H].
  assert (Q : snd (run cli_world run_manager ref ref) = Throw).
  { eapply short_speech with (win := MkWin 4 kOverlap) (h := 1) (psl := 20) (aligned := ref) (lag := n0); try reflexivity; try assumption; try lia.
    - apply (history_reachable true). apply run_manager_history.
    - apply Nat.ltb_lt. reflexivity.
    - apply Nat.ltb_lt. reflexivity.
    - apply Nat.ltb_lt. reflexivity. }
  destruct (run cli_world run_manager ref ref) as [[m' d'] r]. cbn [snd] in *. rewrite Q. reflexivity.
Qed.
Lemma bad_file : parse_header [] = None.
Proof. reflexivity. Qed.

(** a malformed file anywhere in the list *)
Lemma main_malformed {T} {N : Num T} {L : Libm T} (F : formats T) w exists_ content f fs a before r d after (m : manager T) b :
  parse exists_ (w_cwd w) f = Ret a -> build_file_pair_paths exists_ content a = Ret (before ++ (r, d) :: after)%list -> init_of w a = (m, None) ->
  Forall survives (outcomes w m before) -> Forall (printable (ca_verbose a)) (successes (outcomes w m before)) ->
  parse_header b = None -> (w_file w r = Some b \/ w_file w d = Some b) -> main_ F w exists_ content f fs = Ub.
Proof.
  intros E1 E2 E3 S P B1 B2. unfold main_. rewrite E1, E2. cbn [bind]. unfold init_of in E3. rewrite E3.
  pose proof (init_of_history w a m E3) as H.
  assert (D : snd (run_files w m r d) = Ub) by (eapply run_files_malformed; [apply (history_init true); exact H|exact B1|exact B2]).
  rewrite (loop_dies F w a m r d after H before m fs "" (me_none m) S P), D; [reflexivity|]. rewrite D. intros [_ Q]. congruence.
Qed.

Lemma clean_good : clean_pair ("ref.wav", "deg.wav")%string.
Proof. repeat split; unfold free_of; cbn; try (intros Q; repeat (destruct Q as [Q|Q]; [discriminate|]); exact Q). discriminate. Qed.
Lemma clean_short : clean_pair ("short.wav", "short.wav")%string.
Proof. repeat split; unfold free_of; cbn; try (intros Q; repeat (destruct Q as [Q|Q]; [discriminate|]); exact Q). discriminate. Qed.
Lemma clean_bad : clean_pair ("ref.wav", "bad.wav")%string.
Proof. repeat split; unfold free_of; cbn; try (intros Q; repeat (destruct Q as [Q|Q]; [discriminate|]); exact Q). discriminate. Qed.

Lemma throwing_pair (fs : files) :
  main_ (L:=run_libm) cli_formats cli_world cli_exists (cli_content [("short.wav", "short.wav"); ("ref.wav", "deg.wav")]%string) cli_flags fs = Throw.
Proof.
  eapply main_dies with (before := []) (m := run_manager); [exact cli_parse|apply cli_pairs; repeat constructor; apply clean_short || apply clean_good|exact cli_init|constructor|constructor|].
  apply short_pair.
Qed.
Lemma good_session (fs : files) : fs "out.csv"%string = None -> exists fs' out x,
  main_ (L:=run_libm) cli_formats cli_world cli_exists (cli_content [("ref.wav", "deg.wav")]%string) cli_flags fs = Ret (0, fs', out) /\
  fs' "out.csv"%string = Some (append (line (column_names 21 21 21 21)) (line (columns cli_formats x))) /\ ms_ref_path x = "ref.wav"%string.
Proof.
  intros H. destruct good_pair as (x & E & B & R & _).
  assert (O : outcomes (L:=run_libm) cli_world run_manager [("ref.wav", "deg.wav")]%string = [Ret x]) by (unfold outcomes; cbn [map fst snd]; now rewrite E).
  edestruct (main_batch (L:=run_libm) cli_formats cli_world cli_exists (cli_content [("ref.wav", "deg.wav")]%string) cli_flags fs cli_parsed _ run_manager
    cli_parse (cli_pairs _ (Forall_cons _ clean_good (Forall_nil _))) cli_init) as (fs' & out & EM & E1 & _).
  - rewrite O. constructor; [split; discriminate|constructor].
  - rewrite O. constructor; [intros Q; discriminate|constructor].
  - exists fs', out, x. split; [exact EM|]. split; [|exact R]. specialize (E1 ltac:(discriminate) ltac:(discriminate) eq_refl). rewrite O in E1.
    cbn [ca_results cli_parsed] in E1. rewrite E1, H. cbn [successes flat_map app results_file map String.concat].
    rewrite (columns_for_bands 21 x B). reflexivity.
Qed.

(** *** two results for the file examples *)
Definition small_msg (r d : string) (n : nat) : sim_msg PrimFloat.float :=
  MkMsg 4%float 1%float (repeat 1%float n) (repeat 1%float n) (repeat 0%float n) (repeat 100%float n) (repeat 2%float n) [] r d 0%float.
Definition no_files : files := fun _ => None.

Lemma mixed_modes :
  results_file cli_formats None [small_msg "a" "b" 21; small_msg "c" "d" 32] =
    Some (append (line (columns_for (small_msg "a" "b" 21)))
            (append (line (columns cli_formats (small_msg "a" "b" 21))) (line (columns cli_formats (small_msg "c" "d" 32))))) /\
  Forall plain_text (columns cli_formats (small_msg "c" "d" 32)) /\
  List.length (columns_for (small_msg "a" "b" 21)) = 87%nat /\
  List.length (split_at char_comma (String.concat "," (columns cli_formats (small_msg "c" "d" 32)))) = 131%nat.
Proof.
  split; [unfold results_file; cbn [map String.concat]; reflexivity|]. split; [|split; vm_compute; reflexivity].
  unfold columns, plain_text. cbn. repeat constructor; unfold free_of; cbn; intros Q; repeat (destruct Q as [Q|Q]; [discriminate|]); exact Q.
Qed.
Lemma malformed_batch (fs : files) :
  main_ (L:=run_libm) cli_formats cli_world cli_exists (cli_content [("ref.wav", "deg.wav"); ("ref.wav", "bad.wav"); ("ref.wav", "deg.wav")]%string) cli_flags fs = Ub.
Proof.
  destruct good_pair as (x & E & B & _).
  assert (O : outcomes (L:=run_libm) cli_world run_manager [("ref.wav", "deg.wav")]%string = [Ret x]) by (unfold outcomes; cbn [map fst snd]; now rewrite E).
  refine (main_malformed (L:=run_libm) cli_formats cli_world cli_exists _ cli_flags fs cli_parsed [("ref.wav", "deg.wav")]%string "ref.wav" "bad.wav"
    [("ref.wav", "deg.wav")]%string run_manager [] cli_parse (cli_pairs _ _) cli_init _ _ bad_file (or_intror eq_refl)); [|rewrite O|rewrite O].
  - exact (Forall_cons _ clean_good (Forall_cons _ clean_bad (Forall_cons _ clean_good (Forall_nil _)))).
  - constructor; [split; discriminate|constructor].
  - constructor; [intros Q; discriminate|constructor].
Qed.
Lemma two_sessions : exists fs1 fs2 ms, sessions (L:=run_libm) cli_formats true "out.csv" no_files ms fs1 /\ List.length ms = 1%nat /\
  sessions (L:=run_libm) cli_formats true "out.csv" no_files (ms ++ ms) fs2.
Proof.
  assert (D : fl_debug cli_flags <> "out.csv"%string) by discriminate.
  destruct (good_session no_files eq_refl) as (fs1 & o1 & x & E1 & _).
  destruct good_pair as (y & E & B & _).
  assert (O : outcomes (L:=run_libm) cli_world run_manager [("ref.wav", "deg.wav")]%string = [Ret y]) by (unfold outcomes; cbn [map fst snd]; now rewrite E).
  edestruct (main_batch (L:=run_libm) cli_formats cli_world cli_exists (cli_content [("ref.wav", "deg.wav")]%string) cli_flags fs1 cli_parsed _ run_manager
    cli_parse (cli_pairs _ (Forall_cons _ clean_good (Forall_nil _))) cli_init) as (fs2 & o2 & E2 & _);
    [rewrite O; constructor; [split; discriminate|constructor]|rewrite O; constructor; [intros Q; discriminate|constructor]|].
  assert (S : session_results (L:=run_libm) cli_world cli_exists (cli_content [("ref.wav", "deg.wav")]%string) cli_flags = [y]).
  { unfold session_results. rewrite cli_parse. rewrite (cli_pairs _ (Forall_cons _ clean_good (Forall_nil _))), cli_init, O. reflexivity. }
  pose proof (se_run (L:=run_libm) cli_formats true "out.csv"%string no_files [] no_files cli_world cli_exists (cli_content [("ref.wav", "deg.wav")]%string) cli_flags 0 fs1 o1 (se_none _ _ _ _) eq_refl eq_refl D E1) as S1.
  rewrite S in S1. cbn [app] in S1.
  pose proof (se_run (L:=run_libm) cli_formats true "out.csv"%string no_files [y] fs1 cli_world cli_exists (cli_content [("ref.wav", "deg.wav")]%string) cli_flags 0 fs2 o2 S1 eq_refl eq_refl D E2) as S2.
  rewrite S in S2. exists fs1, fs2, [y]. split; [exact S1|]. split; [reflexivity|]. exact S2.
Qed.
