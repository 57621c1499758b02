(** The results files and the main program (C54-C58). *)
From Coq Require Import ZArith List Bool Ascii String Lia ZifyBool ZifyNat.
From Verif Require Import Base.Res Base.Num Base.Lists Model.Nsim Model.FilterBank Model.Mappers Model.Visqol Model.Manager Model.Cli
  Spec.ManagerSpec Spec.ApiSpec Spec.CliSpec
  Proofs.ShapeP Proofs.AggregateP Proofs.AggCasesP Proofs.CodesP Proofs.ApiP Proofs.CliP.
Import ListNotations.
Open Scope string_scope.

(** *** command line *)
Lemma is_empty_true s : is_empty s = true <-> s = "".
Proof. destruct s; cbn; split; congruence. Qed.
Lemma is_empty_false s : is_empty s = false <-> s <> "".
Proof. destruct s; cbn; split; congruence. Qed.

Lemma append_not_empty a b : b <> "" -> is_empty (a ++ b) = false.
Proof. destruct a; cbn; [|reflexivity]. apply is_empty_false. Qed.

Lemma eqb_is_empty s : String.eqb s "" = is_empty s.
Proof. destruct s; reflexivity. Qed.
Lemma parse_total (ex : string -> bool) cwd f :
  parse (fun p => Ret (ex p)) cwd f =
  if forallb ex (required cwd f)
  then Ret (MkArgs (if String.eqb (fl_batch f) "" then fl_ref f else "") (if String.eqb (fl_batch f) "" then fl_deg f else "") (model_of cwd f)
              (fl_results f) (fl_batch f) (fl_debug f) (fl_verbose f) (fl_speech f) (fl_unscaled f) (fl_radius f) (fl_lattice f)
              (fl_no_global f) (fl_no_realign f))
  else Err InvalidArgument.
Proof.
  unfold parse, required, model_of. rewrite !eqb_is_empty.
  change (cwd ++ (if fl_speech f then kDefaultSpeechModelFile else kDefaultAudioModelFile)) with (default_model_of cwd f).
  assert (D : is_empty (default_model_of cwd f) = false) by (apply append_not_empty; destruct (fl_speech f); discriminate).
  rewrite D. generalize (default_model_of cwd f). intros dm.
  destruct (is_empty (fl_batch f)), (is_empty (fl_model f)), (fl_speech f); cbn [negb andb orb bind forallb app];
    destruct (ex (fl_ref f)), (ex (fl_deg f)), (ex (fl_batch f)), (ex (fl_model f)); cbn [negb andb orb bind];
    try reflexivity; destruct (ex dm); reflexivity.
Qed.
Lemma one_pair (ex later : string -> bool) content cwd f a : fl_batch f = "" -> parse (fun p => Ret (ex p)) cwd f = Ret a ->
  build_file_pair_paths (fun p => Ret (later p)) content a =
  Ret (if later (fl_ref f) && later (fl_deg f) then [(fl_ref f, fl_deg f)] else []).
Proof.
  intros B. rewrite parse_total. destruct (forallb _ _); [|discriminate]. intros A. apply (f_equal (fun x => match x with Ret y => y | _ => a end)) in A.
  rewrite <- A. unfold build_file_pair_paths. cbn [ca_batch ca_ref ca_deg]. rewrite B. cbn [is_empty negb String.eqb bind].
  destruct (later (fl_ref f)), (later (fl_deg f)); reflexivity.
Qed.
Lemma parse_batch_flags exists_ cwd f r d : fl_batch f <> "" ->
  parse exists_ cwd (MkFlags r d (fl_batch f) (fl_results f) (fl_debug f) (fl_model f) (fl_verbose f) (fl_speech f) (fl_lattice f)
    (fl_unscaled f) (fl_radius f) (fl_no_global f) (fl_no_realign f)) = parse exists_ cwd f.
Proof. intros H. apply is_empty_false in H. unfold parse. cbn. rewrite H. reflexivity. Qed.
Lemma parse_fields exists_ cwd f a : parse exists_ cwd f = Ret a ->
  ca_results a = fl_results f /\ ca_debug a = fl_debug f /\ ca_speech a = fl_speech f /\ ca_verbose a = fl_verbose f.
Proof.
  unfold parse. intros H. apply bind_ret in H. destruct H as (e1 & _ & H). apply bind_ret in H. destruct H as (e2 & _ & H).
  destruct e2; [discriminate|]. apply bind_ret in H. destruct H as (ms & _ & H). destruct ms; [discriminate|].
  injection H as <-. repeat split.
Qed.
(** an existence check that throws *)
Lemma parse_cases exists_ cwd f : (forall p, exists_ p = Throw \/ exists b, exists_ p = Ret b) ->
  parse exists_ cwd f = Throw \/ parse exists_ cwd f = Err InvalidArgument \/ exists a, parse exists_ cwd f = Ret a.
Proof.
  intros H. unfold parse.
  destruct (negb (is_empty (fl_batch f))).
  - destruct (H (fl_batch f)) as [->|[b ->]]; [left; reflexivity|]. cbn [bind].
    destruct (_ && negb (fl_speech f)).
    + destruct (H (fl_model f)) as [->|[c ->]]; [left; reflexivity|]. cbn [bind]. destruct (negb b || negb c); [auto|].
      destruct (is_empty _ && _); cbn [bind]; [|right; right; eauto].
      destruct (H (cwd ++ (if fl_speech f then kDefaultSpeechModelFile else kDefaultAudioModelFile))) as [->|[e ->]]; [left; reflexivity|]. cbn [bind].
      destruct e; cbn; eauto.
    + cbn [bind]. destruct (negb b); [auto|].
      destruct (is_empty _ && _); cbn [bind]; [|right; right; eauto].
      destruct (H (cwd ++ (if fl_speech f then kDefaultSpeechModelFile else kDefaultAudioModelFile))) as [->|[e ->]]; [left; reflexivity|]. cbn [bind].
      destruct e; cbn; eauto.
  - destruct (H (fl_ref f)) as [->|[b ->]]; [left; reflexivity|]. cbn [bind]. destruct (H (fl_deg f)) as [->|[b' ->]]; [left; reflexivity|]. cbn [bind].
    destruct (_ && negb (fl_speech f)).
    + destruct (H (fl_model f)) as [->|[c ->]]; [left; reflexivity|]. cbn [bind]. destruct (negb b || negb b' || negb c); [auto|].
      destruct (is_empty _ && _); cbn [bind]; [|right; right; eauto].
      destruct (H (cwd ++ (if fl_speech f then kDefaultSpeechModelFile else kDefaultAudioModelFile))) as [->|[e ->]]; [left; reflexivity|]. cbn [bind].
      destruct e; cbn; eauto.
    + cbn [bind]. destruct (negb b || negb b'); [auto|].
      destruct (is_empty _ && _); cbn [bind]; [|right; right; eauto].
      destruct (H (cwd ++ (if fl_speech f then kDefaultSpeechModelFile else kDefaultAudioModelFile))) as [->|[e ->]]; [left; reflexivity|]. cbn [bind].
      destruct e; cbn; eauto.
Qed.

(** *** files *)
Lemma append_at fs p t : file_append fs p t p = Some (content_of fs p ++ t).
Proof. unfold file_append. now rewrite String.eqb_refl. Qed.
Lemma append_other fs p t q : q <> p -> file_append fs p t q = fs q.
Proof. intros H. unfold file_append. destruct (String.eqb_spec q p); [congruence|reflexivity]. Qed.
Lemma content_append fs p t : content_of (file_append fs p t) p = content_of fs p ++ t.
Proof. unfold content_of at 1. rewrite append_at. reflexivity. Qed.

Section Files.
  Context {T : Type} {N : Num T}.
  Variable F : formats T.

  Lemma titles_numbered base (l : list T) : titles base l = String.concat "" (map (fun x => "," ++ x) (numbered base (List.length l))).
  Proof. unfold titles, numbered. rewrite map_map. reflexivity. Qed.
  Lemma values_map (l : list T) : values F l = String.concat "" (map (fun x => "," ++ x) (map (fm_general F 9) l)).
  Proof. unfold values. rewrite map_map. reflexivity. Qed.
  Lemma header_line (m : sim_msg T) : csv_header m = line (columns_for m).
  Proof.
    unfold csv_header, line, columns_for, column_names. cbn [app]. rewrite concat_comma. cbn [map]. rewrite !map_app, !concat0_cons, !concat0_app.
    rewrite <- !titles_numbered, !sapp_assoc. reflexivity.
  Qed.
  Lemma row_line (m : sim_msg T) : csv_row F m = line (columns F m).
  Proof.
    unfold csv_row, line, columns. cbn [app]. rewrite concat_comma. cbn [map]. rewrite !map_app, !concat0_cons, !concat0_app.
    rewrite <- !values_map, !sapp_assoc. reflexivity.
  Qed.
  Lemma csv_appended fs path m : content_of fs path ++ csv_text F fs path m =
    (match fs path with Some s => s | None => line (columns_for m) end) ++ line (columns F m).
  Proof.
    unfold csv_text, file_exists, content_of. rewrite header_line, row_line. destruct (fs path); cbn [append]; reflexivity.
  Qed.
  Lemma write_csv_at fs path m : fm_open F path = true -> write_csv F fs path m path = results_file F (fs path) [m].
  Proof.
    intros O. unfold write_csv. rewrite O, append_at, csv_appended. unfold results_file. cbn [map String.concat]. reflexivity.
  Qed.
  Lemma write_csv_other fs path m q : q <> path -> write_csv F fs path m q = fs q.
  Proof. intros H. unfold write_csv. destruct (fm_open F path); [now apply append_other|reflexivity]. Qed.
  Lemma results_file_app b (x y : list (sim_msg T)) : results_file F (results_file F b x) y = results_file F b (x ++ y).
  Proof.
    destruct x as [|m x]; [reflexivity|]. destruct y as [|m' y]; [rewrite app_nil_r; reflexivity|].
    unfold results_file. cbn [app]. f_equal. rewrite sapp_assoc. f_equal. change (m :: x ++ m' :: y)%list with ((m :: x) ++ m' :: y)%list.
    rewrite map_app, concat0_app. reflexivity.
  Qed.
  Lemma debug_file_app b (x y : list (sim_msg T)) : debug_file F (debug_file F b x) y = debug_file F b (x ++ y).
  Proof.
    unfold debug_file. rewrite flat_map_app.
    destruct (flat_map _ x) as [|s t]; [reflexivity|]. destruct (flat_map _ y) as [|s' t']; [rewrite app_nil_r; reflexivity|].
    cbn [app]. f_equal. rewrite sapp_assoc. f_equal. change (s :: t ++ s' :: t')%list with ((s :: t) ++ s' :: t')%list.
    rewrite concat0_app. reflexivity.
  Qed.
  Lemma debug_at fs path m : fm_open F path = true -> write_debug_json F fs path m path = debug_file F (fs path) [m].
  Proof.
    intros O. unfold write_debug_json, debug_file. cbn [flat_map]. destruct (fm_json F m) as [s|]; [|reflexivity].
    rewrite O, append_at. cbn [app String.concat]. reflexivity.
  Qed.
  Lemma debug_other fs path m q : q <> path -> write_debug_json F fs path m q = fs q.
  Proof. intros H. unfold write_debug_json. destruct (fm_json F m); [|reflexivity]. destruct (fm_open F path); [now apply append_other|reflexivity]. Qed.

  (** *** writing one result *)
  Definition written_files (a : cli_args) (fs : files) (m : sim_msg T) : files :=
    let fs := if is_empty (ca_debug a) then fs else write_debug_json F fs (ca_debug a) m in
    if is_empty (ca_results a) then fs else write_csv F fs (ca_results a) m.
  Lemma write_split a fs m : write F a fs m = do out <- console F (ca_verbose a) (ca_speech a) (ca_lattice a) m; Ret (written_files a fs m, out).
  Proof. reflexivity. Qed.
  Lemma written_results a fs m : ca_results a <> "" -> ca_results a <> ca_debug a -> fm_open F (ca_results a) = true ->
    written_files a fs m (ca_results a) = results_file F (fs (ca_results a)) [m].
  Proof.
    intros H1 H2 O. unfold written_files. apply is_empty_false in H1. rewrite H1. rewrite write_csv_at by exact O. f_equal.
    destruct (is_empty (ca_debug a)); [reflexivity|]. now apply debug_other.
  Qed.
  Lemma written_debug a fs m : ca_debug a <> "" -> ca_debug a <> ca_results a -> fm_open F (ca_debug a) = true ->
    written_files a fs m (ca_debug a) = debug_file F (fs (ca_debug a)) [m].
  Proof.
    intros H1 H2 O. unfold written_files. apply is_empty_false in H1. rewrite H1.
    destruct (is_empty (ca_results a)); [now apply debug_at|]. rewrite write_csv_other by exact H2. now apply debug_at.
  Qed.
  Lemma written_other a fs m q : q <> ca_results a \/ q = "" -> q <> ca_debug a \/ q = "" -> written_files a fs m q = fs q.
  Proof.
    intros H1 H2. unfold written_files.
    destruct (is_empty (ca_results a)) eqn:E1, (is_empty (ca_debug a)) eqn:E2; rewrite ?write_csv_other, ?debug_other; auto.
    all: intros Q; first [destruct H1 as [H1|H1]; [congruence|apply is_empty_false in E1; congruence]|
                          destruct H2 as [H2|H2]; [congruence|apply is_empty_false in E2; congruence]].
  Qed.

  (** *** consoles *)
  Lemma console_ret verbose speech lattice m : printable verbose m -> exists out, console F verbose speech lattice m = Ret out.
  Proof.
    intros H. unfold console. destruct verbose; [|eexists; reflexivity]. destruct (H eq_refl) as [H1 H2].
    assert (Q : exists ls, sequence (map (fvnsim_line F m) (seq 0 (List.length (ms_fvnsim m)))) = Ret ls).
    { assert (G : forall is, (forall i, In i is -> (i < List.length (ms_fvnsim m))%nat) -> exists ls, sequence (map (fvnsim_line F m) is) = Ret ls).
      { induction is as [|i t IH]; intros HI; [eexists; reflexivity|]. cbn [map sequence]. unfold fvnsim_line at 1.
        specialize (HI i (or_introl eq_refl)) as Hi.
        destruct (nth_error (ms_fvnsim m) i) as [x|] eqn:E1; [|apply nth_error_None in E1; lia].
        destruct (nth_error (ms_fvnsim10 m) i) as [y|] eqn:E2; [|apply nth_error_None in E2; lia].
        destruct (nth_error (ms_cfb m) i) as [z|] eqn:E3; [|apply nth_error_None in E3; lia].
        cbn [bind]. destruct IH as [ls ->]; [intros j Hj; apply HI; right; exact Hj|]. eexists. reflexivity. }
      apply G. intros i Hi. apply in_seq in Hi. lia. }
    destruct Q as [ls Q]. unfold format_fvnsim. rewrite Q. eexists. reflexivity.
  Qed.
  Lemma console_quiet speech lattice m : console F false speech lattice m = Ret (
    "ViSQOL conformance version: 333" ++ nl ++
    (if speech then "Speech mode, " ++ (if lattice then "lattice model" else "exponential model") ++ nl
     else "Audio mode, support vector regression model" ++ nl) ++
    "MOS-LQO:" ++ tab_ ++ tab_ ++ fm_general F 6 (ms_moslqo m) ++ nl).
  Proof. destruct speech, lattice; reflexivity. Qed.
End Files.

(** *** the loop *)
Section Main.
  Context {T : Type} {N : Num T} {L : Libm T}.
  Variable F : formats T.

  Definition written_all (a : cli_args) (fs : files) (ms : list (sim_msg T)) : files := fold_left (fun fs m => written_files F a fs m) ms fs.
  Lemma written_all_results a : ca_results a <> "" -> ca_results a <> ca_debug a -> fm_open F (ca_results a) = true ->
    forall ms fs, written_all a fs ms (ca_results a) = results_file F (fs (ca_results a)) ms.
  Proof.
    intros H1 H2 O. induction ms as [|m ms IH]; intros fs; [reflexivity|]. unfold written_all in *. cbn [fold_left]. rewrite IH.
    rewrite written_results by assumption. rewrite results_file_app. reflexivity.
  Qed.
  Lemma written_all_debug a : ca_debug a <> "" -> ca_debug a <> ca_results a -> fm_open F (ca_debug a) = true ->
    forall ms fs, written_all a fs ms (ca_debug a) = debug_file F (fs (ca_debug a)) ms.
  Proof.
    intros H1 H2 O. induction ms as [|m ms IH]; intros fs; [reflexivity|]. unfold written_all in *. cbn [fold_left]. rewrite IH.
    rewrite written_debug by assumption. rewrite debug_file_app. reflexivity.
  Qed.
  Lemma written_all_other a q : q <> ca_results a \/ q = "" -> q <> ca_debug a \/ q = "" ->
    forall ms fs, written_all a fs ms q = fs q.
  Proof.
    intros H1 H2. induction ms as [|m ms IH]; intros fs; [reflexivity|]. unfold written_all in *. cbn [fold_left]. rewrite IH.
    now apply written_other.
  Qed.

  (** the texts on the console, one per result *)
  Lemma loop_spec w a (m0 : manager T) : history true m0 -> forall pairs m fs out, measured m0 m ->
    Forall survives (outcomes w m0 pairs) -> Forall (printable (ca_verbose a)) (successes (outcomes w m0 pairs)) ->
    exists t, main_loop F w a m pairs fs out = Ret (written_all a fs (successes (outcomes w m0 pairs)), out ++ t) /\
              prints F a (successes (outcomes w m0 pairs)) t.
  Proof.
    intros H0. induction pairs as [|[r d] pairs IH]; intros m fs out M S P.
    - exists "". cbn [main_loop]. rewrite sapp_nil_r. split; [reflexivity|]. exists []. split; [constructor|reflexivity].
    - cbn [main_loop]. inversion S as [|? ? S1 S2]; subst. cbn [fst snd] in S1.
      destruct (measured_same true m0 m H0 M w) as [_ SAME]. specialize (SAME r d).
      destruct (once_initialised m0 H0 w) as [_ NA]. specialize (NA r d).
      destruct (run_files w m r d) as [m' x] eqn:E. cbn [snd] in SAME. subst x.
      assert (M' : measured m0 m') by (eapply me_files; eassumption).
      cbn [outcomes map successes flat_map fst snd] in P |- *. fold (outcomes w m0 pairs) in *. fold (successes (outcomes w m0 pairs)) in *.
      destruct (snd (run_files w m0 r d)) as [msg|c| |]; [| |destruct S1; congruence|destruct S1; congruence].
      + cbn [app] in P |- *. inversion P as [|? ? P1 P2]; subst. rewrite write_split.
        destruct (console_ret F (ca_verbose a) (ca_speech a) (ca_lattice a) msg P1) as [t Et]. rewrite Et. cbn [bind fst snd].
        destruct (IH m' (written_files F a fs msg) (out ++ t) M' S2 P2) as (t' & -> & ts & Q1 & ->).
        exists (t ++ String.concat "" ts). rewrite sapp_assoc. split; [reflexivity|]. exists (t :: ts). split; [constructor; assumption|].
        now rewrite concat0_cons.
      + cbn [app] in P |- *. destruct (IH m' fs out M' S2 P) as (t' & -> & Q). exists t'. split; [|exact Q]. destruct c; try reflexivity. congruence.
  Qed.
  (** the loop stops at a comparison that does not come back *)
  Lemma loop_dies w a (m0 : manager T) r d after : history true m0 -> forall before m fs out, measured m0 m ->
    Forall survives (outcomes w m0 before) -> Forall (printable (ca_verbose a)) (successes (outcomes w m0 before)) ->
    ~ survives (snd (run_files w m0 r d)) ->
    main_loop F w a m (before ++ (r, d) :: after)%list fs out =
      match snd (run_files w m0 r d) with Throw => Throw | _ => Ub end.
  Proof.
    intros H0. induction before as [|[r0 d0] before IH]; intros m fs out M S P D.
    - cbn [app main_loop]. destruct (measured_same true m0 m H0 M w) as [_ SAME]. specialize (SAME r d).
      destruct (run_files w m r d) as [m' x]. cbn [snd] in SAME. subst x. destruct (snd (run_files w m0 r d)); try reflexivity; exfalso; apply D; split; discriminate.
    - cbn [app main_loop]. inversion S as [|? ? S1 S2]; subst. cbn [fst snd] in S1.
      destruct (measured_same true m0 m H0 M w) as [_ SAME]. specialize (SAME r0 d0).
      destruct (once_initialised m0 H0 w) as [_ NA]. specialize (NA r0 d0).
      destruct (run_files w m r0 d0) as [m' x] eqn:E. cbn [snd] in SAME. subst x.
      assert (M' : measured m0 m') by (eapply me_files; eassumption).
      cbn [outcomes map successes flat_map fst snd] in P. fold (outcomes w m0 before) in *. fold (successes (outcomes w m0 before)) in *.
      destruct (snd (run_files w m0 r0 d0)) as [msg|c| |]; [| |destruct S1; congruence|destruct S1; congruence].
      + cbn [app] in P. inversion P as [|? ? P1 P2]; subst. rewrite write_split.
        destruct (console_ret F (ca_verbose a) (ca_speech a) (ca_lattice a) msg P1) as [t Et]. rewrite Et. cbn [bind fst snd]. apply IH; assumption.
      + rewrite <- (IH m' fs out M' S2 P D). destruct c; try reflexivity. congruence.
  Qed.
  (** whenever the loop comes back *)
  Lemma loop_inv w a (m0 : manager T) : history true m0 -> forall pairs m fs out fs' out', measured m0 m ->
    main_loop F w a m pairs fs out = Ret (fs', out') ->
    fs' = written_all a fs (successes (outcomes w m0 pairs)) /\ Forall survives (outcomes w m0 pairs).
  Proof.
    intros H0. induction pairs as [|[r d] pairs IH]; intros m fs out fs' out' M E.
    - cbn in E. injection E as <- <-. split; [reflexivity|constructor].
    - cbn [main_loop] in E. destruct (measured_same true m0 m H0 M w) as [_ SAME]. specialize (SAME r d).
      destruct (once_initialised m0 H0 w) as [_ NA]. specialize (NA r d).
      destruct (run_files w m r d) as [m' x] eqn:R. cbn [snd] in SAME. subst x.
      assert (M' : measured m0 m') by (eapply me_files; eassumption).
      cbn [outcomes map successes flat_map fst snd]. fold (outcomes w m0 pairs). fold (successes (outcomes w m0 pairs)).
      destruct (snd (run_files w m0 r d)) as [msg|c| |]; try discriminate.
      + rewrite write_split in E. destruct (console _ _ _ _ _) as [t| | |]; try discriminate. cbn [bind fst snd] in E.
        destruct (IH _ _ _ _ _ M' E) as [-> S]. split; [reflexivity|]. constructor; [split; discriminate|exact S].
      + assert (E' : main_loop F w a m' pairs fs out = Ret (fs', out')) by (destruct c; try exact E; congruence).
        destruct (IH _ _ _ _ _ M' E') as [-> S]. split; [reflexivity|]. constructor; [split; discriminate|exact S].
  Qed.

  Lemma init_of_history w a (m : manager T) : init_of w a = (m, None) -> history true m.
  Proof. intros H. exact (h_init_ok false w manager_new _ m h_new H). Qed.

  Lemma main_batch w exists_ content f fs a pairs (m : manager T) :
    parse exists_ (w_cwd w) f = Ret a -> build_file_pair_paths exists_ content a = Ret pairs -> init_of w a = (m, None) ->
    Forall survives (outcomes w m pairs) -> Forall (printable (ca_verbose a)) (successes (outcomes w m pairs)) ->
    exists fs' out, main_ F w exists_ content f fs = Ret (0%Z, fs', out) /\
      (ca_results a <> "" -> ca_results a <> ca_debug a -> fm_open F (ca_results a) = true ->
         fs' (ca_results a) = results_file F (fs (ca_results a)) (successes (outcomes w m pairs))) /\
      (ca_debug a <> "" -> ca_debug a <> ca_results a -> fm_open F (ca_debug a) = true ->
         fs' (ca_debug a) = debug_file F (fs (ca_debug a)) (successes (outcomes w m pairs))) /\
      (forall q, q <> ca_results a -> q <> ca_debug a -> fs' q = fs q) /\
      prints F a (successes (outcomes w m pairs)) out.
  Proof.
    intros E1 E2 E3 S P. unfold main_. rewrite E1, E2. cbn [bind]. unfold init_of in E3. rewrite E3.
    destruct (loop_spec w a m (init_of_history w a m E3) pairs m fs "" (me_none m) S P) as (t & -> & Q).
    cbn [bind fst snd append]. eexists _, _. split; [reflexivity|]. split; [|split; [|split; [|exact Q]]].
    - intros H1 H2 O. now apply written_all_results.
    - intros H1 H2 O. now apply written_all_debug.
    - intros q H1 H2. apply written_all_other; auto.
  Qed.
  Lemma main_dies w exists_ content f fs a before r d after (m : manager T) :
    parse exists_ (w_cwd w) f = Ret a -> build_file_pair_paths exists_ content a = Ret (before ++ (r, d) :: after)%list -> init_of w a = (m, None) ->
    Forall survives (outcomes w m before) -> Forall (printable (ca_verbose a)) (successes (outcomes w m before)) ->
    snd (run_files w m r d) = Throw -> main_ F w exists_ content f fs = Throw.
  Proof.
    intros E1 E2 E3 S P D. unfold main_. rewrite E1, E2. cbn [bind]. unfold init_of in E3. rewrite E3.
    rewrite (loop_dies w a m r d after (init_of_history w a m E3) before m fs "" (me_none m) S P), D; [reflexivity|].
    rewrite D. intros [H _]. congruence.
  Qed.
  Lemma main_parse_fails w exists_ content f fs c : parse exists_ (w_cwd w) f = Err c ->
    main_ F w exists_ content f fs = Ret ((-1)%Z, fs, "").
  Proof. intros E. unfold main_. rewrite E. reflexivity. Qed.
  Lemma main_init_fails w exists_ content f fs a pairs (m : manager T) c : parse exists_ (w_cwd w) f = Ret a ->
    build_file_pair_paths exists_ content a = Ret pairs -> init_of w a = (m, Some c) ->
    main_ F w exists_ content f fs = Ret ((-1)%Z, fs, "").
  Proof. intros E1 E2 E3. unfold main_. rewrite E1, E2. cbn [bind]. unfold init_of in E3. rewrite E3. reflexivity. Qed.

  (** *** any number of executions *)
  Lemma main_results w exists_ content f fs status fs' out : fl_results f <> "" -> fl_debug f <> fl_results f -> fm_open F (fl_results f) = true ->
    main_ F w exists_ content f fs = Ret (status, fs', out) ->
    fs' (fl_results f) = results_file F (fs (fl_results f)) (session_results w exists_ content f).
  Proof.
    intros H1 H2 O. unfold main_, session_results.
    destruct (parse exists_ (w_cwd w) f) as [a| | |] eqn:EP; try discriminate; [|intros H; injection H as <- <- <-; reflexivity].
    destruct (parse_fields _ _ _ _ EP) as (R1 & R2 & _). destruct (build_file_pair_paths exists_ content a) as [pairs| | |]; try discriminate.
    cbn [bind]. fold (init_of w a). destruct (init_of w a) as [m [c|]] eqn:EI; [intros H; injection H as <- <- <-; reflexivity|].
    intros H. apply bind_ret in H. destruct H as ([fs1 t] & E & H). cbn [fst snd] in H. injection H as <- <- <-.
    apply (loop_inv w a m (init_of_history w a m EI) pairs m fs "" fs1 t (me_none m)) in E. destruct E as [-> _].
    rewrite <- R1. apply written_all_results; rewrite ?R1, ?R2; auto.
  Qed.
  Lemma sessions_results speech path fs ms fs' : path <> "" -> fm_open F path = true -> sessions F speech path fs ms fs' ->
    fs' path = results_file F (fs path) ms.
  Proof.
    intros H1 O. induction 1 as [fs|fs ms fs1 w ex ct f st fs2 out _ IH ES ER ED E]; [reflexivity|].
    subst path. rewrite (main_results _ _ _ _ _ _ _ _ H1 ED O E), IH. apply results_file_app.
  Qed.
  Lemma results_keep (b : option string) (ms : list (sim_msg T)) s : b = Some s -> exists t, results_file F b ms = Some (s ++ t).
  Proof. intros ->. destruct ms; [exists ""; cbn; now rewrite sapp_nil_r|]. eexists. reflexivity. Qed.
End Main.

(** *** sizes of what comes out of a comparison *)
Section Sizes.
  Context {T : Type} {N : Num T} {L : Libm T}.
  Lemma has_bands_printable n verbose (m : sim_msg T) : has_bands n m -> printable verbose m.
  Proof. intros (H1 & H2 & _ & _ & H5) _. lia. Qed.
  Lemma columns_for_bands n (m : sim_msg T) : has_bands n m -> columns_for m = column_names n n n n.
  Proof. intros (H1 & H2 & H3 & H4 & _). unfold columns_for. congruence. Qed.
  Lemma run_bands w (m : manager T) ref deg m' deg' msg : reachable m ->
    (Z.of_nat (List.length (au_data ref)) + 1 < 2 ^ 31)%Z -> (Z.of_nat (List.length (au_data deg')) + 1 < 2 ^ 31)%Z ->
    run w m ref deg = (m', deg', Ret msg) -> has_bands (if st_speech (mg_settings m) then 21 else 32) msg.
  Proof.
    intros HR H1 H2 E. destruct (message_means w m ref deg m' deg' msg HR H1 H2 E) as (A1 & A2 & A3 & A4 & A5 & _). repeat split; assumption.
  Qed.
  Lemma run_files_paths w (m m' : manager T) rp dp x : run_files w m rp dp = (m', Ret x) -> ms_ref_path x = rp /\ ms_deg_path x = dp.
  Proof.
    unfold run_files. destruct (negb (mg_init m)); [discriminate|].
    destruct (do rl <- _; _) as [[ref deg]| | |]; [|discriminate ..]. destruct (run w m ref deg) as [[m1 d1] r].
    destruct r; cbn; [|discriminate ..]. intros H. injection H as _ <-. split; reflexivity.
  Qed.
  Lemma outcome_paths w (m : manager T) pairs i r d x : nth_error pairs i = Some (r, d) -> nth_error (outcomes w m pairs) i = Some (Ret x) ->
    ms_ref_path x = r /\ ms_deg_path x = d.
  Proof.
    intros HP HO. unfold outcomes in HO. rewrite nth_error_map, HP in HO. cbn in HO. injection HO as HO.
    destruct (run_files w m r d) as [m' y] eqn:E. cbn in HO. subst y. exact (run_files_paths w m m' r d x E).
  Qed.
End Sizes.
