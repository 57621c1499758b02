(** Properties C75-C79: the regression model's memory, its training data, and the lattice model's initialisation. *)
From Coq Require Import ZArith List Bool String Ascii.
From Verif Require Import Base.Res Base.Num Model.Cli Model.Mappers Model.SvrModel Model.Training Model.Tflite Spec.CliSpec Spec.SvrSpec
  Proofs.SvrModelP Proofs.TrainingP Proofs.TrainingCasesP.
Import ListNotations.
Open Scope nat_scope.

(** *** C75 *)

(** C75 for objects that are initialised once, from a model file (loadable or not) or from training data, then asked any
    number of questions: the destructor frees what was allocated, once, and nothing else (full claim: for every use). *)
Theorem C75_loaded_partial {T} {N : Num T} (answer : svr_model T) (h : heap T) asks : sane h -> Forall is_ask asks ->
  exists h', life answer h (FromFile true :: asks) = Ret h' /\ h_live h' = h_live h.
Proof. exact (life_load answer h asks). Qed.
Print Assumptions C75_loaded_partial.
Theorem C75_not_loaded_partial {T} {N : Num T} (answer : svr_model T) (h : heap T) : life answer h [FromFile false] = Ret h.
Proof. exact (life_no_load answer h). Qed.
Print Assumptions C75_not_loaded_partial.
Theorem C75_trained_partial {T} {N : Num T} (answer : svr_model T) (h : heap T) x y asks : sane h -> can_train x y -> Forall is_ask asks ->
  exists h', life answer h (Train x y :: asks) = Ret h' /\ h_live h' = h_live h.
Proof. exact (life_train answer h x y asks). Qed.
Print Assumptions C75_trained_partial.
Example C75_uses : sane (MkHeap 1 [(0, Arrays)] : heap nat) /\ can_train [[1; 2]; [3; 4; 5]] [5] /\ Forall is_ask [Ask [1; 2]; Ask [7]].
Proof. exact uses_ok. Qed.

(** C75 for the manager: any sequence of initialisations, each for speech, or for audio with a model file that loads or
    not, followed by its destruction. *)
Theorem C75_manager {T} {N : Num T} (h : heap T) (l : list (option bool)) : sane h ->
  exists h', mappers None h l = Ret h' /\ h_live h' = h_live h.
Proof. exact (manager_frees h l). Qed.
Print Assumptions C75_manager.
Example C75_manager_example : mappers None (MkHeap 1 [(0, Arrays)] : heap nat) [Some true; None; Some false; Some true] = Ret (MkHeap 7 [(0, Arrays)]).
Proof. reflexivity. Qed.

(** C75 fails as stated: an object that was never initialised has an undefined destructor (its pointer was never set). *)
Theorem C75_never_initialised_refuted {T} {N : Num T} (answer : svr_model T) (h : heap T) : life answer h [] = Ub.
Proof. exact (life_nothing answer h). Qed.
Print Assumptions C75_never_initialised_refuted.
(** C75 fails: initialising twice leaks the first model, whichever way and whether or not the second succeeds. *)
Theorem C75_twice_refuted {T} {N : Num T} (answer : svr_model T) (h : heap T) b : sane h ->
  exists h', life answer h [FromFile true; FromFile b] = Ret h' /\ List.length (h_live h') = List.length (h_live h) + 3.
Proof. exact (life_twice answer h b). Qed.
Print Assumptions C75_twice_refuted.
(** C75 fails: two objects that are copies of each other cannot both be destroyed. *)
Theorem C75_copy_refuted {T} {N : Num T} (h : heap T) : sane h ->
  let '(o, h1, _) := svr_init_file svr_new h true in
  (exists h2, svr_destroy o h1 = Ret h2 /\ svr_destroy o h2 = Ub).
Proof. exact (copy_destroyed h). Qed.
Print Assumptions C75_copy_refuted.
(** C75: a question after a failed load is undefined. *)
Theorem C75_ask_unloaded_refuted {T} {N : Num T} (answer : svr_model T) (h : heap T) x : life answer h [FromFile false; Ask x] = Ub.
Proof. exact (life_ask_unloaded answer h x). Qed.
Print Assumptions C75_ask_unloaded_refuted.
Example C75_witness : sane (MkHeap 1 [(0, Arrays)] : heap nat).
Proof. exact (proj1 uses_ok). Qed.

(** *** C76 *)

(** C76 for well-shaped data: every observation becomes a row that holds exactly what a question about that observation
    holds, and the model reads these rows only. *)
Theorem C76_rows_partial {T} {N : Num T} o (h : heap T) (x : list (list T)) (y : list T) : sane h -> NoDup (map fst (h_live h)) -> trainable x y ->
  exists o' h' a rows m owned, svr_init_data o h x y = Ret (o', h') /\ so_rows o' = At a /\ so_count o' = List.length x /\ so_model o' = At m /\
    find_block h' a = Some (Rows rows) /\ List.length rows = List.length x /\ find_block h' m = Some (Model owned rows) /\
    forall i obs, nth_error x i = Some obs -> exists r, nth_error rows i = Some r /\ find_block h' r = Some (Nodes (convert_observation obs)).
Proof. exact (train_rows o h x y). Qed.
Print Assumptions C76_rows_partial.
Example C76_rows_example : exists o h, svr_init_data (T:=nat) (N:=nat_num) svr_new (MkHeap 0 []) [[5; 6]; [7; 8]] [1; 2] = Ret (o, h) /\
  find_block h 1 = Some (Nodes [(1, Some 5%nat); (2, Some 6%nat); (-1, None)]%Z) /\ find_block h 2 = Some (Nodes [(1, Some 7%nat); (2, Some 8%nat); (-1, None)]%Z).
Proof. eexists. eexists. split; [reflexivity|]. split; reflexivity. Qed.

(** C76: exactly which data can be trained on; all other data is undefined behaviour, so the claim (an error is reported)
    fails for it. *)
Theorem C76_shapes_refuted {T} {N : Num T} o (h : heap T) (x : list (list T)) (y : list T) : sane h ->
  ((exists r, svr_init_data o h x y = Ret r) <->
   exists x0 xs, x = x0 :: xs /\ y <> [] /\ (forall z, In z x -> List.length x0 <= List.length z) /\ List.length y <= List.length x) /\
  ((exists r, svr_init_data o h x y = Ret r) \/ svr_init_data o h x y = Ub).
Proof. exact (train_defined o h x y). Qed.
Print Assumptions C76_shapes_refuted.
Example C76_bad_shapes : let train := svr_init_data (T:=nat) (N:=nat_num) svr_new (MkHeap 0 []) in
  train [] [] = Ub /\ train [[1; 2]; [3]] [1; 2] = Ub /\ train [[1; 2]] [1; 2] = Ub.
Proof. repeat split; reflexivity. Qed.

(** *** C77 *)

(** C77: a file written with any separator, by any way of printing values that SimpleAtod ([atod]) reads back and that
    uses neither the separator nor a line feed, is read back exactly. *)
Theorem C77_read_back {T} (atod : string -> option T) (show : T -> string) sep (rows : list (list T)) : sep <> "010"%char ->
  (forall v, atod (show v) = Some v) -> (forall v, free_of sep (show v) /\ free_of "010" (show v) /\ show v <> ""%string) ->
  read_training atod (Some (file_text sep (map (map show) rows))) sep = rows.
Proof. exact (read_written atod show sep rows). Qed.
Print Assumptions C77_read_back.
(** digits as values *)
Example C77_example : (forall v, digit_atod (digit_show v) = Some v) /\
  (forall v, free_of "," (digit_show v) /\ free_of "010" (digit_show v) /\ digit_show v <> ""%string) /\
  file_text "," (map (map digit_show) [[true; false]; [false]]) = String "1" (String "," (String "0" (String "010" (String "0" (String "010" EmptyString))))).
Proof. exact (conj digits_read (conj digits_free eq_refl)). Qed.

(** *** C78 *)

(** C78, what the reader does with any text: one row per line, one value per item that reads as a number (full claim: a
    malformed file is reported). *)
Theorem C78_rows_partial {T} (atod : string -> option T) s sep : read_training atod (Some s) sep = map (read_line atod sep) (text_lines s).
Proof. exact (read_lines atod s sep). Qed.
Print Assumptions C78_rows_partial.
Example C78_rows_example : text_lines (String "1" (String "010" (String "0" EmptyString))) = ["1"; "0"]%string.
Proof. reflexivity. Qed.
(** C78 fails: an item that is not a number is left out, so that the values behind it move to the left. *)
Theorem C78_dropped_refuted {T} (atod : string -> option T) sep a bad b va vb : free_of sep a -> free_of sep bad -> free_of sep b -> b <> ""%string ->
  atod a = Some va -> atod bad = None -> atod b = Some vb ->
  read_line atod sep (row_text sep [a; bad; b]) = [va; vb].
Proof. exact (item_dropped atod sep a bad b va vb). Qed.
Print Assumptions C78_dropped_refuted.
Example C78_dropped_example : read_line digit_atod "," "1,x,0" = [true; false].
Proof. reflexivity. Qed.
(** C78 fails: a blank line at the end of the file (training_data_file_reader.h asks for one, if its words are taken
    literally) becomes an empty row, and taking the first column is then undefined. *)
Theorem C78_blank_line_refuted {T} (atod : string -> option T) (show : T -> string) sep (rows : list (list T)) : sep <> "010"%char ->
  (forall v, atod (show v) = Some v) -> (forall v, free_of sep (show v) /\ free_of "010" (show v) /\ show v <> ""%string) ->
  let m := read_training atod (Some (file_text sep (map (map show) rows) ++ String "010" "")%string) sep in
  m = app rows [[]] /\ first_column m = Ub.
Proof. exact (blank_line atod show sep rows). Qed.
Print Assumptions C78_blank_line_refuted.
Example C78_blank_example : first_column (read_training digit_atod (Some (String "1" (String "010" (String "010" EmptyString)))) ",") = Ub.
Proof. reflexivity. Qed.

(** *** C79 *)

(** C79, the status: OK exactly if every call of the library succeeds, where failing to install the delegate is
    tolerated; then there is an interpreter to ask. *)
Theorem C79_status_partial (a : tfl_answers) : let '(o, e) := tfl_init a in
  (e = None <-> ta_model a = true /\ ta_threads a = true /\ ta_interpreter a = true /\ ta_tensors a = true /\ ta_delegate a <> DOther) /\
  (e = None -> to_model o = true /\ to_interpreter o = true).
Proof. exact (tfl_status a). Qed.
Print Assumptions C79_status_partial.
(** C79, destruction: whatever Init did, the interpreter is destroyed before the model it was built from, each part at
    most once. *)
Theorem C79_model_last_partial (a : tfl_answers) : let l := tfl_destroy (fst (tfl_init a)) in
  NoDup l /\ (In PInterpreter l -> exists l1 l2, l = (l1 ++ PInterpreter :: l2)%list /\ In PModel l2).
Proof. exact (tfl_model_last a). Qed.
Print Assumptions C79_model_last_partial.
Example C79_example : tfl_init (MkAnswers true true true true DDelegateError) = (MkTfl true true true false, None) /\
  tfl_init (MkAnswers true true true false DOk) = (MkTfl true true false false, Some ResourceExhausted).
Proof. split; reflexivity. Qed.
(** C79 fails: whenever the delegate was installed, it is destroyed before the interpreter whose graph runs on it
    (TensorFlow Lite: the delegate must outlive the interpreter). *)
Theorem C79_delegate_first_refuted (a : tfl_answers) : to_delegated (fst (tfl_init a)) = true ->
  tfl_destroy (fst (tfl_init a)) = [PDelegate; PInterpreter; PModel].
Proof. exact (tfl_delegate_first a). Qed.
Print Assumptions C79_delegate_first_refuted.
Example C79_delegated : to_delegated (fst (tfl_init (MkAnswers true true true true DOk))) = true.
Proof. reflexivity. Qed.
