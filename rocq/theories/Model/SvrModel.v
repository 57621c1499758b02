(** Model of src/support_vector_regression_model.cc: the training data handed to libsvm and the memory the object owns.

    The heap is a list of live blocks with distinct addresses.  libsvm (v324, WORKSPACE:148-158) is external; of its
    memory it is taken that
    - svm_load_model returns NULL, or a model that owns one block of support vectors and one block of other arrays;
    - svm_train returns a model that owns one block of arrays and whose support vectors are rows of the problem;
    - svm_free_model_content frees what the model owns and forgets it, so that a second call frees nothing;
    - svm_free_and_destroy_model does the same, frees the model and sets the pointer to NULL;
    - svm_predict reads the model, its arrays and its support vectors.
    Allocation never fails. *)
From Coq Require Import ZArith List Bool.
From Verif Require Import Base.Res Base.Num Model.Mappers.
Import ListNotations.
Open Scope nat_scope.

Section SvrModel.
  Context {T : Type} {N : Num T}.

  (** a pointer member: never assigned, NULL, or an address *)
  Inductive ptr := Unset | Null | At (a : nat).

  Inductive block :=
  | Nodes (l : list (Z * option T))            (* svm_node[] *)
  | Rows (l : list nat)                        (* svm_node*[] *)
  | Arrays                                     (* arrays inside libsvm *)
  | Model (owned used : list nat).             (* svm_model: blocks it will free, rows of the caller it reads *)

  Record heap := MkHeap { h_next : nat; h_live : list (nat * block) }.

  Definition alloc (b : block) (h : heap) : nat * heap :=
    (h_next h, MkHeap (S (h_next h)) ((h_next h, b) :: h_live h)).
  Definition find_block (h : heap) (a : nat) : option block :=
    match find (fun p => Nat.eqb (fst p) a) (h_live h) with Some p => Some (snd p) | None => None end.
  Definition remove_block (h : heap) (a : nat) : heap :=
    MkHeap (h_next h) (filter (fun p => negb (Nat.eqb (fst p) a)) (h_live h)).
  (** free(p): freeing what is not allocated is undefined *)
  Definition free_at (h : heap) (a : nat) : res heap :=
    match find_block h a with Some _ => Ret (remove_block h a) | None => Ub end.
  Fixpoint free_all (h : heap) (l : list nat) : res heap :=
    match l with
    | [] => Ret h
    | a :: t => do h' <- free_at h a; free_all h' t
    end.
  Definition free_ptr (h : heap) (p : ptr) : res heap :=
    match p with Unset => Ub | Null => Ret h | At a => free_at h a end.

  (** support_vector_regression_model.h:76-97: model_, observations_ptr_, num_observations_ *)
  Record svr_object := MkSvr { so_model : ptr; so_rows : ptr; so_count : nat }.

  (** support_vector_regression_model.cc:31-32: model_ is not initialised *)
  Definition svr_new : svr_object := MkSvr Unset Null 0.

  (** libsvm_target_observation_convertor.cc:24-39, one row: [num_features] values are read from the observation *)
  Definition convert_row (num_features : nat) (obs : list T) : res (list (Z * option T)) :=
    if Nat.ltb (length obs) num_features then Ub
    else Ret (map (fun i => (Z.of_nat i + 1, Some (nth i obs n0))%Z) (seq 0 num_features) ++ [(-1, None)%Z]).
  Fixpoint convert_rows (num_features : nat) (h : heap) (l : list (list T)) : res (list nat * heap) :=
    match l with
    | [] => Ret ([], h)
    | x :: t =>
        do row <- convert_row num_features x;
        let '(a, h1) := alloc (Nodes row) h in
        do r <- convert_rows num_features h1 t;
        Ret (a :: fst r, snd r)
    end.
  (** libsvm_target_observation_convertor.cc:24-39 ConvertObservations; the outer array is allocated first and filled in
      row by row *)
  Definition convert_observations (num_features : nat) (h : heap) (l : list (list T)) : res (nat * list nat * heap) :=
    let '(a, h1) := alloc (Rows []) h in
    do r <- convert_rows num_features h1 l;
    let '(rows, h2) := r in
    Ret (a, rows, MkHeap (h_next h2) (map (fun p => if Nat.eqb (fst p) a then (a, Rows rows) else p) (h_live h2))).

  (** support_vector_regression_model.cc:46-87 Init(observations, targets): observations[0] and targets[0] must exist;
      svm_train reads as many rows as there are targets *)
  Definition svr_init_data (o : svr_object) (h : heap) (observations : list (list T)) (targets : list T)
    : res (svr_object * heap) :=
    match observations, targets with
    | x :: _, _ :: _ =>
        do c <- convert_observations (length x) h observations;
        let '(a, rows, h1) := c in
        if Nat.ltb (length rows) (length targets) then Ub
        else
          let '(arr, h2) := alloc Arrays h1 in
          let '(m, h3) := alloc (Model [arr] (firstn (length targets) rows)) h2 in
          Ret (MkSvr (At m) (At a) (length observations), h3)
    | _, _ => Ub
    end.

  (** support_vector_regression_model.cc:99-109 Init(model_path): [loaded] says whether svm_load_model succeeds; the old
      pointer is overwritten *)
  Definition svr_init_file (o : svr_object) (h : heap) (loaded : bool) : svr_object * heap * option code :=
    if loaded then
      let '(sv, h1) := alloc (Nodes []) h in
      let '(arr, h2) := alloc Arrays h1 in
      let '(m, h3) := alloc (Model [sv; arr] []) h2 in
      (MkSvr (At m) (so_rows o) (so_count o), h3, None)
    else (MkSvr Null (so_rows o) (so_count o), h, Some InvalidArgument).

  (** svm_free_model_content *)
  Definition free_content (h : heap) (m : nat) : res heap :=
    match find_block h m with
    | Some (Model owned used) =>
        do h1 <- free_all h owned;
        Ret (MkHeap (h_next h1) (map (fun p => if Nat.eqb (fst p) m then (m, Model [] used) else p) (h_live h1)))
    | _ => Ub
    end.
  (** svm_free_and_destroy_model *)
  Definition free_and_destroy (h : heap) (m : nat) : res heap :=
    do h1 <- free_content h m; free_at h1 m.

  (** support_vector_regression_model.cc:40-43: free(observations_ptr_[i]) for the first num_observations_ rows *)
  Definition free_rows (h : heap) (o : svr_object) : res heap :=
    match so_count o with
    | O => Ret h
    | n =>
        match so_rows o with
        | At a => match find_block h a with
                  | Some (Rows rows) => if Nat.ltb (length rows) n then Ub else free_all h (firstn n rows)
                  | _ => Ub
                  end
        | _ => Ub
        end
    end.

  (** support_vector_regression_model.cc:34-44, the destructor *)
  Definition svr_destroy (o : svr_object) (h : heap) : res heap :=
    match so_model o with
    | Unset => Ub
    | Null => Ret h
    | At m =>
        do h1 <- free_content h m;
        do h2 <- free_and_destroy h1 m;
        do h3 <- free_rows h2 o;
        free_ptr h3 (so_rows o)
    end.

  (** svm_predict reads the model and every row it refers to *)
  Definition readable (h : heap) (l : list nat) : bool := forallb (fun a => match find_block h a with Some _ => true | None => false end) l.

  (** support_vector_regression_model.cc:89-97 Predict; [answer] is the loaded or trained model's function *)
  Definition svr_object_predict (answer : svr_model T) (o : svr_object) (h : heap) (obs : list T) : res (T * heap) :=
    let '(a, h1) := alloc (Nodes (convert_observation obs)) h in
    match so_model o with
    | At m =>
        match find_block h1 m with
        | Some (Model owned used) =>
            if readable h1 (owned ++ used)
            then do h2 <- free_at h1 a; Ret (answer (convert_observation obs), h2)
            else Ub
        | _ => Ub
        end
    | _ => Ub
    end.

  (** visqol_manager.cc:113-135: the mapper of audio mode is built by make_unique, the previous one is destroyed by the
      assignment, then Init loads the model (svr_similarity_to_quality_mapper.cc:25-29); [None]: no such mapper yet (or
      the mapper of speech mode, which owns nothing here) *)
  Definition replace_mapper (cur : option svr_object) (h : heap) (new_audio : option bool) : res (option svr_object * heap) :=
    do h1 <- match cur with Some o => svr_destroy o h | None => Ret h end;
    match new_audio with
    | None => Ret (None, h1)
    | Some loaded => let '(o, h2, _) := svr_init_file svr_new h1 loaded in Ret (Some o, h2)
    end.
End SvrModel.
Arguments block : clear implicits.
Arguments heap : clear implicits.
