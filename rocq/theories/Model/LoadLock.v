(** Model: loading regression models from several threads at once (src/support_vector_regression_model.cc:99-109). *)
From Coq Require Import List PeanoNat Bool.
From Verif Require Import Base.Res.
Import ListNotations.

Section LoadLock.
  (** paths, what LIBSVM's loader keeps in its own static variables (its line buffer), what it keeps on its stack, models *)
  Context {P B Lo M : Type}.

  (** oracle: svm_load_model (external). Opening the file sets up the static buffer; each further step reads and writes
      the buffer and either goes on or ends with a model, or with none (a null pointer). *)
  Record loader := MkLoader { ld_open : P -> B * Lo; ld_step : B -> Lo -> B * (Lo + option M) }.

  (** where a thread is inside Init(model_path) (support_vector_regression_model.cc:99-109) *)
  Inductive pc : Type :=
  | Called                       (* line 99: entered, not yet holding load_model_mutex_ *)
  | Holding                      (* line 100 done: the MutexLock is held *)
  | Reading (l : Lo)             (* line 101: inside svm_load_model *)
  | Stored                       (* line 101 done: model_ assigned *)
  | Returned (ok : bool).        (* lines 103-109: status decided and the lock given back by MutexLock's destructor *)

  (** a call: the object it is made on, the path, where it is *)
  Record call := MkCall { cl_obj : nat; cl_path : P; cl_pc : pc }.

  (** everything: model_ of each object, the static mutex (the thread holding it), the loader's statics, the calls.
      The mutex is static (support_vector_regression_model.h:85): one for all objects. *)
  Record shared := MkShared { sh_model : nat -> option M; sh_lock : option nat; sh_buf : B; sh_calls : list call }.

  Definition set_pc (c : call) (p : pc) : call := MkCall (cl_obj c) (cl_path c) p.
  (** replace the i-th call *)
  Fixpoint put (i : nat) (c : call) (l : list call) : list call :=
    match l, i with
    | [], _ => []
    | _ :: t, O => c :: t
    | h :: t, S j => h :: put j c t
    end.
  Definition store (o : nat) (m : option M) (f : nat -> option M) : nat -> option M := fun x => if Nat.eqb x o then m else f x.

  (** one step of thread i, if it can take one (support_vector_regression_model.cc:99-109) *)
  Definition thread_step (ld : loader) (i : nat) (s : shared) : option shared :=
    match nth_error (sh_calls s) i with
    | None => None
    | Some c =>
        let go f k b p := Some (MkShared f k b (put i (set_pc c p) (sh_calls s))) in
        match cl_pc c with
        | Called => match sh_lock s with None => go (sh_model s) (Some i) (sh_buf s) Holding | Some _ => None end
        | Holding => let '(b, l) := ld_open ld (cl_path c) in go (sh_model s) (sh_lock s) b (Reading l)
        | Reading l =>
            match ld_step ld (sh_buf s) l with
            | (b, inl l') => go (sh_model s) (sh_lock s) b (Reading l')
            | (b, inr m) => go (store (cl_obj c) m (sh_model s)) (sh_lock s) b Stored
            end
        | Stored => go (sh_model s) None (sh_buf s) (Returned (match sh_model s (cl_obj c) with Some _ => true | None => false end))
        | Returned _ => None
        end
    end.

  (** a schedule: which thread moves next; a thread that cannot move is passed over *)
  Fixpoint schedule (ld : loader) (l : list nat) (s : shared) : shared :=
    match l with
    | [] => s
    | i :: t => schedule ld t (match thread_step ld i s with Some s' => s' | None => s end)
    end.

  (** calls on (object, path), before any has moved *)
  Definition begin (f : nat -> option M) (b : B) (jobs : list (nat * P)) : shared :=
    MkShared f None b (map (fun j => MkCall (fst j) (snd j) Called) jobs).
End LoadLock.
Arguments loader : clear implicits.
Arguments pc : clear implicits.
Arguments call : clear implicits.
Arguments shared : clear implicits.
