(** Spec: the life of a regression model object, and training data of the right shape. *)
From Coq Require Import ZArith List String Ascii.
From Verif Require Import Base.Res Base.Num Model.Mappers Model.SvrModel.
Import ListNotations.

Section SvrSpec.
  Context {T : Type} {N : Num T}.

  (** what a program does with an object between construction and destruction *)
  Inductive use := FromFile (succeeds : bool) | Train (observations : list (list T)) (targets : list T) | Ask (observation : list T).
  Definition step (answer : svr_model T) (o : svr_object) (h : heap T) (u : use) : res (svr_object * heap T) :=
    match u with
    | FromFile b => let '(o', h', _) := svr_init_file o h b in Ret (o', h')
    | Train x y => svr_init_data o h x y
    | Ask x => do r <- svr_object_predict answer o h x; Ret (o, snd r)
    end.
  Fixpoint steps (answer : svr_model T) (o : svr_object) (h : heap T) (l : list use) : res (svr_object * heap T) :=
    match l with
    | [] => Ret (o, h)
    | u :: t => do r <- step answer o h u; steps answer (fst r) (snd r) t
    end.
  (** construct, use, destroy *)
  Definition life (answer : svr_model T) (h : heap T) (l : list use) : res (heap T) :=
    do r <- steps answer svr_new h l; svr_destroy (fst r) (snd r).

  (** every allocated address was handed out before *)
  Definition sane (h : heap T) : Prop := Forall (fun p => (fst p < h_next h)%nat) (h_live h).

  (** data to train on: there is an observation, they have equally many features, and as many targets *)
  Definition trainable (observations : list (list T)) (targets : list T) : Prop :=
    observations <> [] /\ (forall x y, In x observations -> In y observations -> List.length x = List.length y) /\
    List.length targets = List.length observations.

  (** less is enough for training to be defined: no row is shorter than the first, and there are no more targets than rows *)
  Definition can_train (observations : list (list T)) (targets : list T) : Prop :=
    match observations with
    | [] => False
    | x0 :: _ => targets <> [] /\ (forall z, In z observations -> List.length x0 <= List.length z)%nat /\
                 (List.length targets <= List.length observations)%nat
    end.

  (** a sequence of (re)initialisations of the manager: speech mode, or audio mode with a model that loads or not; then
      the manager is destroyed *)
  Fixpoint mappers (cur : option svr_object) (h : heap T) (l : list (option bool)) : res (heap T) :=
    match l with
    | [] => match cur with Some o => svr_destroy o h | None => Ret h end
    | x :: t => do r <- replace_mapper cur h x; mappers (fst r) (snd r) t
    end.
End SvrSpec.
Arguments use : clear implicits.

(** a training file: rows of printed values, separated by [sep], each row ended by a line feed *)
Definition row_text (sep : ascii) (l : list string) : string := String.concat (String sep EmptyString) l.
Definition file_text (sep : ascii) (rows : list (list string)) : string :=
  String.concat EmptyString (map (fun r => (row_text sep r ++ String "010" EmptyString)%string) rows).
