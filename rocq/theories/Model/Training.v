(** Model of src/svr_training/training_data_file_reader.cc and of MiscVector::ConvertVecOfVecToVec
    (src/include/misc_vector.h:34-42). *)
From Coq Require Import List String Ascii.
From Verif Require Import Base.Res Model.Cli.
Import ListNotations.
Open Scope string_scope.

Section Training.
  Context {T : Type}.

  (** training_data_file_reader.cc:36-43: the items of one line that absl::SimpleAtod ([atod], an oracle) accepts; the
      others are only logged *)
  Definition read_line (atod : string -> option T) (delimiter : ascii) (line : string) : list T :=
    flat_map (fun item => match atod item with Some v => [v] | None => [] end) (getlines delimiter line).

  (** training_data_file_reader.cc:25-49 Read: one row per line; [file] is the content, [None] if it cannot be opened,
      in which case the first getline fails *)
  Definition read_training (atod : string -> option T) (file : option string) (delimiter : ascii) : list (list T) :=
    match file with
    | None => []
    | Some s => map (read_line atod delimiter) (getlines newline s)
    end.

  (** misc_vector.h:34-42: mat[i][0] of every row, undefined for an empty row *)
  Fixpoint first_column (m : list (list T)) : res (list T) :=
    match m with
    | [] => Ret []
    | [] :: _ => Ub
    | (x :: _) :: t => do r <- first_column t; Ret (x :: r)
    end.
End Training.
