(** Model of what is logged while audio is loaded (src/misc_audio.cc) and while patches are matched
    (src/comparison_patches_selector.cc). *)
From Coq Require Import ZArith List Bool.
From Verif Require Import Base.Res Base.Num Base.Lists Base.Mat Model.Amatrix Model.Wav Model.Nsim Model.Selector.
Import ListNotations.
Open Scope Z_scope.

(** the messages of misc_audio.cc:96, 115-118, 132-135 and 140-143 (the wording for a file or a stream is not
    distinguished); the second one prints both numbers *)
Inductive load_message := FileMissing | FewerSamples (read expected : Z) | NoData | BadHeader.

(** misc_audio.cc:101-148 LoadAsMono: what it logs.  The header is rejected by ParseHeader if it announces no sample,
    so "num_total_samples != 0" is part of [parse_header]. *)
Definition load_messages (all : bytes) : list load_message :=
  match parse_header all with
  | None => [BadHeader]
  | Some w =>
      let '(_, got, _) := read_samples all (reader_init w) (wv_total w) in
      (if got =? wv_total w then [] else [FewerSamples got (wv_total w)]) ++
      (if 0 <? got then [] else [NoData])
  end.

(** misc_audio.cc:88-99 LoadAsMono(path) *)
Definition file_messages (content : option bytes) : list load_message :=
  match content with
  | Some b => load_messages b
  | None => [FileMissing]
  end.

Section Dropped.
  Context {T : Type} {N : Num T}.

  (** comparison_patches_selector.cc:134-159: the numbers printed by the warning about dropped reference patches, or
      nothing; it is given before any patch is compared *)
  Definition dropped_message (refs : list (mat T)) (idx : list Z) (S : mat T) : res (option (Z * Z)) :=
    match refs with
    | [] => Ub
    | ref0 :: _ =>
        do n <- calc_max_num_patches (T:=T) idx (Z.of_nat (ncols S)) (Z.of_nat (ncols ref0));
        Ret (if Nat.eqb n 0 then None
             else if Nat.ltb n (length idx)
                  then Some (size_of (Z.of_nat (length idx) - Z.of_nat n), Z.of_nat (length idx))
                  else None)
    end.
End Dropped.
