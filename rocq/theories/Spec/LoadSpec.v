(** Spec: what loading a model yields when nothing else is running. *)
From Coq Require Import List.
From Verif Require Import Model.LoadLock.
Import ListNotations.

Section Spec.
  Context {P B Lo M : Type} (ld : loader P B Lo M).
  (** from this point of the loader, reading to the end takes n steps and yields r *)
  Inductive reads : B -> Lo -> nat -> option M -> Prop :=
  | reads_end b l b' r : ld_step ld b l = (b', inr r) -> reads b l 1 r
  | reads_more b l b' l' n r : ld_step ld b l = (b', inl l') -> reads b' l' n r -> reads b l (S n) r.
  (** the model loaded from a path, and how many reading steps it takes *)
  Definition loads (p : P) (n : nat) (r : option M) : Prop := reads (fst (ld_open ld p)) (snd (ld_open ld p)) n r.
  (** between taking and giving back the lock *)
  Definition inside (c : call P Lo) : Prop :=
    match cl_pc c with Called => False | Returned _ => False | _ => True end.
  Definition finished (c : call P Lo) : Prop := exists ok, cl_pc c = Returned ok.
End Spec.

Section Count.
  Context {P B Lo M : Type} (ld : loader P B Lo M).
  (** how many of the scheduled moves could be taken *)
  Fixpoint moves (l : list nat) (s : shared P B Lo M) : nat :=
    match l with
    | [] => 0
    | i :: t => match thread_step ld i s with Some s' => S (moves t s') | None => moves t s end
    end.
End Count.
