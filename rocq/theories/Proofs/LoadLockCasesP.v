(** C83: a loader that copies the file through its static buffer. *)
From Coq Require Import List PeanoNat.
From Verif Require Import Model.LoadLock Spec.LoadSpec.
Import ListNotations.

(** a file is a list of numbers; the model is the list read; an empty file has no model *)
Definition copier : loader (list nat) (list nat) (list nat) (list nat) :=
  MkLoader (fun p => ([], p))
    (fun b l => match l with [] => (b, inr (match b with [] => None | _ => Some b end)) | x :: t => (x :: b, inl t) end).
(** three calls, two of them on the same object, the last on an empty file *)
Definition three : list (nat * list nat) := [(0, [1; 2]); (1, [3]); (1, [])].
Definition unloaded : nat -> option (list nat) := fun _ => None.
(** thread 1 starts and is interrupted at every step by the others *)
Definition interleaved : list nat := [1; 0; 2; 1; 0; 2; 1; 0; 1; 2; 0; 1; 0; 2; 0; 1; 0; 0; 2; 0; 0; 2; 2; 2; 2; 2].

Lemma interleaved_result : let s := schedule copier interleaved (begin unloaded [] three) in
  map cl_pc (sh_calls s) = [Returned true; Returned true; Returned false] /\ sh_model s 0 = Some [2; 1] /\ sh_model s 1 = None.
Proof. repeat split; reflexivity. Qed.
Lemma three_load : Forall2 (fun j n => exists r, loads copier (snd j) n r) three [3; 2; 1].
Proof.
  repeat constructor; cbn.
  - exists (Some [2; 1]). eapply reads_more; [reflexivity|]. eapply reads_more; [reflexivity|]. eapply reads_end. reflexivity.
  - exists (Some [3]). eapply reads_more; [reflexivity|]. eapply reads_end. reflexivity.
  - exists None. eapply reads_end. reflexivity.
Qed.
