(** Property C83: loading regression models from several threads. *)
From Coq Require Import List PeanoNat Bool.
From Verif Require Import Model.LoadLock Spec.LoadSpec Proofs.LoadLockP Proofs.LoadLockCasesP.
Import ListNotations.

(** C83: for any number of calls on any objects, any loader and any interleaving: never two inside the locked part *)
Theorem C83_one_at_a_time {P B Lo M} (ld : loader P B Lo M) f b jobs l i j ci cj :
  let s := schedule ld l (begin f b jobs) in
  nth_error (sh_calls s) i = Some ci -> nth_error (sh_calls s) j = Some cj -> inside ci -> inside cj -> i = j.
Proof. exact (exclusive ld f b jobs l i j ci cj). Qed.
Print Assumptions C83_one_at_a_time.

(** every call that has returned says whether its own file, loaded with nothing else running, gives a model *)
Theorem C83_same_as_alone {P B Lo M} (ld : loader P B Lo M) f b jobs l i c ok :
  let s := schedule ld l (begin f b jobs) in
  nth_error (sh_calls s) i = Some c -> cl_pc c = Returned ok ->
  nth_error jobs i = Some (cl_obj c, cl_path c) /\ exists n r, loads ld (cl_path c) n r /\ (ok = true <-> r <> None).
Proof. exact (as_alone ld f b jobs l i c ok). Qed.
Print Assumptions C83_same_as_alone.

(** an object's model is the old one, if no call on it has returned, or that of a path given in some call on it *)
Theorem C83_model_of_some_call {P B Lo M} (ld : loader P B Lo M) f b jobs l o :
  let s := schedule ld l (begin f b jobs) in
  (sh_model s o = f o /\ forall c, In c (sh_calls s) -> finished c -> cl_obj c <> o) \/
  exists p n, In (o, p) jobs /\ loads ld p n (sh_model s o).
Proof. exact (object_model ld f b jobs l o). Qed.
Print Assumptions C83_model_of_some_call.

(** no deadlock: while some call has not returned, some thread can move *)
Theorem C83_no_deadlock {P B Lo M} (ld : loader P B Lo M) f b jobs l :
  let s := schedule ld l (begin f b jobs) in
  (exists c, In c (sh_calls s) /\ ~ finished c) -> exists i s', thread_step ld i s = Some s'.
Proof. exact (progress ld f b jobs l). Qed.
Print Assumptions C83_no_deadlock.

(** if each file can be loaded, all calls have returned after a number of moves that does not depend on the interleaving *)
Theorem C83_all_return {P B Lo M} (ld : loader P B Lo M) f b jobs ns l :
  Forall2 (fun j n => exists r, loads ld (snd j) n r) jobs ns ->
  let s := schedule ld l (begin f b jobs) in let all := fold_right Nat.add 0 (map (fun n => n + 3) ns) in
  moves ld l (begin f b jobs) <= all /\ (moves ld l (begin f b jobs) = all <-> Forall finished (sh_calls s)).
Proof. exact (counted ld f b jobs ns l). Qed.
Print Assumptions C83_all_return.

(** three calls, two on one object, one of them failing, interleaved *)
Example C83_example : Forall2 (fun j n => exists r, loads copier (snd j) n r) three [3; 2; 1] /\
  let s := schedule copier interleaved (begin unloaded [] three) in
  map cl_pc (sh_calls s) = [Returned true; Returned true; Returned false] /\ sh_model s 0 = Some [2; 1] /\ sh_model s 1 = None.
Proof. exact (conj three_load interleaved_result). Qed.
