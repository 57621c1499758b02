(** Spec: managers that a program can get hold of. *)
From Coq Require Import ZArith List Bool String.
From Verif Require Import Base.Res Base.Num Model.FilterBank Model.Mappers Model.Visqol Model.Manager.
Import ListNotations.

(** Any sequence of Init and Run calls, in any order, succeeding or not; files and models may change in between. *)
Inductive reachable {T} {N : Num T} {L : Libm T} : manager T -> Prop :=
| r_new : reachable manager_new
| r_init w m a : reachable m -> reachable (fst (init w m a))
| r_run w m ref deg : reachable m -> reachable (fst (fst (run w m ref deg)))
| r_files w m rp dp : reachable m -> reachable (fst (run_files w m rp dp)).
