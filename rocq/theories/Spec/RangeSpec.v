(** Spec: the range of the numbers in a result. *)
From Coq Require Import List Reals.
From Verif Require Import Model.Manager.
Import ListNotations.
Open Scope R_scope.

Definition a_similarity (x : R) : Prop := -1 <= x <= 1.

(** the similarities of the patches and bands, the spread, the energy of the degraded signal, and the lowest decile, which is never above the mean *)
Definition in_range (msg : sim_msg R) : Prop :=
  a_similarity (ms_vnsim msg) /\ Forall a_similarity (ms_fvnsim msg) /\ Forall a_similarity (ms_fvnsim10 msg) /\
  Forall (fun p => a_similarity (pm_sim p) /\ Forall a_similarity (pm_means p)) (ms_patches msg) /\
  Forall (fun x => 0 <= x) (ms_fstdnsim msg) /\ Forall (fun x => 0 <= x) (ms_fvdegenergy msg) /\
  Forall2 Rle (ms_fvnsim10 msg) (ms_fvnsim msg).
