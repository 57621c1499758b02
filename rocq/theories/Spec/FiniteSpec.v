(** Spec: the numbers of a result that are finite in binary64. *)
From Coq Require Import List Floats.
From Verif Require Import Base.NumF Model.Manager.
Import ListNotations.

(** neither undefined nor infinite *)
Definition finite_value (x : float) : Prop := PrimFloat.is_finite x = true.
(** the similarity, its means, lowest deciles and spreads by band, the energy by band, the similarities of each patch, and where in the
    reference it starts and, later, ends, and the lag of the first alignment *)
Definition finite_numbers (msg : sim_msg float) : Prop :=
  finite_value (ms_vnsim msg) /\ Forall finite_value (ms_fvnsim msg) /\ Forall finite_value (ms_fvnsim10 msg) /\ Forall finite_value (ms_fstdnsim msg) /\ Forall finite_value (ms_fvdegenergy msg) /\
  Forall (fun p => finite_value (pm_sim p) /\ Forall finite_value (pm_means p) /\ finite_value (pm_ref_start p) /\ finite_value (pm_ref_end p) /\ PrimFloat.ltb (pm_ref_start p) (pm_ref_end p) = true) (ms_patches msg) /\
  finite_value (ms_lag msg).
