(** Spec: results in which nothing differs, and the level below which nothing is heard. *)
From Coq Require Import ZArith List Reals.
From Verif Require Import Base.Num Base.NumR Base.Mat Model.Amatrix Model.FilterBank Model.Spectrogram Model.Visqol Model.Manager Spec.TotalSpec Spec.IdentitySpec.
Import ListNotations.
Open Scope R_scope.

(** every patch and every band is found identical, for [nb] bands *)
Definition no_difference (nb : nat) (msg : sim_msg R) : Prop :=
  ms_vnsim msg = 1 /\ ms_fvnsim msg = repeat 1 nb /\ ms_fvnsim10 msg = repeat 1 nb /\ ms_fstdnsim msg = repeat 0 nb /\
  ms_patches msg <> [] /\ Forall (fun p => pm_sim p = 1 /\ pm_means p = repeat 1 nb) (ms_patches msg).

(** the amplitude of -45 dB *)
Definition audible : R := exp (- 4.5 * ln 10).
Definition all_audible (S : spectrogram R) : Prop :=
  forall b c, (b < nrows (sp_data S))%nat -> (c < ncols (sp_data S))%nat -> audible <= at_ (sp_data S) b c.
Definition within (eps : R) (s : audio R) : Prop := forall x, In x (au_data s) -> Rabs x <= eps.
