(** Spec: a signal played louder, and transforms that respect loudness. *)
From Coq Require Import Reals List.
From Verif Require Import Base.NumR Model.Fft Model.FilterBank.
Import ListNotations.
Open Scope R_scope.

Definition louder (c : R) (s : audio R) : audio R := MkAudio (map (Rmult c) (au_data s)) (au_sr s).

(** multiplying the input by a positive factor multiplies the output by it *)
Definition homogeneous (pf : pffft R) : Prop :=
  forall c, 0 < c ->
    (forall l, pf_fwd pf (map (Rmult c) l) = map (Rmult c) (pf_fwd pf l)) /\
    (forall l, pf_bwd pf (map (Rmult c) l) = map (Rmult c) (pf_bwd pf l)) /\
    (forall x, pf_f32 pf (c * x) = c * pf_f32 pf x).
