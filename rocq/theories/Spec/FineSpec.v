(** Spec: the times of a frame and of the end of a patch, as the matching reports them, and a patch record that carries
    them (comparison_patches_selector.cc:176-199). *)
From Coq Require Import ZArith.
From Verif Require Import Base.Num Model.Nsim.
Open Scope Z_scope.

Section Times.
  Context {T : Type} {N : Num T}.
  (** hop [h], sample rate [sr]: frame [i] starts at i * (h / sr); a patch of [p] frames ends p * (h / sr) later *)
  Definition frame_time (h sr i : Z) : T := nmul (nofZ i) (ndiv (nofZ h) (nofZ sr)).
  Definition frame_end (h sr p i : Z) : T := nadd (frame_time h sr i) (nmul (ndiv (nofZ h) (nofZ sr)) (nofZ p)).
  (** a reference patch at frame [i] matched to the degraded frame [j] *)
  Definition matched_at (h sr p i j : Z) (r : psr T) : Prop :=
    ps_ref_start r = frame_time h sr i /\ ps_ref_end r = frame_end h sr p i /\
    ps_deg_start r = frame_time h sr j /\ ps_deg_end r = frame_end h sr p j.
End Times.
