(** Spec: a quality model that can answer. *)
From Coq Require Import List String ZArith.
From Verif Require Import Base.Num Model.Mappers.
Import ListNotations.

(** the fit needs nothing, the regression model must have been loaded, the lattice model must have been loaded and have
    an input for every feature it is given: four per band, and "tau" (tflite_quality_mapper.cc:80-110) *)
Definition can_predict {T} {N : Num T} (m : mapper T) : Prop :=
  match m with
  | MSpeech _ => True
  | MSvr o => o <> None
  | MLattice _ None => False
  | MLattice n (Some l) =>
      In "tau"%string (lt_inputs l) /\
      forall b s, (b < n)%nat -> In s ["fvnsim"; "fvnsim10_"; "fstdnsim"; "fvdegenergy"]%string -> In (append s (dec_string b)) (lt_inputs l)
  end.

(** the window is 0.08 seconds, rounded to whole samples; the hop is a quarter of it, rounded down *)
Definition window_samples (sr : Z) : Z := ((4 * sr + 25) / 50)%Z.
Definition hop_samples (sr : Z) : Z := (window_samples sr / 4)%Z.
(** windows that fit in n samples *)
Definition frames_in (sr : Z) (n : nat) : Z := (1 + (Z.of_nat n - window_samples sr) / hop_samples sr)%Z.
