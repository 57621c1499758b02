(** Spec: two objects that differ in the search radius. *)
From Coq Require Import ZArith List Reals.
From Verif Require Import Base.Res Base.Num Base.NumR Base.Mat Model.Nsim Model.Visqol Model.Manager Spec.MatchSpec.
Open Scope R_scope.

(** same mode, mapper and alignment settings; the earlier use of the objects may differ *)
Definition same_but_radius (m m' : manager R) : Prop :=
  st_speech (mg_settings m) = st_speech (mg_settings m') /\ st_mapper (mg_settings m) = st_mapper (mg_settings m') /\
  st_no_realign (mg_settings m) = st_no_realign (mg_settings m') /\ mg_no_global m = mg_no_global m'.

(** every p frames of A are similar, in the sense of a positive similarity, to every p frames of B *)
Definition always_positive (p : nat) (A B : mat R) : Prop :=
  forall o s, (0 <= o)%Z -> (o + Z.of_nat p <= Z.of_nat (ncols A))%Z -> (s < ncols B)%nat ->
    0 < ps_sim (result_of (measure_patch_similarity (frames_at 0 A o p) (frames_at 0 B (Z.of_nat s) p))).

(** the same object with another radius *)
Definition with_radius {T} (r : Z) (m : manager T) : manager T :=
  MkManager (mg_init m) (MkSettings (st_speech (mg_settings m)) r (st_no_realign (mg_settings m)) (st_mapper (mg_settings m)))
            (mg_no_global m) (mg_bank m).

(** frames of [size] samples, one every [hop] samples, in a recording of n samples *)
Definition frame_count (size : nat) (hop : Z) (n : nat) : Z := (1 + (Z.of_nat n - Z.of_nat size) / hop)%Z.

(** a radius of r patches of p frames reaches from the first to the last of n frames *)
Definition reaches (r : Z) (p : nat) (n : Z) : Prop := (n <= r * Z.of_nat p /\ n + r * Z.of_nat p <= 2 ^ 31)%Z.
