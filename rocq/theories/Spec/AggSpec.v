(** Spec: the summary numbers of a comparison. *)
From Coq Require Import ZArith List Bool Reals Sorted Permutation.
From Verif Require Import Base.Num Base.Mat Model.Nsim Spec.StatSpec.
Import ListNotations.

(** sum from the first to the last value, divided by their number *)
Definition average {T} {N : Num T} (l : list T) : T := ndiv (fold_left nadd l n0) (nofZ (Z.of_nat (length l))).

(** the values in ascending order *)
Definition ascending (l s : list R) : Prop := Permutation l s /\ StronglySorted Rle s.

(** number of values in the lowest decile: a tenth, at least one *)
Definition decile_size (n : nat) : nat := Nat.max 1 (n / 10).

(** a patch result that summarises these per-frame similarities, one list of frames per band, all of one length *)
Definition of_frames (p : psr R) (frames : list (list R)) (len : nat) : Prop :=
  (forall f, In f frames -> length f = len) /\
  ps_means p = MkMat (length frames) 1 (map mean frames) /\
  ps_stddevs p = MkMat (length frames) 1 (map stddev frames).
