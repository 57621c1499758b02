(** Independent specification of voice-activity based patch selection. *)
From Coq Require Import ZArith List Bool Reals.
Import ListNotations.

(** [chunk n l k]: the k-th block of [n] consecutive samples of [l] *)
Definition chunk {A} (n : nat) (l : list A) (k : nat) : list A := firstn n (skipn (k * n) l).

(** number of complete blocks *)
Definition chunk_count {A} (n : nat) (l : list A) : nat := length l / n.

(** The documented rule: result [j] is "no voice activity" iff chunk [j] and the two before it are all
    quiet; the first two results are always "active".  [quiet k] says whether chunk [k] is quiet. *)
Definition inactive (quiet : nat -> Prop) (j : nat) : Prop :=
  2 <= j /\ quiet j /\ quiet (j - 1) /\ quiet (j - 2).

(** start frames of the patches on the grid first, first + p, ..., [n] of them *)
Definition grid (first p : Z) (n : nat) : list Z :=
  map (fun k => (first + Z.of_nat k * p)%Z) (seq 0 n).
