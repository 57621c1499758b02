(** What alignment of a degraded signal to a reference may do to it. *)
From Coq Require Import ZArith List.
From Verif Require Import Base.Num Model.FilterBank.
Import ListNotations.
Open Scope nat_scope.

(** [d] with lag [t] is the degraded signal unchanged, or without its first k samples, or with k zero samples in
    front, 1 <= k <= half the reference length *)
Definition aligned_by {T} {N : Num T} (ref deg d : audio T) (t : T) : Prop :=
  (d = deg /\ t = n0) \/
  (exists k, 1 <= k < length (au_data deg) /\ 2 * k <= length (au_data ref) /\
     au_data d = skipn k (au_data deg) /\ au_sr d = au_sr deg /\ t = ndiv (nofZ (- Z.of_nat k)) (nofZ (au_sr deg))) \/
  (exists k, 1 <= k /\ 2 * k <= length (au_data ref) /\
     au_data d = repeat n0 k ++ au_data deg /\ au_sr d = au_sr deg /\ t = ndiv (nofZ (Z.of_nat k)) (nofZ (au_sr deg))).

(** [m] is a contiguous part of [l] *)
Definition part_of {A} (l m : list A) : Prop := exists i, m = firstn (length m) (skipn i l).

(** the samples at positions i, i+1, ..., j-1; positions outside the signal are silent *)
Definition interval {T} {N : Num T} (l : list T) (i j : Z) : list T :=
  map (fun m => let z := (i + Z.of_nat m)%Z in if (z <? 0)%Z then n0 else nth (Z.to_nat z) l n0)
      (seq 0 (Z.to_nat (j - i))).
