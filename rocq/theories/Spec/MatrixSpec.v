(** What C102 says about the matrix class. *)
From Coq Require Import ZArith List Bool.
From Verif Require Import Base.Num Base.Mat.
Import ListNotations.
Open Scope nat_scope.

(** [M] has [nr] rows and [nc] columns; its elements are stored column by column and the one in row r and column c is [f r c] *)
Definition holds {T} (M : mat T) (nr nc : nat) (f : nat -> nat -> T) : Prop :=
  nrows M = nr /\ ncols M = nc /\ length (elems M) = nr * nc /\ (forall r c, r < nr -> c < nc -> nth_error (elems M) (c * nr + r) = Some (f r c)).
(** a row or column number *)
Definition below (z : Z) (n : nat) : Prop := (0 <= z < Z.of_nat n)%Z.
(** the elements from position i up to, not including, position j, with their positions *)
Definition listed {T} {N : Num T} (l : list T) (i j : Z) : list (Z * T) := map (fun k => (i + Z.of_nat k, nth (Z.to_nat i + k) l n0)%Z) (seq 0 (Z.to_nat (j - i))).
