(** Spec: the 3x3 weighted average with replicated borders, and the similarity of two values. *)
From Coq Require Import Reals List Arith.
Import ListNotations.
Open Scope R_scope.

(** coordinate [i + k - 1] clamped to [0, n-1] *)
Definition clamped (n i k : nat) : nat := Nat.min (i + k - 1) (n - 1).

(** weight of the neighbour at distance (k-1, l-1): corner, edge or centre *)
Definition weight (k l : nat) : R :=
  match k, l with
  | 1%nat, 1%nat => 0.619485845753726
  | 1%nat, _ | _, 1%nat => 0.0838251475442633
  | _, _ => 0.0113033910173052
  end.

(** weighted average of the nine neighbours of (r,c) in a matrix with [nr] rows and [nc] columns *)
Definition smooth (nr nc : nat) (x : nat -> nat -> R) (r c : nat) : R :=
  fold_right Rplus 0
    (map (fun p => weight (fst p) (snd p) * x (clamped nr r (fst p)) (clamped nc c (snd p)))
         (list_prod (seq 0 3) (seq 0 3))).

(** similarity of two values from their smoothed values, squares and product: the product of the
    intensity and structure terms with the constants 0.01^2 and 0.03^2/2 *)
Definition similarity (nr nc : nat) (x y : nat -> nat -> R) (r c : nat) : R :=
  let S f := smooth nr nc f r c in
  let mx := S x in
  let my := S y in
  let vx := S (fun i j => x i j * x i j) - mx * mx in
  let vy := S (fun i j => y i j * y i j) - my * my in
  let cov := S (fun i j => x i j * y i j) - mx * my in
  (2 * (mx * my) + 0.0001) / (mx * mx + my * my + 0.0001)
  * ((cov + 0.00045) / (sqrt (vx * vy) + 0.00045)).
