(** Spec: a piece of sound placed in a recording, with silence before and after it. *)
From Coq Require Import Reals List.
From Verif Require Import Spec.FftSpec.
Import ListNotations.
Open Scope R_scope.

(** [p] silent samples, the samples [x], [q] silent samples *)
Definition placed (p : nat) (x : list R) (q : nat) : list R := repeat 0 p ++ x ++ repeat 0 q.

(** no constant part and no part at half the sample rate *)
Definition balanced (x : list R) : Prop :=
  sum (length x) (smp x) = 0 /\ sum (length x) (fun i => (-1) ^ i * smp x i) = 0.

(** some sample is not silent *)
Definition audible (x : list R) : Prop := exists i, smp x i <> 0.
