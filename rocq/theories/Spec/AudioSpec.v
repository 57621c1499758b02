(** Spec: interleaving of channels, energy of a signal. *)
From Coq Require Import Reals List.
Import ListNotations.

(** frame i, channel by channel *)
Definition interleave {A} (d : A) (n : nat) (chans : list (list A)) : list A :=
  flat_map (fun i => map (fun ch => nth i ch d) chans) (seq 0 n).

Definition energy (l : list R) : R := fold_right Rplus 0%R (map (fun x => x * x)%R l).
(** sound pressure level in dB relative to 20 micropascal *)
Definition spl (l : list R) : R := (20 * (ln (sqrt (energy l / INR (length l)) / 0.00002) / ln 10))%R.
