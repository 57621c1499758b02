(** What C105 says about loaded samples. *)
From Coq Require Import ZArith List Reals Floats.
From Verif Require Import Proofs.B64P.
Import ListNotations.

(** the samples of all channels at time i, in an interleaved list *)
Definition at_once (ch : nat) (samples : list Z) (i : nat) : list Z := map (fun k => nth (i * ch + k) samples 0%Z) (seq 0 ch).
(** their mean, full scale being 1 *)
Definition mean_level (zs : list Z) : R := (IZR (fold_right Z.add 0%Z zs) / 32768 / IZR (Z.of_nat (length zs)))%R.
(** no number of binary64 is closer to r *)
Definition closest (r : R) (x : float) : Prop := fin x /\ forall y, fin y -> (Rabs (FR x - r) <= Rabs (FR y - r))%R.
(** 16-bit samples in a number of channels, as a file can hold them *)
Definition holdable (channels rate : Z) (samples : list Z) : Prop :=
  (1 <= channels < 65536)%Z /\ (0 <= rate < 2 ^ 31)%Z /\ samples <> [] /\ (2 * Z.of_nat (length samples) < 2 ^ 32)%Z /\ Forall (fun z => -32768 <= z < 32768)%Z samples.
