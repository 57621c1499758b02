(** Spec: a recording with inverted polarity, and a constant one. *)
From Coq Require Import Reals List ZArith.
From Verif Require Import Base.NumR Model.FilterBank.
Definition inverted (s : audio R) : audio R := MkAudio (map Ropp (au_data s)) (au_sr s).
Definition constant (n : nat) (c : R) : audio R := MkAudio (repeat c n) 50.
