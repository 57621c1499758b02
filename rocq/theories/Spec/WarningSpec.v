(** Spec: recordings whose durations differ by more than a second, in whole numbers (C112). *)
From Coq Require Import ZArith List.
From Verif Require Import Base.Num Model.FilterBank Model.Warnings.
Open Scope Z_scope.

(** |n1/r1 - n2/r2| > 1 multiplied by both rates *)
Definition durations_differ {T} (ref deg : audio T) : Prop :=
  au_sr ref * au_sr deg < Z.abs (Z.of_nat (length (au_data ref)) * au_sr deg - Z.of_nat (length (au_data deg)) * au_sr ref).

Definition warned_duration {T} (l : list (warning T)) : Prop := exists r d, In (DurationsDiffer r d) l.
