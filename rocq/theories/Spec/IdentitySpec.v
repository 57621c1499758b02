(** Spec: a recording long enough to be compared with itself, and the result of a perfect match. *)
From Coq Require Import ZArith List Reals.
From Verif Require Import Base.Num Base.NumR Model.FilterBank Model.Visqol Model.Manager Spec.TotalSpec.
Import ListNotations.

(** at least 45 windows (29 in speech mode, with the window a multiple of four samples), and nothing near the limits of int *)
Definition long_enough (st : settings R) (s : audio R) : Prop :=
  (44 <= au_sr s < 2 ^ 31 /\ Z.of_nat (length (au_data s)) < 2 ^ 29 /\
   (if st_speech st then 29 else 45) <= frames_in (au_sr s) (length (au_data s)) /\
   (st_speech st = true -> window_samples (au_sr s) mod 4 = 0 /\ window_samples (au_sr s) < 2 ^ 24) /\
   1 <= st_radius st /\
   frames_in (au_sr s) (length (au_data s)) + st_radius st * (if st_speech st then 20 else 30) <= 2 ^ 31)%Z.

(** everything a result says about similarity, for [nb] bands *)
Definition perfect_result (nb : nat) (msg : sim_msg R) : Prop :=
  ms_vnsim msg = 1%R /\ ms_fvnsim msg = repeat 1%R nb /\ ms_fvnsim10 msg = repeat 1%R nb /\ ms_fstdnsim msg = repeat 0%R nb /\
  ms_lag msg = 0%R /\ ms_patches msg <> [] /\
  Forall (fun p => pm_sim p = 1%R /\ pm_means p = repeat 1%R nb) (ms_patches msg).
