(** Property C95: a delayed copy of a recording is aligned exactly. *)
From Coq Require Import ZArith List Reals Lra Lia.
From Verif Require Import Base.Res Base.Num Base.NumR Model.FilterBank Model.Alignment Spec.FftSpec Spec.CopySpec Proofs.DftP Proofs.CopyP.
Import ListNotations.
Open Scope R_scope.

(** A sound with a constant part can be placed wrongly: a constant of twelve samples, repeated after two silent samples. *)
Theorem C95_copy_aligned_refuted : exists x k, audible x /\ (9 <= length x)%nat /\ (2 * k <= length x)%nat /\
  exists d t, globally_align ideal_fft (MkAudio x 1) (MkAudio (placed k x 0) 1) = Ret (d, t) /\ t <> - INR k.
Proof. exact constant_part. Qed.
Print Assumptions C95_copy_aligned_refuted.
(** For a sound without a constant part and without a part at half the sample rate: the copy, scaled by any factor
    but 0 and placed anywhere at most half the length of the reference away, is moved to the place of the sound in the reference. *)
Theorem C95_copy_aligned_partial (p q k j : nat) (x : list R) (c : R) (sr sr' : Z) : balanced x -> audible x -> c <> 0 ->
  (9 <= Nat.max (p + length x + q) (k + length x + j))%nat -> (Z.of_nat (p + length x + q) < 2 ^ 30)%Z -> (Z.of_nat (k + length x + j) < 2 ^ 30)%Z ->
  (2 * Z.abs (Z.of_nat p - Z.of_nat k) <= Z.of_nat (p + length x + q))%Z ->
  globally_align ideal_fft (MkAudio (placed p x q) sr) (MkAudio (placed k (map (Rmult c) x) j) sr') =
  Ret (MkAudio (placed p (map (Rmult c) x) j) sr', IZR (Z.of_nat p - Z.of_nat k) / IZR sr').
Proof. exact (copy_aligned p q k j x c sr sr'). Qed.
Print Assumptions C95_copy_aligned_partial.
(** A recording and its copy started k samples late come out of alignment and truncation as the same samples. *)
Theorem C95_delayed_copy_partial (x : list R) (k : nat) (sr sr' : Z) : balanced x -> audible x ->
  (9 <= length x + k)%nat -> (Z.of_nat (length x + k) < 2 ^ 30)%Z -> (2 * k <= length x)%nat ->
  align_and_truncate ideal_fft (MkAudio x sr) (MkAudio (repeat 0 k ++ x) sr') = Ret (MkAudio x sr, MkAudio x sr', - (INR k / IZR sr')).
Proof. exact (delayed_copy x k sr sr'). Qed.
Print Assumptions C95_delayed_copy_partial.
Example C95_example :
  globally_align ideal_fft (MkAudio (placed 5 blip 1) 16000) (MkAudio (placed 2 (map (Rmult (-3)) blip) 7) 16000) =
    Ret (MkAudio (placed 5 (map (Rmult (-3)) blip) 7) 16000, 3 / 16000) /\
  align_and_truncate ideal_fft (MkAudio blip 8000) (MkAudio (repeat 0 2 ++ blip) 8000) = Ret (MkAudio blip 8000, MkAudio blip 8000, - (INR 2 / 8000)).
Proof.
  split.
  - apply (copy_aligned 5 1 2 7 blip (-3) 16000 16000); [exact (proj1 blip_balanced)|exact (proj2 blip_balanced)|lra|cbn; lia..].
  - apply (delayed_copy blip 2 8000 8000); [exact (proj1 blip_balanced)|exact (proj2 blip_balanced)|cbn; lia..].
Qed.
