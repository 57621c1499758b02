(** Spec: a spectrogram as it is compared, and a recording compared with itself. *)
From Coq Require Import ZArith List Floats.
From Verif Require Import Base.Num Base.NumF Base.Mat Model.Amatrix Model.FilterBank.
Import ListNotations.

(** a table of at least one and at most a million rows and columns, with entries of at most 4100 in size (prepared spectrograms range from 0 to 4045 dB) *)
Definition patch_table (A : mat float) : Prop :=
  (1 <= Z.of_nat (nrows A) <= 1000000)%Z /\ (1 <= Z.of_nat (ncols A) <= 1000000)%Z /\
  forall r c, (r < nrows A)%nat -> (c < ncols A)%nat -> PrimFloat.leb (PrimFloat.abs (at_ A r c)) 4100 = true.

(** a recording with at least one sample that is not zero *)
Definition audible (s : audio float) : Prop := Exists (fun x => PrimFloat.eqb x 0 = false) (au_data s).
