(** What C116 compares the binary64 spectrograms with: the levels that the filters of the bank give in exact arithmetic. *)
From Coq Require Import ZArith List Reals Floats.
From Verif Require Import Base.Res Base.Num Base.NumF Base.NumR Base.Mat Model.Amatrix Model.Window Model.Erb Model.FilterBank Model.Spectrogram Model.Visqol Model.Manager
  Spec.FilterAccSpec Proofs.B64P Proofs.BankP.
Import ListNotations.
Open Scope R_scope.

(** a matrix of binary64 numbers as a matrix of real numbers *)
Definition real_matrix (A : mat PrimFloat.float) : mat R := mmap FR A.

(** the spectrograms are matrices of the same size, and no entry of one is further than d from that of the other *)
Definition entrywise (d : R) (A : mat PrimFloat.float) (X : mat R) : Prop :=
  nrows A = nrows X /\ ncols A = ncols X /\ forall r c, (r < nrows A)%nat -> (c < ncols A)%nat -> fin (at_ A r c) /\ Rabs (FR (at_ A r c) - at_ X r c) <= d.

(** the number of decibels by which a change of d can change a level that is at least -45 dB *)
Definition decibel_gap (d : R) : R := 10 * (ln (1 + 31623 * d) / ln 10).

(** the level of frame t in band b computed by the filter of the bank without rounding *)
Definition exact_entry {L : Libm PrimFloat.float} (m : manager PrimFloat.float) (s : audio PrimFloat.float) (w : window PrimFloat.float) (b t : nat) : R :=
  let c := nth b (rev (fst (make_filters (au_sr s) (bk_bands (mg_bank m)) (bk_min (mg_bank m)) (builder_max_freq (st_speech (mg_settings m)) (au_sr s))))) (erb_channel 0 0%float) in
  match hop_size w with
  | Some h => match apply_hann w (frame w (au_data s) (t * Z.to_nat h)) with Ret f => exact_level (real_coeffs c) (map FR f) | _ => 0 end
  | None => 0
  end.
Definition exact_levels {L : Libm PrimFloat.float} (m : manager PrimFloat.float) (s : audio PrimFloat.float) (w : window PrimFloat.float) (sp : spectrogram PrimFloat.float) : mat R :=
  tab (nrows (sp_data sp)) (ncols (sp_data sp)) (exact_entry m s w).
