(** Property C116: the decibels that are compared are accurate in binary64. *)
From Coq Require Import ZArith List Bool Reals Floats.
From Verif Require Import Base.Res Base.Num Base.NumF Base.NumR Base.Mat Model.Amatrix Model.Window Model.Erb Model.FilterBank Model.Spectrogram Model.Visqol Model.Manager
  Spec.StatSpec Spec.ManagerSpec Spec.LibmSpec Spec.StableSpec Spec.FilterAccSpec Spec.DbAccSpec Proofs.B64P Proofs.BankP Proofs.RoundedLibmP Proofs.AccurateCasesP Proofs.FilterBankAccP Proofs.DbAccP.
Import ListNotations.
Open Scope R_scope.

(** C116 for rounding: preparing two spectrograms of finite numbers (decibels, both noise floors, subtraction of the minimum)
    gives the entries that exact arithmetic gives, to 0.00000002 dB. *)
Theorem C116_rounding {L : Libm PrimFloat.float} (A B : mat PrimFloat.float) : accurate L -> wf A -> wf B -> Forall fin (elems A) -> Forall fin (elems B) ->
  (0 < nrows A)%nat -> (0 < nrows B)%nat -> (0 < ncols A)%nat -> (0 < ncols B)%nat ->
  exists A' B' X' Y', prepare_spectrograms A B = Ret (A', B') /\ prepare_spectrograms (real_matrix A) (real_matrix B) = Ret (X', Y') /\
    entrywise (2 / 100000000) A' X' /\ entrywise (2 / 100000000) B' Y'.
Proof. exact (fun H => preparation_accurate H A B). Qed.
Print Assumptions C116_rounding.
Example C116_rounding_example : let A := MkMat 2 2 [0.5; 0; 0.25; 1e-9]%float in accurate rounded_libm /\ wf A /\ Forall fin (elems A).
Proof. split; [exact rounded_accurate|]. split; [reflexivity|]. repeat constructor. Qed.

(** C116 for errors in the spectrograms: if no entry is further than d from X and Y, no prepared entry is further from that of
    X and Y than twice the gap that d makes at -45 dB. *)
Theorem C116_levels {L : Libm PrimFloat.float} (d : R) (A B : mat PrimFloat.float) (X Y : mat R) : accurate L -> wf A -> wf B -> wf X -> wf Y ->
  0 <= d -> entrywise d A X -> entrywise d B Y ->
  (0 < nrows A)%nat -> (0 < nrows B)%nat -> (0 < ncols A)%nat -> (0 < ncols B)%nat ->
  exists A' B' X' Y', prepare_spectrograms A B = Ret (A', B') /\ prepare_spectrograms X Y = Ret (X', Y') /\
    entrywise (2 * decibel_gap d + 2 / 100000000) A' X' /\ entrywise (2 * decibel_gap d + 2 / 100000000) B' Y'.
Proof. exact (fun H => levels_near H d A B X Y). Qed.
Print Assumptions C116_levels.
Example C116_levels_example : entrywise (1 / 100000) (MkMat 1 2 [0.5; 0]%float) (MkMat 1 2 [1 / 2 + 1 / 100000; 0]).
Proof. exact (small_entrywise _ hundred_thousandth). Qed.

(** C116 for the spectrograms of the program: after preparation no entry is further than 2.4 dB from what exact filters, exact
    levels and exact decibels give. *)
Theorem C116_spectrograms {L : Libm PrimFloat.float} (m : manager PrimFloat.float) (s1 s2 : audio PrimFloat.float) (w : window PrimFloat.float) (sp1 sp2 : spectrogram PrimFloat.float) :
  accurate L -> reachable m -> (4000 <= au_sr s1 <= 48000)%Z -> (4000 <= au_sr s2 <= 48000)%Z -> (2 <= Z.of_nat (w_size w) <= 2 ^ 20)%Z ->
  Forall (within 1) (au_data s1) -> Forall (within 1) (au_data s2) ->
  snd (build (st_speech (mg_settings m)) (mg_bank m) s1 w) = Ret sp1 -> snd (build (st_speech (mg_settings m)) (mg_bank m) s2 w) = Ret sp2 ->
  exists A' B' X' Y', prepare_spectrograms (sp_data sp1) (sp_data sp2) = Ret (A', B') /\
    prepare_spectrograms (exact_levels m s1 w sp1) (exact_levels m s2 w sp2) = Ret (X', Y') /\ entrywise (24 / 10) A' X' /\ entrywise (24 / 10) B' Y'.
Proof. exact (fun H => compared_levels H m s1 s2 w sp1 sp2). Qed.
Print Assumptions C116_spectrograms.
(** 2700 samples at 4000 Hz in speech mode: 21 bands and 30 frames *)
Example C116_spectrograms_example : accurate rounded_libm /\ reachable (L:=rounded_libm) (plain_manager true) /\ Forall (within 1) (au_data (tone 0.5%float)) /\
  exists sp, snd (build (L:=rounded_libm) (st_speech (mg_settings (plain_manager true))) (mg_bank (plain_manager true)) (tone 0.5%float) tone_window) = Ret sp /\
    nrows (sp_data sp) = 21%nat /\ ncols (sp_data sp) = 30%nat.
Proof. exact (conj rounded_accurate (conj (proj1 (plain_reached true)) (conj tone_within tone_built))). Qed.

(** C116 for audible entries: an entry that is within 1/100000 of an exact level of at least 1/100 (-20 dB), as those of the program
    are by C115, has its decibels to within 0.005 dB. *)
Theorem C116_audible {L : Libm PrimFloat.float} (A : mat PrimFloat.float) (X : mat R) (r c : nat) : accurate L -> wf A -> entrywise (1 / 100000) A X ->
  (r < nrows A)%nat -> (c < ncols A)%nat -> 1 / 100 <= at_ X r c -> Rabs (FR (at_ (to_db A) r c) - level (at_ X r c)) <= 5 / 1000.
Proof. exact (fun H => loud_entries H A X r c). Qed.
Print Assumptions C116_audible.
Example C116_audible_example : entrywise (1 / 100000) (MkMat 1 2 [0.5; 0]%float) (MkMat 1 2 [1 / 2 + 1 / 100000; 0]) /\ 1 / 100 <= at_ (MkMat 1 2 [1 / 2 + 1 / 100000; 0]) 0 0.
Proof. exact (conj (small_entrywise _ hundred_thousandth) half_audible). Qed.
