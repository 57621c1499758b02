(** Properties C31-C35: alignment of two signals, slices. *)
From Coq Require Import ZArith List Bool Reals Lra Lia Floats.
From Verif Require Import Base.Res Base.Num Base.NumR Base.NumF Base.Lists Model.Amatrix Model.MiscMath Model.Fft
  Model.FilterBank Model.Alignment Model.Selector Spec.AlignSpec Spec.FftSpec
  Proofs.FftP Proofs.DftP Proofs.XcorrP Proofs.AlignP Proofs.AlignCasesP.
Import ListNotations.
Open Scope R_scope.

(** C31 in exact arithmetic, for every FFT that keeps the buffer length (so for every lag it can give). *)
Theorem C31_shift_only (pf : pffft R) (ref deg d : audio R) (t : R) : keeps_length pf ->
  (1 <= Z.of_nat (length (au_data ref)) < 2 ^ 30)%Z -> (1 <= Z.of_nat (length (au_data deg)) < 2 ^ 30)%Z ->
  globally_align pf ref deg = Ret (d, t) -> aligned_by ref deg d t.
Proof. exact (globally_align_cases pf ref deg d t (half_exact_R _)). Qed.
Print Assumptions C31_shift_only.
(** C31 in binary64. *)
Theorem C31_shift_only_binary64 (pf : pffft PrimFloat.float) (ref deg d : audio PrimFloat.float) t : keeps_length pf ->
  (1 <= Z.of_nat (length (au_data ref)) < 2 ^ 30)%Z -> (1 <= Z.of_nat (length (au_data deg)) < 2 ^ 30)%Z ->
  globally_align pf ref deg = Ret (d, t) -> aligned_by ref deg d t.
Proof. exact (globally_align_cases pf ref deg d t half_exact_F). Qed.
Print Assumptions C31_shift_only_binary64.
Example C31_example : globally_align fft32 (click 12 2) (click 16 4) =
  Ret (MkAudio (skipn 2 (au_data (click 16 4))) 16000, PrimFloat.div (nofZ (-2)) (nofZ 16000)).
Proof. exact (proj1 late_click). Qed.

(** C32 in exact arithmetic with an ideal FFT, for nine samples or more. *)
Theorem C32_first_maximiser_partial (ref deg aligned : audio R) (t : R) :
  let n := Nat.max (length (au_data ref)) (length (au_data deg)) in
  (1 <= length (au_data ref))%nat -> (1 <= length (au_data deg))%nat -> (9 <= n)%nat -> (Z.of_nat n < 2 ^ 30)%Z ->
  globally_align ideal_fft ref deg = Ret (aligned, t) ->
  exists re de g, calc_upper_env ideal_fft (au_data ref) = Ret re /\ calc_upper_env ideal_fft (au_data deg) = Ret de /\
    first_maximiser (cross_correlation re de) (- (Z.of_nat n - 1)) (Z.of_nat n - 1) g /\
    ((2 * Z.abs g <= Z.of_nat (length (au_data ref)))%Z -> t = IZR g / IZR (au_sr deg)) /\
    ((2 * Z.abs g > Z.of_nat (length (au_data ref)))%Z -> t = 0).
Proof. exact (align_by_correlation ref deg aligned t). Qed.
Print Assumptions C32_first_maximiser_partial.
(** The lag search itself, for any two signals of which the longer has at least nine samples. *)
Theorem C32_lag_search_partial (s1 s2 : list R) :
  let n := Nat.max (length s1) (length s2) in
  (9 <= n)%nat -> (2 * Z.of_nat n - 1 < 2 ^ 31)%Z ->
  exists g, find_lowest_lag_index ideal_fft s1 s2 = Ret g /\
    first_maximiser (cross_correlation s1 s2) (- (Z.of_nat n - 1)) (Z.of_nat n - 1) g.
Proof. exact (lag_is_first_maximiser s1 s2). Qed.
Print Assumptions C32_lag_search_partial.
(** Up to eight samples the search takes every negative lag to have correlation 0. *)
Theorem C32_short_signals_refuted : exists s1 s2 g g', find_lowest_lag_index ideal_fft s1 s2 = Ret g /\
  length s1 = 2%nat /\ length s2 = 2%nat /\ (-1 <= g' <= 1)%Z /\ cross_correlation s1 s2 g < cross_correlation s1 s2 g'.
Proof. exact short_signals. Qed.
Print Assumptions C32_short_signals_refuted.
Example C32_example : exists g, find_lowest_lag_index ideal_fft (repeat 1 12) (repeat 2 10) = Ret g /\
  first_maximiser (cross_correlation (repeat 1 12) (repeat 2 10)) (-11) 11 g.
Proof. apply (lag_is_first_maximiser (repeat 1 12) (repeat 2 10)); cbn; lia. Qed.

(** C33 for every number type, every FFT and every lag; both signals have the same sample rate. *)
Theorem C33_equal_lengths {T} {N : Num T} (pf : pffft T) (ref deg r' d' : audio T) (lag : T) :
  au_sr ref = au_sr deg -> (Z.of_nat (length (au_data ref)) < two64)%Z ->
  (forall d t, globally_align pf ref deg = Ret (d, t) -> (Z.of_nat (length (au_data d)) < two64)%Z) ->
  align_and_truncate pf ref deg = Ret (r', d', lag) ->
  exists aligned, globally_align pf ref deg = Ret (aligned, lag) /\
    length (au_data r') = length (au_data d') /\
    part_of (au_data ref) (au_data r') /\ part_of (au_data aligned) (au_data d').
Proof. exact (align_and_truncate_equal pf ref deg r' d' lag). Qed.
Print Assumptions C33_equal_lengths.
Example C33_example : exists r d t, align_and_truncate fft32 (click 16 2) (click 16 4) = Ret (r, d, t) /\
  au_data r = au_data (click 14 2) /\ au_data d = au_data (click 14 2).
Proof. exact late_click_same. Qed.

(** C34: a degraded signal that is no longer than the reference.  Exact arithmetic with an ideal FFT. *)
Theorem C34_no_failure_partial (ref deg : audio R) :
  (3 <= length (au_data ref))%nat -> (1 <= length (au_data deg))%nat -> (length (au_data deg) <= length (au_data ref))%nat ->
  (Z.of_nat (length (au_data ref)) < 2 ^ 30)%Z -> (1 <= au_sr ref < 2 ^ 31)%Z -> au_sr deg = au_sr ref ->
  exists r' d' t, align_and_truncate ideal_fft ref deg = Ret (r', d', t).
Proof. exact (align_returns_R ref deg). Qed.
Print Assumptions C34_no_failure_partial.
(** Binary64 and any FFT keeping the buffer length: the degraded signal has more than half the reference's length and
    at most its length. *)
Theorem C34_no_failure_binary64_partial (pf : pffft PrimFloat.float) (ref deg : audio PrimFloat.float) : keeps_length pf ->
  (length (au_data ref) < 2 * length (au_data deg))%nat -> (length (au_data deg) <= length (au_data ref))%nat ->
  (Z.of_nat (length (au_data ref)) < 2 ^ 30)%Z -> (1 <= au_sr ref < 2 ^ 31)%Z -> au_sr deg = au_sr ref ->
  exists r' d' t, align_and_truncate pf ref deg = Ret (r', d', t).
Proof. exact (align_and_truncate_returns pf ref deg half_exact_F lag_back_F zero_back_F). Qed.
Print Assumptions C34_no_failure_binary64_partial.
(** As stated it fails: a degraded signal longer than the reference whose content comes late. *)
Theorem C34_longer_degraded_refuted : exists ref deg : audio PrimFloat.float, au_sr ref = au_sr deg /\
  length (au_data ref) = 12%nat /\ length (au_data deg) = 16%nat /\
  align_and_truncate fft32 ref deg = Throw.
Proof. exact (ex_intro _ (click 12 2) (ex_intro _ (click 16 4) (conj eq_refl (conj eq_refl (conj eq_refl (proj2 late_click)))))). Qed.
Print Assumptions C34_longer_degraded_refuted.
Example C34_example : exists r d t, align_and_truncate fft32 (click 16 6) (click 16 4) = Ret (r, d, t) /\
  au_data r = au_data (click 14 4) /\ au_data d = au_data (click 14 4).
Proof. exact early_click_same. Qed.

(** C35 for intervals that end before the last sample (they may start before the signal); exact arithmetic. *)
Theorem C35_slice_partial (s : audio R) (i j : Z) : (1 <= au_sr s)%Z -> (- 2 ^ 31 <= i < j)%Z ->
  (0 < j < Z.of_nat (length (au_data s)))%Z -> (Z.of_nat (length (au_data s)) <= 2 ^ 31)%Z ->
  slice s (IZR i / IZR (au_sr s)) (IZR j / IZR (au_sr s)) = Ret (MkAudio (interval (au_data s) i j) (au_sr s)).
Proof. exact (slice_R s i j). Qed.
Print Assumptions C35_slice_partial.
(** As stated it fails: with the interval reaching past the end, the silence is put in front and the last sample is
    left out; with the interval ending exactly at the end, the last sample is left out. *)
Theorem C35_past_end_refuted : exists s : audio PrimFloat.float, au_sr s = 1%Z /\
  slice s 3%float 7%float = Ret (MkAudio [0; 0; 4]%float 1) /\ interval (au_data s) 3 7 = [4; 5; 0; 0]%float /\
  slice s 3%float 5%float = Ret (MkAudio [4]%float 1) /\ interval (au_data s) 3 5 = [4; 5]%float.
Proof. exact (ex_intro _ five (conj eq_refl (conj slice_past_end (conj eq_refl (conj slice_to_end eq_refl))))). Qed.
Print Assumptions C35_past_end_refuted.
Example C35_example : slice five (-1)%float 2%float = Ret (MkAudio [0; 1; 2]%float 1) /\
  interval (au_data five) (-1) 2 = [0; 1; 2]%float.
Proof. split; vm_compute; reflexivity. Qed.
