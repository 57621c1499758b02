(** Property C108: with single precision transforms the lag found is the best one. *)
From Coq Require Import ZArith List Bool Reals Floats.
From Flocq Require Import Core.Core.
From Verif Require Import Base.Res Base.Num Base.NumF Model.Fft Spec.FftSpec Spec.FftAccSpec Proofs.B64P Proofs.FftErrP Proofs.XcorrLagP Proofs.LagCasesP.
Import ListNotations.
Open Scope Z_scope.

(** C108 for the correlations: with transforms accurate to e, every computed correlation is within 25 e |s1| |s2| of the exact one.
    Correlations at negative lags stand at the end of the list. *)
Theorem C108_values (e : R) (pf : pffft PrimFloat.float) (s1 s2 : list PrimFloat.float) : accurate_fft e pf -> (bpow radix2 (-40) <= e <= bpow radix2 (-10))%R ->
  let n := Nat.max (length s1) (length s2) in (9 <= n)%nat -> 2 * Z.of_nat n - 1 < 2 ^ 31 -> Forall fin s1 -> Forall fin s2 ->
  (bpow radix2 (-20) <= size (exact s1) <= bpow radix2 20)%R -> (bpow radix2 (-20) <= size (exact s2) <= bpow radix2 20)%R ->
  exists v, inverse_fft_pointwise_product pf s1 s2 = Ret v /\ length v = fft_points n /\ Forall fin v /\
    forall g, - (Z.of_nat n - 1) <= g <= Z.of_nat n - 1 ->
      (Rabs (FR (nth (Z.to_nat (if g <? 0 then g + Z.of_nat (length v) else g)) v n0) - cross_correlation (exact s1) (exact s2) g)
         <= 25 * e * (size (exact s1) * size (exact s2)))%R.
Proof. exact (fun A E H1 H2 F1 F2 S1 S2 => values_near e pf s1 s2 A E H1 H2 F1 F2 _ _ (Rle_refl _) (Rle_refl _) S1 S2). Qed.
Print Assumptions C108_values.
(** C108 for every pair of signals: no lag has a correlation more than 50 e |s1| |s2| above that of the lag found. *)
Theorem C108_nearly_best (e : R) (pf : pffft PrimFloat.float) (s1 s2 : list PrimFloat.float) : accurate_fft e pf -> (bpow radix2 (-40) <= e <= bpow radix2 (-10))%R ->
  let n := Nat.max (length s1) (length s2) in (9 <= n)%nat -> 2 * Z.of_nat n - 1 < 2 ^ 31 -> Forall fin s1 -> Forall fin s2 ->
  (bpow radix2 (-20) <= size (exact s1) <= bpow radix2 20)%R -> (bpow radix2 (-20) <= size (exact s2) <= bpow radix2 20)%R ->
  exists g, find_lowest_lag_index pf s1 s2 = Ret g /\ - (Z.of_nat n - 1) <= g <= Z.of_nat n - 1 /\
    forall g', - (Z.of_nat n - 1) <= g' <= Z.of_nat n - 1 ->
      (cross_correlation (exact s1) (exact s2) g' <= cross_correlation (exact s1) (exact s2) g + 2 * (25 * e * (size (exact s1) * size (exact s2))))%R.
Proof. exact (fun A E H1 H2 F1 F2 S1 S2 => lag_near e pf s1 s2 A E H1 H2 F1 F2 _ _ (Rle_refl _) (Rle_refl _) S1 S2). Qed.
Print Assumptions C108_nearly_best.
(** C108 where the peak stands out: a lag whose exact correlation is more than 50 e |s1| |s2| above all others is the one found. *)
Theorem C108_best (e : R) (pf : pffft PrimFloat.float) (s1 s2 : list PrimFloat.float) (g : Z) : accurate_fft e pf -> (bpow radix2 (-40) <= e <= bpow radix2 (-10))%R ->
  let n := Nat.max (length s1) (length s2) in (9 <= n)%nat -> 2 * Z.of_nat n - 1 < 2 ^ 31 -> Forall fin s1 -> Forall fin s2 ->
  (bpow radix2 (-20) <= size (exact s1) <= bpow radix2 20)%R -> (bpow radix2 (-20) <= size (exact s2) <= bpow radix2 20)%R ->
  - (Z.of_nat n - 1) <= g <= Z.of_nat n - 1 ->
  (forall g', - (Z.of_nat n - 1) <= g' <= Z.of_nat n - 1 -> g' <> g ->
    (cross_correlation (exact s1) (exact s2) g' + 2 * (25 * e * (size (exact s1) * size (exact s2))) < cross_correlation (exact s1) (exact s2) g)%R) ->
  find_lowest_lag_index pf s1 s2 = Ret g.
Proof. exact (fun A E H1 H2 F1 F2 S1 S2 Hg H => lag_exact e pf s1 s2 A E H1 H2 F1 F2 _ _ (Rle_refl _) (Rle_refl _) S1 S2 g Hg H). Qed.
Print Assumptions C108_best.
(** a library that computes exactly and rounds its results to 32 bits is accurate, and finds that the first signal is three samples late *)
Example C108_example : accurate_fft (bpow radix2 (-22)) single_fft /\ (bpow radix2 (-40) <= bpow radix2 (-22) <= bpow radix2 (-10))%R /\
  (9 <= Nat.max (length late) (length early))%nat /\ Forall fin late /\ Forall fin early /\
  (bpow radix2 (-20) <= size (exact late) <= bpow radix2 20)%R /\ (bpow radix2 (-20) <= size (exact early) <= bpow radix2 20)%R /\
  find_lowest_lag_index single_fft late early = Ret 3.
Proof.
  refine (conj single_accurate (conj (conj _ _) (conj _ (conj _ (conj _ (conj _ (conj _ lag_three))))))).
  - apply bpow_le. discriminate.
  - apply bpow_le. discriminate.
  - repeat constructor.
  - repeat constructor.
  - repeat constructor.
  - apply size_range, (proj1 sizes).
  - apply size_range, (proj2 sizes).
Qed.
