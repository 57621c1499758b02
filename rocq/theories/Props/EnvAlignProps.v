(** Property C109: with single precision transforms the first alignment shifts the degraded recording by the best lag. *)
From Coq Require Import ZArith List Bool Reals Floats.
From Flocq Require Import Core.Core.
From Verif Require Import Base.Res Base.Num Base.NumF Base.Mat Model.Window Model.FilterBank Model.Fft Model.Nsim Model.MiscAudio Model.Alignment Model.Mappers Model.Visqol Model.Manager
  Spec.ManagerSpec Spec.TotalSpec Spec.LibmSpec Spec.PcmSpec Spec.SelfSpec Spec.FftSpec Spec.EnvelopeSpec Spec.FftAccSpec Spec.EnvAccSpec
  Proofs.B64P Proofs.FftP Proofs.XcorrLagP Proofs.EnvAlignP Proofs.ToyRunP Proofs.RoundedLibmP Proofs.AccurateCasesP Proofs.EnvCasesP.
Import ListNotations.
Open Scope Z_scope.

(** C109 for the envelope: with transforms accurate to e, the envelope computed of a signal s is within 18 e |s| of the exact one. *)
Theorem C109_envelope (e : R) (pf : pffft PrimFloat.float) (s : list PrimFloat.float) : accurate_transforms e pf -> (bpow radix2 (-23) <= e <= bpow radix2 (-10))%R ->
  Forall fin s -> (2 <= length s)%nat -> Z.of_nat (length s) <= 2 ^ 26 -> (bpow radix2 (-16) <= size (exact s) <= bpow radix2 16)%R ->
  exists v, calc_upper_env pf s = Ret v /\ length v = length s /\ Forall fin v /\ (distance (exact v) (rectified (exact s)) <= 18 * e * size (exact s))%R.
Proof. exact (fun A E => envelope_distance e pf A E s). Qed.
Print Assumptions C109_envelope.
(** C109 for the alignment: if the exact envelopes of the two recordings correlate better at the lag g than at every other lag, by more than
    1700 e |ref| |deg|, the degraded recording is moved by g and g is reported. *)
Theorem C109_alignment (e : R) (pf : pffft PrimFloat.float) (ref deg : audio PrimFloat.float) (g : Z) :
  accurate_transforms e pf -> (bpow radix2 (-23) <= e <= bpow radix2 (-10))%R ->
  let r := au_data ref in let d := au_data deg in
  Forall fin r /\ (2 <= length r)%nat /\ Z.of_nat (length r) <= 2 ^ 26 /\ (bpow radix2 (-16) <= size (exact r) <= bpow radix2 16)%R ->
  Forall fin d /\ (2 <= length d)%nat /\ Z.of_nat (length d) <= 2 ^ 26 /\ (bpow radix2 (-16) <= size (exact d) <= bpow radix2 16)%R ->
  let n := Nat.max (length r) (length d) in (9 <= n)%nat ->
  - Z.of_nat (length d) < g < Z.of_nat (length r) ->
  (forall g', - (Z.of_nat n - 1) <= g' <= Z.of_nat n - 1 -> g' <> g ->
     (cross_correlation (rectified (exact r)) (rectified (exact d)) g' + 1700 * e * (size (exact r) * size (exact d))
        < cross_correlation (rectified (exact r)) (rectified (exact d)) g)%R) ->
  globally_align pf ref deg = Ret (moved_by g ref deg).
Proof. exact (fun A E => alignment_shift e pf A E ref deg g). Qed.
Print Assumptions C109_alignment.
(** C109 for a recording and itself: with both alignments on, any result has a similarity of at least 0.999, provided that the exact envelope
    correlates with itself better than with its shifted copies. *)
Theorem C109_self {L : Libm PrimFloat.float} (e : R) (w : world PrimFloat.float) (m : manager PrimFloat.float) (s : audio PrimFloat.float) (msg : sim_msg PrimFloat.float) :
  accurate L -> mpow10 0%float = 1%float -> keeps_length (w_fft w) -> accurate_transforms e (w_fft w) -> (bpow radix2 (-23) <= e <= bpow radix2 (-10))%R ->
  mg_init m = true -> reachable m ->
  let sr := au_sr s in let st := mg_settings m in let x := au_data s in
  let frames := frames_in sr (length x) in let patch := if st_speech st then 20 else 30 in
  4000 <= sr <= 262144 -> Z.of_nat (length x) <= 2 ^ 26 ->
  (if st_speech st then 29 else 45) <= frames -> (st_speech st = true -> window_samples sr mod 4 = 0) ->
  frames <= st_radius st * patch -> frames + st_radius st * patch <= 2 ^ 31 ->
  Forall pcm x -> (bpow radix2 (-16) <= size (exact x) <= bpow radix2 16)%R ->
  (forall g, - Z.of_nat (length x) < g < Z.of_nat (length x) -> g <> 0 ->
     (cross_correlation (rectified (exact x)) (rectified (exact x)) g + 1700 * e * size (exact x) ^ 2
        < cross_correlation (rectified (exact x)) (rectified (exact x)) 0)%R) ->
  snd (run w m s s) = Ret msg -> PrimFloat.leb 0.999 (ms_vnsim msg) = true.
Proof. exact (self_compared e w m s msg). Qed.
Print Assumptions C109_self.
(** a click 200 samples late is moved back, with a library that rounds to 32 bits *)
Example C109_example : accurate_transforms (bpow radix2 (-22)) single_fft /\
  globally_align single_fft click_at_100 click_at_300 = Ret (moved_by (-200) click_at_100 click_at_300).
Proof. exact (conj single_transforms clicks_aligned). Qed.
(** and a recording of a click compared with itself, with the first alignment on *)
Example C109_self_example : mg_no_global (plain_manager false) = false /\
  exists msg, snd (run (L:=rounded_libm) click_world (plain_manager false) click_at_100 click_at_100) = Ret msg /\ PrimFloat.leb 0.999 (ms_vnsim msg) = true.
Proof. exact click_self. Qed.
