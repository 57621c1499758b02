(** Properties C36-C40, C62, C63: analysis window, filter, spectrogram, centre frequencies. *)
From Coq Require Import ZArith List Bool Reals Lra Lia.
From Verif Require Import Base.Res Base.Num Base.NumR Base.NumF Base.Lists Base.Mat Model.Amatrix Model.MiscMath
  Model.Window Model.SignalFilter Model.Erb Model.Spectrogram Model.FilterBank Model.Manager
  Spec.FilterSpec Proofs.RealP Proofs.WindowP Proofs.FilterP Proofs.ErbP Proofs.BankP Proofs.SignalP Proofs.WindowFP.
Import ListNotations.
Open Scope R_scope.

(** C36: the weights of a window of n >= 2 samples. *)
Theorem C36_hann_weights (n : nat) : (2 <= n)%nat ->
  (forall i, hann n i = (1 - cos (2 * PI * INR i / (INR n - 1))) / 2) /\
  (forall i, (i < n)%nat -> 0 <= hann n i <= 1 /\ hann n (n - 1 - i) = hann n i) /\
  hann n 0 = 0 /\ hann n (n - 1) = 0.
Proof.
  exact (fun H => conj (hann_R n) (conj (fun i Hi => conj (hann_range n i) (hann_sym n i H Hi))
    (conj (hann_first n) (hann_last n H)))).
Qed.
Print Assumptions C36_hann_weights.
Example C36_example : hann 3 1 = 1 /\ hann 3 0 = 0.
Proof. split; [apply hann_mid; lia|apply hann_first]. Qed.

(** C36: applying the window to a frame of its size. *)
Theorem C36_windowing_shrinks (w : window R) (sig : list R) :
  length sig = w_size w ->
  exists out, apply_hann w sig = Ret out /\ length out = length sig /\
    forall i, (i < length sig)%nat ->
      nth i out 0 = hann (w_size w) i * nth i sig 0 /\ Rabs (nth i out 0) <= Rabs (nth i sig 0).
Proof. exact (apply_hann_spec w sig). Qed.
Print Assumptions C36_windowing_shrinks.
Example C36_windowing_example : length [1; 2; 3] = w_size (MkWin 3 (kOverlap : R)).
Proof. reflexivity. Qed.

(** C37: difference equation, with the leading denominator coefficient 1 and one initial condition less
    than coefficients: sum a_k y[t-k] = sum b_k x[t-k] + ic[t]. *)
Theorem C37_difference_equation (b a sig ic : list R) :
  length b = length a -> (length ic < length a)%nat -> nth 0 a 0 = 1 ->
  exists y f, signal_filter b a sig ic = Ret (y, f) /\ length y = length sig /\
    length f = (length a - 1)%nat /\
    forall t, (t < length sig)%nat -> conv a y t = conv b sig t + nth t ic 0.
Proof. exact (signal_filter_equation b a sig ic). Qed.
Print Assumptions C37_difference_equation.
Example C37_example : length [1; 2; 3] = length [1; 5; 6] /\ (length [0; 0] < length [1; 5; 6])%nat /\
  nth 0 [1; 5; 6] 0 = 1.
Proof. cbn. lia || auto. Qed.

(** C37: filtering in pieces, for every number type. *)
Theorem C37_pieces {T} {N : Num T} (b a s1 s2 ic : list T) :
  (length ic < length a)%nat -> (length a <= length b)%nat ->
  exists y1 f1 y2 f2,
    signal_filter b a s1 ic = Ret (y1, f1) /\ signal_filter b a s2 f1 = Ret (y2, f2) /\
    signal_filter b a (s1 ++ s2) ic = Ret (y1 ++ y2, f2).
Proof. exact (signal_filter_pieces b a s1 s2 ic). Qed.
Print Assumptions C37_pieces.
Example C37_pieces_example : (length [0; 0] < length [1; 5; 6])%nat /\ (length [1; 5; 6] <= length [1; 2; 3])%nat.
Proof. cbn. lia. Qed.

(** C37: linearity in the signal and the initial conditions. *)
Theorem C37_linear (b a : list R) p q s s' ic ic' :
  (length ic <= length a)%nat -> (0 < length a <= length b)%nat ->
  length s = length s' -> length ic = length ic' ->
  let lin u v := map (fun i => p * nth i u 0 + q * nth i v 0) (seq 0 (length u)) in
  exists y f y' f',
    signal_filter b a s ic = Ret (y, f) /\ signal_filter b a s' ic' = Ret (y', f') /\
    signal_filter b a (lin s s') (lin ic ic') = Ret (lin y y', lin f f').
Proof. exact (signal_filter_linear b a p q s s' ic ic'). Qed.
Print Assumptions C37_linear.
Example C37_linear_example : (length [0; 0] <= length [1; 5; 6])%nat /\
  (0 < length [1; 5; 6] <= length [1; 2; 3])%nat /\ length [1; 2] = length [3; 4].
Proof. cbn. lia. Qed.

(** C62 fails: with denominator [2] the difference equation 2 y = x is not satisfied (the leading
    coefficient is never used), and with numerator [1; 5] and denominator [1] the second coefficient is
    not used. *)
Theorem C62_filter_general_coefficients_refuted :
  (exists b a x y f, length b = length a /\ signal_filter b a x [] = Ret (y, f) /\ conv a y 0 <> conv b x 0) /\
  (exists b a x y f, nth 0 a 0 = 1 /\ signal_filter b a x [] = Ret (y, f) /\ conv a y 1 <> conv b x 1).
Proof. exact filter_general_refuted. Qed.
Print Assumptions C62_filter_general_coefficients_refuted.

(** C38: geometry and contents for every number type; [band_output c f] is the cascade of the four
    filter sections of channel c, started from zero conditions, applied to the windowed frame f. *)
Theorem C38_spectrogram_geometry {T} {N : Num T} {L : Libm T} speech (k : bank T) s w h :
  hop_size w = Some h -> (1 <= h)%Z -> (w_size w < length (au_data s))%nat ->
  let hop := Z.to_nat h in
  let n := length (au_data s) in
  let cols := (1 + (n - w_size w) / hop)%nat in
  let filters := make_filters (au_sr s) (bk_bands k) (bk_min k) (builder_max_freq speech (au_sr s)) in
  exists S, snd (build speech k s w) = Ret S /\
    wf (sp_data S) /\ nrows (sp_data S) = bk_bands k /\ ncols (sp_data S) = cols /\
    sp_cfb S = rev (snd filters) /\
    (forall c, (c < cols)%nat -> (c * hop + w_size w <= n)%nat) /\
    (n < cols * hop + w_size w)%nat /\
    forall b c d, (b < bk_bands k)%nat -> (c < cols)%nat -> exists f y,
      apply_hann w (firstn (w_size w) (skipn (c * hop) (au_data s))) = Ret f /\
      band_output (nth b (rev (fst filters)) d) f = Ret y /\ length y = w_size w /\
      at_ (sp_data S) b c = row_rms y.
Proof. exact (build_ret speech k s w h). Qed.
Print Assumptions C38_spectrogram_geometry.
Example C38_example : hop_size (MkWin 8 (kOverlap : R)) = Some 2%Z.
Proof. apply (hop_size_R 8). Qed.

(** C38: the RMS value of each entry is non-negative. *)
Theorem C38_rms (y : list R) :
  0 <= row_rms y /\ row_rms y = sqrt (fold_right Rplus 0 (map (fun x => x * x) y) / INR (length y)).
Proof. exact (conj (row_rms_nonneg y) (row_rms_fold y)). Qed.
Print Assumptions C38_rms.
Example C38_rms_example : row_rms [3; -3] = 3.
Proof. exact row_rms_example. Qed.

(** C38: too short signals are rejected. *)
Theorem C38_too_short {T} {N : Num T} {L : Libm T} speech (k : bank T) s w h :
  hop_size w = Some h -> (length (au_data s) <= w_size w)%nat ->
  snd (build speech k s w) = Err InvalidArgument.
Proof. exact (build_short speech k s w h). Qed.
Print Assumptions C38_too_short.
Example C38_too_short_example : (length (au_data (MkAudio [1; 2] 8000)) <= w_size (MkWin 8 (kOverlap : R)))%nat.
Proof. cbn. lia. Qed.

(** C39 fails: Create accepts 43 Hz in speech mode, the window then has 3 samples, the hop is 0 and
    building any spectrogram divides by it. *)
Theorem C39_positive_hop_refuted :
  exists sr : Z, (0 < sr)%Z /\
    (forall W model, snd (create (T:=R) W api_new
       (MkConfig (Some sr) (Some (MkOptions model true false false 0%Z false)))) = None) /\
    exists w, make_window (T:=R) sr = Ret w /\ hop_size w = Some 0%Z /\
      forall speech k s, (w_size w < length (au_data s))%nat -> snd (build speech k s w) = Ub.
Proof. exact hop_refuted. Qed.
Print Assumptions C39_positive_hop_refuted.

(** C39, what holds: from 44 Hz on the hop is at least 1. *)
Theorem C39_hop_positive_from_44Hz_partial (sr : Z) : (44 <= sr)%Z ->
  exists w h, make_window (T:=R) sr = Ret w /\ hop_size w = Some h /\ (1 <= h)%Z.
Proof. exact (hop_positive_from_44 sr). Qed.
Print Assumptions C39_hop_positive_from_44Hz_partial.
Example C39_example : (44 <= 8000)%Z.
Proof. discriminate. Qed.

(** C68: window and hop at every sample rate, in exact arithmetic and in binary64. *)
Theorem C68_window_80ms_hop_quarter (sr : Z) : (0 <= sr < 2 ^ 31)%Z -> exists n : nat,
  Rabs (INR n - 8 / 100 * IZR sr) < / 2 /\
  (exists w, make_window (T:=PrimFloat.float) sr = Ret w /\ w_size w = n /\ hop_size w = Some (Z.of_nat n / 4)%Z) /\
  (exists w, make_window (T:=R) sr = Ret w /\ w_size w = n /\ hop_size w = Some (Z.of_nat n / 4)%Z).
Proof. exact (window_geometry sr). Qed.
Print Assumptions C68_window_80ms_hop_quarter.
Example C68_example : (0 <= 48000 < 2 ^ 31)%Z /\ (Rabs (3840 - 8 / 100 * 48000) < / 2)%R.
Proof. split; [lia|]. replace (3840 - 8 / 100 * 48000) with 0 by lra. rewrite Rabs_R0. lra. Qed.

(** C40: reported centre frequencies, for n >= 1 bands between low and high. *)
Theorem C40_center_frequencies (low high : R) (n : nat) :
  0 <= low -> low < high -> (1 <= n)%nat ->
  let l := rev (center_freqs low high n) in
  length l = n /\ nth 0 l 0 = low /\
  (forall i j, (i < j < n)%nat -> nth i l 0 < nth j l 0) /\
  (forall i, (i < n)%nat -> low <= nth i l 0 < high).
Proof. exact (reported_center_freqs low high n). Qed.
Print Assumptions C40_center_frequencies.
Example C40_example : 0 <= 50 /\ 50 < 24000 /\ (1 <= 32)%nat.
Proof. split; [lra|]. split; [lra|lia]. Qed.

(** C40 for a spectrogram that was built: its bands run from the bank's minimum frequency to the smaller
    of half the sample rate and (in speech mode) 8000 Hz. *)
Theorem C40_spectrogram_bands (speech : bool) (k : bank R) s w S :
  (1 <= bk_bands k)%nat -> 0 <= bk_min k ->
  let high := Rmin (if speech then 8000 else IZR (au_sr s) / 2) (IZR (au_sr s) / 2) in
  bk_min k < high ->
  snd (build speech k s w) = Ret S ->
  length (sp_cfb S) = bk_bands k /\ nth 0 (sp_cfb S) 0 = bk_min k /\
  (forall i j, (i < j < bk_bands k)%nat -> nth i (sp_cfb S) 0 < nth j (sp_cfb S) 0) /\
  (forall i, (i < bk_bands k)%nat -> bk_min k <= nth i (sp_cfb S) 0 < high).
Proof. exact (built_bands speech k s w S). Qed.
Print Assumptions C40_spectrogram_bands.
Example C40_bands_example : (1 <= 21)%nat /\ 0 <= 50 /\ 50 < Rmin 8000 (16000 / 2).
Proof. rewrite Rmin_left by lra. split; [lia|]. lra. Qed.
