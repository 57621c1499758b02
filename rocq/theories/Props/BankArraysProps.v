(** Property C89: the arrays of the gammatone filter bank. *)
From Coq Require Import ZArith List Bool Reals Lra Lia.
From Verif Require Import Base.Res Base.Num Base.NumR Base.Cplx Base.Lists Base.Mat Model.Amatrix Model.Window Model.Erb Model.Spectrogram
  Model.FilterBank Model.BankArrays Spec.ArgSpec Proofs.WindowP Proofs.BankArraysMainP.
Import ListNotations.
Open Scope R_scope.

(** C89: whatever the arrays of the bank hold from earlier signals, the spectrogram builder stays inside
    every array and matrix, and the entry in row b and column c of the spectrogram is the RMS of frame c,
    windowed and passed through the filter designed for the centre frequency reported for row b alone. *)
Theorem C89_each_row_its_own_band arg speech (k : vbank R) (s : audio R) w h : is_arg arg ->
  (0 < au_sr s)%Z -> 0 < vb_min k -> hop_size w = Some h -> (1 <= h)%Z -> (w_size w < length (au_data s))%nat ->
  let cols := (1 + (length (au_data s) - w_size w) / Z.to_nat h)%nat in
  exists k' S, vbuild (L := LibmR) arg speech k s w = (k', Ret S) /\
    nrows (sp_data S) = vb_bands k /\ ncols (sp_data S) = cols /\
    sp_cfb S = rev (center_freqs (L := LibmR) (vb_min k) (capped_high (au_sr s) (builder_max_freq speech (au_sr s))) (vb_bands k)) /\
    forall b c, (b < vb_bands k)%nat -> (c < cols)%nat -> exists f y st,
      apply_hann w (firstn (w_size w) (skipn (c * Z.to_nat h) (au_data s))) = Ret f /\
      band_filter (erb_channel (L := LibmR) (au_sr s) (nth b (sp_cfb S) 0)) zero_cond f = Ret (y, st) /\
      at_ (sp_data S) b c = row_rms y.
Proof. exact (fun HA => vbuild_spectrogram arg HA speech k s w h). Qed.
Print Assumptions C89_each_row_its_own_band.
Example C89_example : is_arg plain_arg /\ (0 < au_sr (MkAudio (repeat 1 20) 8000))%Z /\
  hop_size (MkWin 8 (kOverlap : R)) = Some 2%Z /\ (8 < length (au_data (MkAudio (repeat 1 20) 8000)))%nat /\
  0 < vb_min (MkVBank 21 50 [[7; 7]] [] [] [] []).
Proof. split; [exact plain_arg_ok|]. split; [cbn; lia|]. split; [apply (hop_size_R 8)|]. split; [cbn; lia|]. cbn. lra. Qed.

(** The old contents of the bank influence neither the answer nor the bank left behind. *)
Theorem C89_history arg speech (k k' : vbank R) (s : audio R) w : is_arg arg ->
  (0 < au_sr s)%Z -> 0 < vb_min k -> vb_bands k = vb_bands k' -> vb_min k = vb_min k' ->
  vbuild (L := LibmR) arg speech k s w = vbuild (L := LibmR) arg speech k' s w.
Proof. exact (fun HA => vbuild_same arg HA speech k k' s w). Qed.
Print Assumptions C89_history.
Example C89_history_example :
  vb_bands (MkVBank 21 50 [[7; 7]] [] [] [] []) = vb_bands (MkVBank 21 50 [] [] [] [] [[1]; [2]]).
Proof. reflexivity. Qed.

(** A signal that does not exceed the window is refused. *)
Theorem C89_too_short arg speech (k : vbank R) (s : audio R) w h : is_arg arg ->
  (0 < au_sr s)%Z -> 0 < vb_min k -> (0 < w_size w)%nat -> hop_size w = Some h -> (length (au_data s) <= w_size w)%nat ->
  snd (vbuild (L := LibmR) arg speech k s w) = Err InvalidArgument.
Proof. exact (fun HA => vbuild_short arg HA speech k s w h). Qed.
Print Assumptions C89_too_short.
Example C89_too_short_example : (length (au_data (MkAudio [1; 2; 3] 8000)) <= w_size (MkWin 8 (kOverlap : R)))%nat.
Proof. cbn. lia. Qed.
