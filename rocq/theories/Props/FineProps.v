(** Property C73: the second alignment of the matched patches. *)
From Coq Require Import ZArith List Bool Reals Floats.
From Verif Require Import Base.Res Base.Num Base.NumR Base.NumF Base.Mat Model.Amatrix Model.Window Model.FilterBank Model.Fft
  Model.Spectrogram Model.Nsim Model.Alignment Model.PatchCreator Model.Selector Model.MiscAudio Model.Visqol Spec.FineSpec
  Proofs.FftP Proofs.FineRunP Proofs.ApiCasesP Proofs.FineCasesP.
Import ListNotations.
Open Scope Z_scope.

(** C73 in exact arithmetic: whenever the stages before it have succeeded, the second alignment returns. *)
Theorem C73_second_alignment_returns {L : Libm R} (pf : pffft R) (speech : bool) radius (w : window R) (ref deg : audio R)
  k k1 k2 rs ds A B idx refs fd sims h :
  keeps_length pf -> make_window (au_sr ref) = Ret w -> hop_size w = Some h -> 1 <= h ->
  1 <= au_sr ref < 2 ^ 31 -> au_sr deg = au_sr ref ->
  Z.of_nat (length (au_data ref)) < 2 ^ 30 -> Z.of_nat (length (au_data deg)) < 2 ^ 30 -> (0 < bk_bands k)%nat ->
  build speech k ref w = (k1, Ret rs) -> build speech k1 deg w = (k2, Ret ds) ->
  prepare_spectrograms (sp_data rs) (sp_data ds) = Ret (A, B) ->
  create_patches (if speech then 20 else 30) A idx = Ret refs -> calc_frame_duration w (au_sr ref) = Ret fd ->
  find_most_optimal_deg_patches measure_patch_similarity refs idx B fd radius = Ret sims ->
  exists l, snd (finely_align measure_patch_similarity pf speech w ref deg k2 sims) = Ret l.
Proof. exact (second_R pf speech radius w ref deg k k1 k2 rs ds A B idx refs fd sims h). Qed.
Print Assumptions C73_second_alignment_returns.

(** C73 in binary64: it returns or throws; no error status, no undefined behaviour (full claim: it returns). *)
Theorem C73_second_alignment_partial {L : Libm PrimFloat.float} (pf : pffft PrimFloat.float) (speech : bool) radius
  (w : window PrimFloat.float) (ref deg : audio PrimFloat.float) k k1 k2 rs ds A B idx refs fd sims h :
  keeps_length pf -> make_window (au_sr ref) = Ret w -> hop_size w = Some h -> 1 <= h ->
  1 <= au_sr ref < 2 ^ 31 -> au_sr deg = au_sr ref ->
  Z.of_nat (length (au_data ref)) < 2 ^ 30 -> Z.of_nat (length (au_data deg)) < 2 ^ 30 -> (0 < bk_bands k)%nat ->
  build speech k ref w = (k1, Ret rs) -> build speech k1 deg w = (k2, Ret ds) ->
  prepare_spectrograms (sp_data rs) (sp_data ds) = Ret (A, B) ->
  create_patches (if speech then 20 else 30) A idx = Ret refs -> calc_frame_duration w (au_sr ref) = Ret fd ->
  find_most_optimal_deg_patches measure_patch_similarity refs idx B fd radius = Ret sims ->
  (exists l, snd (finely_align measure_patch_similarity pf speech w ref deg k2 sims) = Ret l) \/
  snd (finely_align measure_patch_similarity pf speech w ref deg k2 sims) = Throw.
Proof. exact (second_F pf speech radius w ref deg k k1 k2 rs ds A B idx refs fd sims h). Qed.
Print Assumptions C73_second_alignment_partial.

(** C73 fails in binary64.  50 samples per second, so window 4 and hop 1.  The reference patch that starts at frame 194
    (194 = 14 + 6 * 30 is on the grid of audio mode) is matched to frame 116 of the degraded signal (within the default
    search range of 60 * 30 frames), and the two hold the same samples.  Because of rounding the slices have 29 and 31
    samples, the degraded slice starts one sample early, and removing that one sample leaves more than the reference
    has. *)
Theorem C73_rounding_refuted {L : Libm PrimFloat.float} : exists (ref deg : audio PrimFloat.float) r,
  au_sr ref = 50 /\ au_sr deg = 50 /\ matched_at 1 50 30 194 116 r /\
  firstn 30 (skipn 194 (au_data ref)) = firstn 30 (skipn 116 (au_data deg)) /\
  forall measure speech w k, snd (finely_align measure small_fft speech w ref deg k [r]) = Throw.
Proof.
  exact (ex_intro _ early_ref (ex_intro _ early_deg (ex_intro _ early_patch (conj eq_refl (conj eq_refl
    (conj (conj eq_refl (conj eq_refl (conj eq_refl eq_refl))) (conj eq_refl early_fails))))))).
Qed.
Print Assumptions C73_rounding_refuted.
(** the slices of the witness, and the same frames at 48000 samples per second (hop 960): 28799 and 28801 samples
    instead of 28800 *)
Example C73_slices :
  match slice early_ref (frame_time 1 50 194) (frame_end 1 50 30 194) with Ret a => length (au_data a) | _ => O end = 29%nat /\
  match slice early_deg (frame_time 1 50 116) (frame_end 1 50 30 116) with Ret a => length (au_data a) | _ => O end = 31%nat.
Proof. split; vm_compute; reflexivity. Qed.
Example C73_at_48000 :
  to_int (nmul (frame_time 960 48000 194) (nofZ 48000 : PrimFloat.float)) = Ret 186240 /\
  to_int (nmul (frame_end 960 48000 30 194) (nofZ 48000 : PrimFloat.float)) = Ret 215039 /\
  to_int (nmul (frame_time 960 48000 116) (nofZ 48000 : PrimFloat.float)) = Ret 111359 /\
  to_int (nmul (frame_end 960 48000 30 116) (nofZ 48000 : PrimFloat.float)) = Ret 140160.
Proof. exact at_48000. Qed.
