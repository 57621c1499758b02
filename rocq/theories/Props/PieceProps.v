(** Property C96: the audio taken for the second alignment is the audio of the matched frames. *)
From Coq Require Import ZArith List Reals Lra Lia Floats.
From Verif Require Import Base.Res Base.Num Base.NumR Base.NumF Base.Lists Base.Mat Model.Amatrix Model.FilterBank Model.Alignment Model.Nsim Model.Selector
  Spec.AlignSpec Spec.MatchSpec Proofs.MatchCasesP Proofs.SliceCasesP.
Import ListNotations.
Open Scope Z_scope.

(** C96 in binary64, as stated: at 48000 samples per second the audio of the 30 frames from frame 29 begins with sample
    27839, not 29 * 960 = 27840; for every signal that is long enough. *)
Theorem C96_matched_audio_refuted (s : audio PrimFloat.float) : au_sr s = 48000 -> 56640 < Z.of_nat (length (au_data s)) <= 2 ^ 31 ->
  let fd := ndiv (nofZ 960) (nofZ 48000) in
  slice s (nmul (nofZ 29) fd) (nadd (nmul (nofZ 29) fd) (nmul fd (nofZ 30))) = Ret (MkAudio (interval (au_data s) 27839 56640) 48000) /\
  slice s (nmul (nofZ 29) fd) (nadd (nmul (nofZ 29) fd) (nmul fd (nofZ 30))) <> Ret (MkAudio (interval (au_data s) (29 * 960) (59 * 960)) 48000).
Proof. exact (early_differs s). Qed.
Print Assumptions C96_matched_audio_refuted.
(** In exact arithmetic it holds, if the recording goes on after the frames. *)
Theorem C96_matched_audio_exact_partial (s : audio R) (k n h : Z) : 0 <= k -> 1 <= n -> 1 <= h -> 1 <= au_sr s -> (k + n) * h < Z.of_nat (length (au_data s)) <= 2 ^ 31 ->
  let fd := ndiv (nofZ h) (nofZ (au_sr s)) in
  slice s (nmul (nofZ k) fd) (nadd (nmul (nofZ k) fd) (nmul fd (nofZ n))) = Ret (MkAudio (interval (au_data s) (k * h) ((k + n) * h)) (au_sr s)).
Proof. exact (audio_exact s k n h). Qed.
Print Assumptions C96_matched_audio_exact_partial.
(** In binary64 each end is right or one sample early: the reference audio of a matched pair, *)
Theorem C96_reference_audio_partial (measure : mat PrimFloat.float -> mat PrimFloat.float -> res (psr PrimFloat.float)) refs idx S p h radius l i x (ref : audio PrimFloat.float) :
  refs <> [] -> (forall r, In r refs -> nrows r = nrows S /\ ncols r = p) ->
  1 <= Z.of_nat p < 2 ^ 31 -> 1 <= Z.of_nat (ncols S) < 2 ^ 31 -> 1 <= h -> 2 <= Z.of_nat p * h -> 1 <= au_sr ref < 2 ^ 31 ->
  find_most_optimal_deg_patches measure refs idx S (ndiv (nofZ h) (nofZ (au_sr ref))) radius = Ret l -> nth_error l i = Some x ->
  let k := nth i idx 0 in 0 <= k -> (k + Z.of_nat p) * h < Z.of_nat (length (au_data ref)) < 2 ^ 31 ->
  exists a b, k * h - 1 <= a <= k * h /\ (k + Z.of_nat p) * h - 1 <= b <= (k + Z.of_nat p) * h /\
    slice ref (ps_ref_start x) (ps_ref_end x) = Ret (MkAudio (interval (au_data ref) a b) (au_sr ref)).
Proof. exact (ref_audio_near measure refs idx S p h radius l i x ref). Qed.
Print Assumptions C96_reference_audio_partial.
(** and the degraded audio, unless no match was found. *)
Theorem C96_degraded_audio_partial (measure : mat PrimFloat.float -> mat PrimFloat.float -> res (psr PrimFloat.float)) refs idx S p h radius l i x (deg : audio PrimFloat.float) :
  refs <> [] -> (forall r, In r refs -> nrows r = nrows S /\ ncols r = p) ->
  1 <= Z.of_nat p < 2 ^ 31 -> 1 <= Z.of_nat (ncols S) < 2 ^ 31 -> 1 <= h -> 2 <= Z.of_nat p * h -> 1 <= au_sr deg < 2 ^ 31 ->
  find_most_optimal_deg_patches measure refs idx S (ndiv (nofZ h) (nofZ (au_sr deg))) radius = Ret l -> nth_error l i = Some x ->
  (ps_sim x = n0 /\ ps_deg_start x = n0 /\ ps_deg_end x = n0) \/
  exists o r, (o < ncols S)%nat /\ measure (nth i refs (MkMat 0 0 [])) (frames_at n0 S (Z.of_nat o) p) = Ret r /\ ps_sim x = ps_sim r /\
    ((Z.of_nat o + Z.of_nat p) * h < Z.of_nat (length (au_data deg)) < 2 ^ 31 ->
     exists a b, Z.of_nat o * h - 1 <= a <= Z.of_nat o * h /\ (Z.of_nat o + Z.of_nat p) * h - 1 <= b <= (Z.of_nat o + Z.of_nat p) * h /\
       slice deg (ps_deg_start x) (ps_deg_end x) = Ret (MkAudio (interval (au_data deg) a b) (au_sr deg))).
Proof. exact (deg_audio_near measure refs idx S p h radius l i x deg). Qed.
Print Assumptions C96_degraded_audio_partial.
Example C96_example : exists l x, find_most_optimal_deg_patches measure_patch_similarity [ridge; ridge] [0; 5] valleys (ndiv (nofZ 2) (nofZ 2)) 1 = Ret l /\
  nth_error l 1 = Some x /\ (nrows ridge = nrows valleys /\ ncols ridge = 1%nat) /\
  slice (MkAudio (repeat (nofZ 1) 20) 2) (ps_ref_start x) (ps_ref_end x) = Ret (MkAudio (repeat (nofZ 1) 2) 2).
Proof. eexists. eexists. split; [vm_compute; reflexivity|]. split; [reflexivity|]. split; [split; reflexivity|]. vm_compute. reflexivity. Qed.
Example C96_refuted_example : exists s : audio PrimFloat.float, au_sr s = 48000 /\ 56640 < Z.of_nat (length (au_data s)) <= 2 ^ 31.
Proof.
  exists (MkAudio (repeat n0 (Z.to_nat 60000)) 48000). split; [reflexivity|]. cbn [au_data]. rewrite repeat_length, Z2Nat.id; lia.
Qed.
