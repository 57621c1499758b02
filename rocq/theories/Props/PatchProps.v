(** Properties C17-C22: choice and extraction of reference patches. *)
From Coq Require Import ZArith List Bool Sorted Reals Lra Lia.
From Verif Require Import Base.Res Base.Num Base.NumR Base.Lists Base.Mat Model.Amatrix Model.MiscMath
  Model.Window Model.RmsVad Model.PatchCreator Spec.VadSpec
  Proofs.PatchCreatorP Proofs.VadP Proofs.VadRP.
Import ListNotations.
Open Scope Z_scope.

(** C17, error case: too few frames. *)
Theorem C17_too_short_is_error (p L : Z) :
  L < p + p / 2 -> create_ref_patch_indices p L = Err InvalidArgument.
Proof. exact (create_ref_patch_indices_short p L). Qed.
Print Assumptions C17_too_short_is_error.
Example C17_too_short_example : create_ref_patch_indices 30 44 = Err InvalidArgument.
Proof. reflexivity. Qed.

(** C17: patch k starts at frame floor(p/2)-1+k*p; the number of patches is max 1 ((L-p/2-1)/p), hence
    at least one; every patch lies inside the spectrogram; consecutive patches touch but do not overlap. *)
Theorem C17_audio_patches_tile (p L : Z) :
  2 <= p -> p + p / 2 <= L < two64 ->
  exists n : nat,
    Z.of_nat n = Z.max 1 ((L - p / 2 - 1) / p) /\
    create_ref_patch_indices p L = Ret (grid (p / 2 - 1) p n) /\
    Forall (fun s => 0 <= s /\ s + p <= L) (grid (p / 2 - 1) p n) /\
    (forall i j si sj, nth_error (grid (p / 2 - 1) p n) i = Some si ->
       nth_error (grid (p / 2 - 1) p n) j = Some sj -> (i < j)%nat -> si + p <= sj).
Proof.
  exact (fun Hp HL => ex_intro _ (patch_number p L)
    (conj (patch_number_value p L)
    (conj (create_ref_patch_indices_closed p L Hp HL)
    (conj (grid_inside p L Hp (proj1 HL)) (grid_disjoint (p / 2 - 1) p (patch_number p L) Hp))))).
Qed.
Print Assumptions C17_audio_patches_tile.
Example C17_example : create_ref_patch_indices 30 130 = Ret [14; 44; 74].
Proof. reflexivity. Qed.

(** C18 fails: 75 frames, patches of 30 frames; only frames 14..43 are scored, 31 frames remain. *)
Theorem C18_no_full_patch_left_refuted :
  exists p L idx last, 2 <= p /\ p + p / 2 <= L /\ create_ref_patch_indices p L = Ret idx /\
    last = nth (length idx - 1) idx 0 /\ p <= L - (last + p).
Proof. exact full_patch_left. Qed.
Print Assumptions C18_no_full_patch_left_refuted.

(** C18, what does hold: between 1 and p+1 frames remain after the last patch (full claim: fewer
    than p). *)
Theorem C18_rest_partial (p L : Z) :
  2 <= p -> p + p / 2 <= L < two64 ->
  exists idx, create_ref_patch_indices p L = Ret idx /\
    1 <= L - (nth (length idx - 1) idx 0 + p) <= p + 1.
Proof. exact (rest_after_last p L). Qed.
Print Assumptions C18_rest_partial.
Example C18_rest_example : 2 <= 30 /\ 30 + 30 / 2 <= 75 < two64.
Proof. unfold two64; vm_compute; intuition discriminate. Qed.

(** C19: in speech mode the chosen start frames, in increasing order, are exactly the grid positions
    whose block of p activity results contains an active one; the first grid position is always chosen.
    Activity is computed on 16-bit samples of the signal divided by its maximum, starting at sample
    p/2-1, in chunks of w/4 samples (w: window size). *)
Theorem C19_speech_patches_are_active_grid_patches
  (p : nat) (L : Z) (sig : list R) (w : Z) (idx : list Z) :
  (2 <= p)%nat -> 4 <= w -> Z.of_nat p / 2 - 1 + Z.of_nat p <= L ->
  L * (Z.of_nat p * w) < two64 ->
  vad_create_ref_patch_indices p L sig w = Ret idx ->
  let first := Z.of_nat p / 2 - 1 in
  let n := Z.to_nat ((L - first) / Z.of_nat p) in
  let len := (n * Z.to_nat (Z.of_nat p * w / 4))%nat in
  exists m,
    In m sig /\ (forall x, In x sig -> (x <= m)%R) /\
    first + Z.of_nat len <= Z.of_nat (length sig) /\
    let samples := map (fun x => int16_sample (x / m)) (firstn len (skipn (Z.to_nat first) sig)) in
    StronglySorted Z.lt idx /\
    (forall s, In s idx <->
       exists k, (k < n)%nat /\ s = first + Z.of_nat k * Z.of_nat p /\
         exists j, (k * p <= j < k * p + p)%nat /\
           ~ inactive (fun c => (rms (chunk (Z.to_nat (w / 4)) samples c) < 5000)%R) j) /\
    hd_error idx = Some first.
Proof. exact (vad_indices_R p L sig w idx). Qed.
Print Assumptions C19_speech_patches_are_active_grid_patches.
(** hypotheses are met: by C21, any signal of 200 samples with a window of 4 samples gives a result *)
Example C19_example : exists idx,
  vad_create_ref_patch_indices 2 197 (repeat 1%R 200) 4 = Ret idx.
Proof. apply (vad_inside_R 2 1); vm_compute; try reflexivity; try (intros; discriminate); auto. Qed.

(** C20: for every list of chunks, for every number type. *)
Theorem C20_absent_iff_three_quiet {T} {N : Num T} (cs : list (list Z)) :
  let results := snd (get_vad_results (fold_left process_chunk cs vad_init)) in
  length results = Nat.max 2 (length cs) /\
  forall i, (i < length results)%nat ->
    (nth i results true = false <->
     inactive (fun k => nltb (calc_rms (nth k cs [])) (nofZ 5000) = true) i).
Proof. exact (vad_results_rule cs). Qed.
Print Assumptions C20_absent_iff_three_quiet.
Example C20_example :
  inactive (fun k => Rltb (calc_rms (nth k [[9000]; [0]; [1]; [2]] [])) 5000 = true) 3 /\
  ~ inactive (fun k => Rltb (calc_rms (nth k [[9000]; [0]; [1]; [2]] [])) 5000 = true) 2.
Proof. exact vad_example. Qed.

(** C21: with a whole-number hop h (window of 4h samples) every analysed sample exists and the
    selection returns. *)
Theorem C21_vad_inside_when_hop_integral_partial (p : nat) (h : Z) (sig : list R) (L : Z) :
  (2 <= p)%nat -> 1 <= h ->
  4 * h < Z.of_nat (length sig) ->
  Z.of_nat (length sig) * (Z.of_nat p * (4 * h)) < 2 ^ 60 ->
  L = 1 + (Z.of_nat (length sig) - 4 * h) / h ->
  Z.of_nat p / 2 - 1 + Z.of_nat p <= L ->
  exists idx, vad_create_ref_patch_indices p L sig (4 * h) = Ret idx.
Proof. exact (vad_inside_R p h sig L). Qed.
Print Assumptions C21_vad_inside_when_hop_integral_partial.
Example C21_inside_example : exists idx,
  vad_create_ref_patch_indices 2 197 (repeat 1%R 200) 4 = Ret idx.
Proof. exact C19_example. Qed.

(** C21 fails for other sample rates: at 11025 Hz the window has 882 samples and the hop is 220, but
    voice activity is computed on 220.5 samples per frame; a reference of 1366700 samples (124 s) is
    read past its end, which throws. *)
Theorem C21_vad_inside_refuted :
  window_size (T:=R) 11025 = Some 882 /\ hop_size (MkWin 882 (kOverlap : R)) = Some 220 /\
  forall sig : list R, Z.of_nat (length sig) = 1366700 ->
    vad_create_ref_patch_indices 20 (1 + (Z.of_nat (length sig) - 882) / 220) sig 882 = Throw.
Proof. exact vad_overrun. Qed.
Print Assumptions C21_vad_inside_refuted.
Example C21_refuted_example : exists sig : list R, Z.of_nat (length sig) = 1366700.
Proof. exists (repeat 0%R (Z.to_nat 1366700)). rewrite repeat_length. apply Z2Nat.id. discriminate. Qed.

(** C22: each patch is the block of p columns starting at its index. *)
Theorem C22_patches_are_columns {T} {N : Num T} (p : Z) (S : mat T) (idx : list Z) :
  1 <= p ->
  (forall s, In s idx -> 0 <= s /\ s + p <= Z.of_nat (ncols S) /\ s + p < two64) ->
  exists ps, create_patches p S idx = Ret ps /\ length ps = length idx /\
    forall k, (k < length idx)%nat ->
      let P := nth k ps (MkMat 0 0 []) in
      wf P /\ nrows P = nrows S /\ ncols P = Z.to_nat p /\
      forall r c, (r < nrows S)%nat -> (c < Z.to_nat p)%nat ->
        at_ P r c = at_ S r (Z.to_nat (nth k idx 0) + c).
Proof. exact (create_patches_spec p S idx). Qed.
Print Assumptions C22_patches_are_columns.
Example C22_example :
  create_patches 2 (MkMat 1 5 [10;11;12;13;14]%R) [1; 3] =
  Ret [MkMat 1 2 [11;12]%R; MkMat 1 2 [13;14]%R].
Proof. reflexivity. Qed.
