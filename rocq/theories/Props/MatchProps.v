(** Properties C23-C30: matching reference patches with the degraded spectrogram, fine realignment. *)
From Coq Require Import ZArith List Bool Sorted Reals Lra Lia.
From Verif Require Import Base.Res Base.Num Base.NumR Base.NumF Base.Lists Base.Mat Model.Amatrix Model.MiscMath
  Model.Window Model.FilterBank Model.Spectrogram Model.Nsim Model.Fft Model.Alignment Model.PatchCreator
  Model.Selector Spec.MatchSpec
  Proofs.B64P Proofs.SelectorP Proofs.MatchP Proofs.MatchAllP Proofs.ScoresP Proofs.MatchCasesP Proofs.FineP.
Import ListNotations.
Open Scope nat_scope.

(** C23: the degraded patch at window start o, for every number type. *)
Theorem C23_degraded_patch {T} {N : Num T} (S ref : mat T) (o : Z) :
  nrows ref = nrows S -> 1 <= ncols S -> (Z.of_nat (ncols S) < 2 ^ 31)%Z -> (1 <= Z.of_nat (ncols ref) < 2 ^ 31)%Z ->
  (- Z.of_nat (ncols ref) < o < Z.of_nat (ncols S))%Z ->
  degraded_at S ref o = Ret (frames_at n0 S o (ncols ref)).
Proof. exact (degraded_at_spec S ref o). Qed.
Print Assumptions C23_degraded_patch.
Example C23_example : let S := MkMat 1 3 [nofZ 7; nofZ 8; nofZ 9] in
  degraded_at S (MkMat 1 2 [nofZ 1; nofZ 1]) 2 = Ret (MkMat 1 2 [nofZ 9; nofZ 0 : PrimFloat.float]) /\
  degraded_at S (MkMat 1 2 [nofZ 1; nofZ 1]) (-1) = Ret (MkMat 1 2 [nofZ 0; nofZ 7 : PrimFloat.float]).
Proof. split; vm_compute; reflexivity. Qed.

(** C24: whatever the similarity measure, the indices, the radius and the number type: when matching returns,
    every patch has an offset inside the degraded spectrogram, the result is the one at that offset, and a patch
    that is not lost has a larger offset than every earlier patch. *)
Theorem C24_time_order {T} {N : Num T} (measure : mat T -> mat T -> res (psr T)) refs idx S p fd radius l :
  refs <> [] -> (forall ref, In ref refs -> nrows ref = nrows S /\ ncols ref = p) ->
  (1 <= Z.of_nat p < 2 ^ 31)%Z -> (1 <= Z.of_nat (ncols S) < 2 ^ 31)%Z ->
  find_most_optimal_deg_patches measure refs idx S fd radius = Ret l ->
  exists (off : nat -> nat) (lost : nat -> bool),
    1 <= length l /\ length l <= length refs /\ length l <= length idx /\
    (forall i, i < length l -> off i < ncols S /\
       exists x r, nth_error l i = Some x /\
         measure (nth i refs (MkMat 0 0 [])) (frames_at n0 S (Z.of_nat (off i)) p) = Ret r /\
         reports x r (lost i) (Z.of_nat (off i)) (nth i idx 0%Z) fd (nmul fd (nofZ (Z.of_nat p)))) /\
    (forall i j, i < j < length l -> lost j = false -> off i < off j).
Proof. exact (ordered_reports measure refs idx S p fd radius l). Qed.
Print Assumptions C24_time_order.
Example C24_example : exists l,
  find_most_optimal_deg_patches measure_patch_similarity [pair_patch; pair_patch] [0; 2]%Z six_frames (nofZ 1) 1 = Ret l /\
  length l = 2.
Proof. eexists. split; vm_compute; reflexivity. Qed.

(** C25 in exact arithmetic with the similarity measure of the code: the reported similarities add up to the
    largest total over all matchings.  Either the windows cover both spectrograms, or all similarities are
    positive. *)
Theorem C25_best_total p (A B : mat R) idx refs fd radius :
  2 <= p -> 1 <= nrows A -> (Z.of_nat (ncols A) < 2 ^ 31)%Z -> (1 <= Z.of_nat (ncols B) < 2 ^ 31)%Z ->
  nrows A = nrows B ->
  patch_starts p (Z.of_nat (ncols A)) idx -> create_patches (Z.of_nat p) A idx = Ret refs ->
  let sw := (radius * Z.of_nat p)%Z in
  let nc := Z.of_nat (ncols B) in
  (1 <= radius)%Z -> (Z.of_nat (ncols A) + sw <= 2 ^ 31)%Z ->
  let sim i s := ps_sim (result_of (measure_patch_similarity (nth i refs (MkMat 0 0 []))
                                                             (frames_at 0%R B (Z.of_nat s) p))) in
  ((Z.of_nat (ncols A) <= sw /\ nc <= sw)%Z \/
   (forall i s, i < length idx -> s < ncols B -> (0 < sim i s)%R)) ->
  exists l off, find_most_optimal_deg_patches measure_patch_similarity refs idx B fd radius = Ret l /\
    1 <= length l <= length idx /\
    matching sw nc idx (length l) off /\
    (forall i, i < length l -> exists x, nth_error l i = Some x /\
       ps_deg_start x = (if skipped off i then 0 else INR (off i) * fd)%R) /\
    fold_right Rplus 0%R (map ps_sim l) = score sim off (length l - 1) /\
    forall off', matching sw nc idx (length l) off' ->
      (score sim off' (length l - 1) <= fold_right Rplus 0 (map ps_sim l))%R.
Proof. exact (optimal_R p A B idx refs fd radius). Qed.
Print Assumptions C25_best_total.
Example C25_example : patch_starts 2 6 [0; 2]%Z /\
  create_patches 2 (MkMat 1 6 [1; 2; 3; 4; 5; 6]%R) [0; 2]%Z = Ret [MkMat 1 2 [1; 2]%R; MkMat 1 2 [3; 4]%R] /\
  (6 <= 60 * 2)%Z /\ matching 120 6 [0; 2]%Z 2 (fun i => 3 * i).
Proof.
  split; [|split; [reflexivity|split; [lia|]]].
  - split; [repeat constructor|]. split; [reflexivity|]. intros s [<-|[<-|[]]]; lia.
  - split; intros i Hi; [|lia]. destruct i as [|[|i]]; [cbn; lia|cbn; lia|lia].
Qed.

(** C25 in binary64, for every similarity measure with finite values between -2 and 2: the floating-point
    total (added up patch by patch) of the reported matching is the largest. *)
Theorem C25_best_total_binary64
  (measure : mat PrimFloat.float -> mat PrimFloat.float -> res (psr PrimFloat.float)) p
  (A B : mat PrimFloat.float) idx refs fd radius :
  2 <= p -> (Z.of_nat (ncols A) < 2 ^ 31)%Z -> (1 <= Z.of_nat (ncols B) < 2 ^ 31)%Z -> nrows A = nrows B ->
  patch_starts p (Z.of_nat (ncols A)) idx -> create_patches (Z.of_nat p) A idx = Ret refs ->
  let sw := (radius * Z.of_nat p)%Z in
  let nc := Z.of_nat (ncols B) in
  (1 <= radius)%Z -> (Z.of_nat (ncols A) + sw <= 2 ^ 31)%Z ->
  let RES i s := result_of (measure (nth i refs (MkMat 0 0 [])) (frames_at n0 B (Z.of_nat s) p)) in
  let sim i s := ps_sim (RES i s) in
  (forall i s, i < length idx -> s < ncols B ->
     measure (nth i refs (MkMat 0 0 [])) (frames_at n0 B (Z.of_nat s) p) = Ret (RES i s) /\
     fin (sim i s) /\ (Rabs (FR (sim i s)) <= 2)%R) ->
  ((Z.of_nat (ncols A) <= sw /\ nc <= sw)%Z \/
   (forall i s, i < length idx -> s < ncols B -> (0 < FR (sim i s))%R)) ->
  exists l off, find_most_optimal_deg_patches measure refs idx B fd radius = Ret l /\
    1 <= length l <= length idx /\
    matching sw nc idx (length l) off /\
    (forall i, i < length l -> exists x, nth_error l i = Some x /\
       reports x (RES i (off i)) (skipped off i) (Z.of_nat (off i)) (nth i idx 0%Z) fd (nmul fd (nofZ (Z.of_nat p)))) /\
    forall off', matching sw nc idx (length l) off' ->
      (FR (score sim off' (length l - 1)) <= FR (score sim off (length l - 1)))%R.
Proof. exact (optimal_F measure p A B idx refs fd radius). Qed.
Print Assumptions C25_best_total_binary64.
(** a measure meeting the hypotheses *)
Example C25_binary64_example : fin (nofZ 1) /\ (Rabs (FR (nofZ 1)) <= 2)%R /\ (0 < FR (nofZ 1))%R.
Proof. exact one_ok. Qed.

(** C26, positive similarities (or windows that cover everything): by [matching] in C25 every reported offset is
    within radius patch lengths of its patch; here for binary64 and each result. *)
Theorem C26_inside_window_partial
  (measure : mat PrimFloat.float -> mat PrimFloat.float -> res (psr PrimFloat.float)) p
  (A B : mat PrimFloat.float) idx refs fd radius :
  2 <= p -> (Z.of_nat (ncols A) < 2 ^ 31)%Z -> (1 <= Z.of_nat (ncols B) < 2 ^ 31)%Z -> nrows A = nrows B ->
  patch_starts p (Z.of_nat (ncols A)) idx -> create_patches (Z.of_nat p) A idx = Ret refs ->
  (1 <= radius)%Z -> (Z.of_nat (ncols A) + radius * Z.of_nat p <= 2 ^ 31)%Z ->
  (forall i s, i < length idx -> s < ncols B ->
     exists r, measure (nth i refs (MkMat 0 0 [])) (frames_at n0 B (Z.of_nat s) p) = Ret r /\
       fin (ps_sim r) /\ (0 < FR (ps_sim r) <= 2)%R) ->
  exists l, find_most_optimal_deg_patches measure refs idx B fd radius = Ret l /\
    forall i x, nth_error l i = Some x -> exists o : Z,
      (Z.abs (o - nth i idx 0) <= radius * Z.of_nat p)%Z /\ (0 <= o < Z.of_nat (ncols B))%Z /\
      (ps_deg_start x = nmul (nofZ o) fd \/ (ps_sim x = n0 /\ ps_deg_start x = n0 /\ ps_deg_end x = n0)).
Proof. exact (inside_window_F measure p A B idx refs fd radius). Qed.
Print Assumptions C26_inside_window_partial.
Example C26_example : fin (nofZ 1) /\ (0 < FR (nofZ 1) <= 2)%R.
Proof. exact one_ok'. Qed.

(** C26 fails in general: with negative similarities (these are attained by the similarity measure of the code)
    the patch at frame 0 is reported at degraded frame 4 although the window is one frame. *)
Theorem C26_inside_window_refuted :
  exists r0 r1, find_most_optimal_deg_patches measure_patch_similarity [ridge; ridge] [0; 5]%Z valleys (nofZ 1) 1
                = Ret [r0; r1] /\
    ncols ridge = 1 /\ ps_ref_start r0 = (nofZ 0) /\ ps_deg_start r0 = (nofZ 4) /\ ps_deg_end r0 = (nofZ 5).
Proof. exact outside_window'. Qed.
Print Assumptions C26_inside_window_refuted.

(** C27: matching returns for every radius of at least 1 as long as frame indices plus the window fit an int
    (full claim: for every radius). *)
Theorem C27_radius_safe_partial (speech : bool) (A B : mat R) idx refs fd radius :
  let p := if speech then 20 else 30 in
  1 <= nrows A -> (Z.of_nat (ncols A) < 2 ^ 31)%Z -> (1 <= Z.of_nat (ncols B) < 2 ^ 31)%Z -> nrows A = nrows B ->
  patch_starts p (Z.of_nat (ncols A)) idx -> create_patches (Z.of_nat p) A idx = Ret refs ->
  (1 <= radius)%Z -> (Z.of_nat (ncols A) + radius * Z.of_nat p <= 2 ^ 31)%Z ->
  exists l, find_most_optimal_deg_patches measure_patch_similarity refs idx B fd radius = Ret l.
Proof. exact (matching_returns_R speech A B idx refs fd radius). Qed.
Print Assumptions C27_radius_safe_partial.
Example C27_example : patch_starts 30 75 [14]%Z /\ (75 + 60 * 30 <= 2 ^ 31)%Z.
Proof.
  split; [|lia]. split; [repeat constructor|]. split; [reflexivity|]. intros s [<-|[]]; lia.
Qed.

(** C27 fails: a negative radius, a radius 0 (possible on the command line) with a last patch behind the end of the
    degraded signal, and a radius near 2^31/p lead to undefined behaviour. *)
Theorem C27_radius_safe_refuted :
  let run idx radius :=
    find_most_optimal_deg_patches measure_patch_similarity [pair_patch; pair_patch] idx six_frames (nofZ 1) radius in
  run [0; 2]%Z (-1)%Z = Ub /\ run [0; 6]%Z 0%Z = Ub /\ run [0; 6]%Z 1073741823%Z = Ub.
Proof. exact bad_radii. Qed.
Print Assumptions C27_radius_safe_refuted.

(** C28, audio mode, binary64 (the frame counts are compared as doubles). *)
Theorem C28_scored_patches_audio p L idx nf :
  2 <= p -> (Z.of_nat p < 2 ^ 52)%Z -> (L < 2 ^ 52)%Z -> (0 <= nf < 2 ^ 52)%Z ->
  create_ref_patch_indices (Z.of_nat p) L = Ret idx ->
  exists n, calc_max_num_patches (T:=PrimFloat.float) idx nf (Z.of_nat p) = Ret n /\ 1 <= n <= length idx /\
    forall j, j < length idx -> (j < n <-> (nth j idx 0 <= nf + Z.of_nat p / 2)%Z).
Proof. exact (scored_audio counts_exact_F p L idx nf). Qed.
Print Assumptions C28_scored_patches_audio.
Example C28_example : create_ref_patch_indices 30 130 = Ret [14; 44; 74]%Z /\
  calc_max_num_patches (T:=PrimFloat.float) [14; 44; 74]%Z 40 30 = Ret 2.
Proof. split; vm_compute; reflexivity. Qed.

(** C28, speech mode (selection in exact arithmetic). *)
Theorem C28_scored_patches_speech p L (sig : list R) w idx nf :
  2 <= p -> (4 <= w)%Z -> (Z.of_nat p / 2 - 1 + Z.of_nat p <= L)%Z -> (L * (Z.of_nat p * w) < two64)%Z ->
  (L < 2 ^ 52)%Z -> (0 <= nf < 2 ^ 52)%Z ->
  vad_create_ref_patch_indices p L sig w = Ret idx ->
  exists n, calc_max_num_patches (T:=R) idx nf (Z.of_nat p) = Ret n /\ 1 <= n <= length idx /\
    forall j, j < length idx -> (j < n <-> (nth j idx 0 <= nf + Z.of_nat p / 2)%Z).
Proof. exact (scored_speech p L sig w idx nf). Qed.
Print Assumptions C28_scored_patches_speech.
Example C28_speech_example : exists idx, vad_create_ref_patch_indices 2 197 (repeat 1%R 200) 4 = Ret idx.
Proof. apply (VadRP.vad_inside_R 2 1); vm_compute; try reflexivity; try (intros; discriminate); auto. Qed.

(** C29: lost patches report zero similarity, zero band means and the interval [0,0]; the others the similarity and
    means of the compared pair and intervals of one patch duration.  Part of C24's statement, here for one patch. *)
Theorem C29_reported_results {T} {N : Num T} (measure : mat T -> mat T -> res (psr T)) refs idx S p fd radius l i x :
  refs <> [] -> (forall ref, In ref refs -> nrows ref = nrows S /\ ncols ref = p) ->
  (1 <= Z.of_nat p < 2 ^ 31)%Z -> (1 <= Z.of_nat (ncols S) < 2 ^ 31)%Z ->
  find_most_optimal_deg_patches measure refs idx S fd radius = Ret l ->
  nth_error l i = Some x ->
  let pd := nmul fd (nofZ (Z.of_nat p)) in
  ps_ref_start x = nmul (nofZ (nth i idx 0%Z)) fd /\ ps_ref_end x = nadd (ps_ref_start x) pd /\
  ((ps_sim x = n0 /\ ps_deg_start x = n0 /\ ps_deg_end x = n0 /\ (forall v, In v (elems (ps_means x)) -> v = n0)) \/
   (exists o r, o < ncols S /\
      measure (nth i refs (MkMat 0 0 [])) (frames_at n0 S (Z.of_nat o) p) = Ret r /\
      ps_sim x = ps_sim r /\ ps_means x = ps_means r /\
      ps_deg_start x = nmul (nofZ (Z.of_nat o)) fd /\ ps_deg_end x = nadd (ps_deg_start x) pd)).
Proof. exact (one_result measure refs idx S p fd radius l i x). Qed.
Print Assumptions C29_reported_results.
Example C29_example : exists x,
  find_most_optimal_deg_patches measure_patch_similarity [ridge; ridge] [0; 5]%Z valleys (nofZ 1) 1 = Ret x /\
  option_map ps_sim (nth_error x 1) = Some (nofZ 0) /\ option_map ps_deg_end (nth_error x 1) = Some (nofZ 0).
Proof. eexists. split; [vm_compute; reflexivity|split; reflexivity]. Qed.

(** C30: one result per patch, in order; unchanged if the patch was lost; otherwise unchanged, or with a similarity
    that is not smaller and with times moved by the lag; for every number type, FFT and similarity measure. *)
Theorem C30_realignment {T} {N : Num T} {L : Libm T} (measure : mat T -> mat T -> res (psr T)) (pf : pffft T)
  (speech : bool) (w : window T) (ref deg : audio T) k rs k' l :
  finely_align measure pf speech w ref deg k rs = (k', Ret l) ->
  length l = length rs /\
  forall i r r', nth_error rs i = Some r -> nth_error l i = Some r' ->
    r' = r \/
    ((neqb (ps_deg_start r) (ps_deg_end r) && neqb (ps_deg_start r) n0 = false) /\
     nltb (ps_sim r') (ps_sim r) = false /\
     exists ra da ra' da' lag,
       slice ref (ps_ref_start r) (ps_ref_end r) = Ret ra /\
       slice deg (ps_deg_start r) (ps_deg_end r) = Ret da /\
       align_and_truncate pf ra da = Ret (ra', da', lag) /\
       ps_ref_start r' = (if nltb n0 lag then nadd (ps_ref_start r) lag else ps_ref_start r) /\
       ps_deg_start r' = (if nltb n0 lag then ps_deg_start r else nsub (ps_deg_start r) lag) /\
       ps_ref_end r' = nadd (ps_ref_start r') (ndiv (nofnat (length (au_data ra'))) (nofZ (au_sr ra'))) /\
       ps_deg_end r' = nadd (ps_deg_start r') (ndiv (nofnat (length (au_data da'))) (nofZ (au_sr da')))).
Proof. exact (realign_results measure pf speech w ref deg rs k k' l). Qed.
Print Assumptions C30_realignment.
Example C30_example : exists k r, toy_run = (k, Ret [r; toy_patch true]) /\
  nltb (ps_sim (toy_patch false)) (ps_sim r) = true.
Proof. destruct toy_run_result as (k & r & E & S & _). exists k, r. split; [exact E|]. rewrite S. reflexivity. Qed.
