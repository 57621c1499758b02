(** Properties C12-C16, C66, C67: the numbers reported with a comparison. *)
From Coq Require Import ZArith List Bool Reals Lra Lia Sorted Permutation Floats.
From Verif Require Import Base.Res Base.Num Base.NumR Base.NumF Base.Mat Model.Amatrix Model.PatchCreator Model.FilterBank Model.Window
  Model.Nsim Model.Fft Model.Selector Model.Mappers Model.Visqol Model.Manager
  Spec.StatSpec Spec.AggSpec Spec.MatchSpec Spec.ManagerSpec
  Proofs.B64P Proofs.MatchCasesP Proofs.AggCasesP Proofs.AggCases2P Proofs.ToyRunP.
Import ListNotations.
Open Scope nat_scope.

(** C12: for every number type, in every mode: the score of a successful comparison is 1 when vnsim < 0.15 and what the
    quality mapper returned for the reported vectors otherwise (also when vnsim is not a number). *)
Theorem C12_dissimilar_scores_one {T} {N : Num T} {L : Libm T} w (m : manager T) ref deg m' deg' msg :
  run w m ref deg = (m', deg', Ret msg) ->
  exists mos, predict_quality (pf_f32 (w_fft w)) (st_mapper (mg_settings m)) (ms_fvnsim msg) (ms_fvnsim10 msg)
                              (ms_fstdnsim msg) (ms_fvdegenergy msg) = Ret mos /\
    (nltb (ms_vnsim msg) (ndec 15 2) = true -> ms_moslqo msg = nofZ 1) /\
    (nltb (ms_vnsim msg) (ndec 15 2) = false -> ms_moslqo msg = mos).
Proof. exact (reported_score w m ref deg m' deg' msg). Qed.
Print Assumptions C12_dissimilar_scores_one.
(** a complete comparison of 33 samples in speech mode *)
Example C12_example : exists m d x, run (L:=run_libm) run_world run_manager (run_audio 1) (run_audio 2) = (m, d, Ret x) /\
  length (ms_patches x) = 1 /\ ms_vnsim x = 0x1.2727891b0e23ep-1%float /\ ms_moslqo x = 0x1.f65957a631a44p+1%float.
Proof. exact toy_result. Qed.

(** C13: in every successful result of a manager, after any history of calls. *)
Theorem C13_aggregates {T} {N : Num T} {L : Libm T} w (m : manager T) ref deg m' deg' msg : reachable m ->
  (Z.of_nat (length (au_data ref)) + 1 < 2 ^ 31)%Z -> (Z.of_nat (length (au_data deg')) + 1 < 2 ^ 31)%Z ->
  run w m ref deg = (m', deg', Ret msg) ->
  let bands := if st_speech (mg_settings m) then 21 else 32 in
  length (ms_fvnsim msg) = bands /\ length (ms_fvnsim10 msg) = bands /\ length (ms_fstdnsim msg) = bands /\
  length (ms_fvdegenergy msg) = bands /\ length (ms_cfb msg) = bands /\
  ms_patches msg <> [] /\ (forall p, In p (ms_patches msg) -> length (pm_means p) = bands) /\
  ms_vnsim msg = average (ms_fvnsim msg) /\
  forall b, b < bands -> nth b (ms_fvnsim msg) n0 = average (map (fun p => nth b (pm_means p) n0) (ms_patches msg)).
Proof. exact (message_means w m ref deg m' deg' msg). Qed.
Print Assumptions C13_aggregates.
Example C13_example : reachable (L:=run_libm) run_manager /\ st_speech (mg_settings run_manager) = true.
Proof. split; [apply r_init, r_new|reflexivity]. Qed.

(** C13, fvdegenergy: the mean over the patches of the degraded energy (which the message does not carry per patch). *)
Theorem C13_energy {T} {N : Num T} {L : Libm T} pf st win ref deg (k : bank T) k' deg' r :
  0 < bk_bands k ->
  (Z.of_nat (length (au_data ref)) + 1 < 2 ^ 31)%Z -> (Z.of_nat (length (au_data deg)) + 1 < 2 ^ 31)%Z ->
  calculate_similarity measure_patch_similarity pf st win ref deg k = (k', deg', Ret r) ->
  length (sr_fvdegenergy r) = bk_bands k /\
  forall b, b < bk_bands k ->
    nth b (sr_fvdegenergy r) n0 = average (map (fun p => nth b (elems (ps_energy p)) n0) (sr_patches r)).
Proof. exact (result_energy pf st win ref deg k k' deg' r). Qed.
Print Assumptions C13_energy.
Example C13_energy_example : bk_bands (mg_bank run_manager) = 21.
Proof. reflexivity. Qed.

(** C14, exact arithmetic: for every list of patches with nb bands, however they came about. *)
Theorem C14_lowest_decile nb (ps : list (psr R)) : ps <> [] ->
  (forall p, In p ps -> ncols (ps_means p) = 1 /\ nrows (ps_means p) = nb /\ length (elems (ps_means p)) = nb) ->
  (Z.of_nat (length ps) < 2 ^ 31)%Z ->
  exists l, calc_quantile ps (ndec 10 2) = Ret l /\ length l = nb /\
    forall b, b < nb ->
      let v := map (fun p => nth b (elems (ps_means p)) 0%R) ps in
      (forall s, ascending v s -> nth b l 0%R = mean (firstn (decile_size (length ps)) s)) /\
      (nth b l 0 <= mean v)%R /\
      (length ps < 20 -> In (nth b l 0%R) v /\ forall x, In x v -> (nth b l 0 <= x)%R).
Proof. exact (decile_summary nb ps). Qed.
Print Assumptions C14_lowest_decile.
Example C14_example :
  let p := fun x : R => (MkPsr (MkMat 1 1 [x]) (MkMat 1 1 [0]) (MkMat 1 1 [0]) 0 0 0 0 0)%R in
  (forall x, ncols (ps_means (p x)) = 1 /\ nrows (ps_means (p x)) = 1 /\ length (elems (ps_means (p x))) = 1) /\
  ascending (map (fun q => nth 0 (elems (ps_means q)) 0%R) [p 3; p 1; p 2]%R) [1; 2; 3]%R /\ decile_size 25 = 2.
Proof.
  split; [intros x; repeat split|]. split; [|reflexivity]. split.
  - cbn. eapply perm_trans; [apply perm_swap|]. constructor. apply perm_swap.
  - repeat constructor; lra.
Qed.

Theorem C14_order_irrelevant nb (ps ps' : list (psr R)) : ps <> [] ->
  (forall p, In p ps -> ncols (ps_means p) = 1 /\ nrows (ps_means p) = nb /\ length (elems (ps_means p)) = nb) ->
  Permutation ps ps' -> calc_quantile ps (ndec 10 2) = calc_quantile ps' (ndec 10 2).
Proof. exact (decile_order nb ps ps'). Qed.
Print Assumptions C14_order_irrelevant.
Example C14_order_example :
  let p := fun x : R => (MkPsr (MkMat 1 1 [x]) (MkMat 1 1 [0]) (MkMat 1 1 [0]) 0 0 0 0 0)%R in
  calc_quantile [p 3; p 1]%R (ndec 10 2) = calc_quantile [p 1; p 3]%R (ndec 10 2).
Proof.
  apply (C14_order_irrelevant 1); [discriminate| |apply perm_swap]. intros q [<-|[<-|[]]]; repeat split.
Qed.

(** C14 in binary64, on the message: the number of values is exactly the tenth, and they are the first ones in
    ascending order. *)
Theorem C14_message_binary64 {L : Libm PrimFloat.float} w (m : manager PrimFloat.float) ref deg m' deg' msg : reachable m ->
  (Z.of_nat (length (au_data ref)) + 1 < 2 ^ 31)%Z -> (Z.of_nat (length (au_data deg')) + 1 < 2 ^ 31)%Z ->
  run w m ref deg = (m', deg', Ret msg) -> (Z.of_nat (length (ms_patches msg)) < 2 ^ 31)%Z ->
  forall b, b < (if st_speech (mg_settings m) then 21 else 32) ->
  exists s, Permutation (map (fun p => nth b (pm_means p) n0) (ms_patches msg)) s /\
    Sorted (fun x y => nltb y x = false) s /\
    nth b (ms_fvnsim10 msg) n0 = average (firstn (decile_size (length (ms_patches msg))) s).
Proof. exact (message_decile w m ref deg m' deg' msg). Qed.
Print Assumptions C14_message_binary64.
Example C14_message_example : exists m d x,
  run (L:=run_libm) run_world run_manager (run_audio 1) (run_audio 2) = (m, d, Ret x) /\ length (ms_patches x) = 1.
Proof. destruct toy_result as (m & d & x & E & H & _). exists m, d, x. split; assumption. Qed.

(** C15: patches of one length, given by their per-frame similarities (one list of frames per band). *)
Theorem C15_stddev_of_all_frames (fd : R) nb len (ps : list (psr R)) frames : (0 < fd)%R -> ps <> [] -> 0 < nb -> 1 <= len ->
  Forall2 (fun p f => of_frames p f len /\ length f = nb /\ (ps_ref_end p - ps_ref_start p = INR len * fd)%R) ps frames ->
  (2 <= Z.of_nat (length ps * len) < 2 ^ 31)%Z ->
  exists l, calc_stddevs ps fd = Ret l /\ length l = nb /\
    forall b, b < nb -> nth b l 0%R = stddev (concat (map (fun f => nth b f []) frames)).
Proof. exact (pooled_same fd nb len ps frames). Qed.
Print Assumptions C15_stddev_of_all_frames.
Example C15_example : let f := [[1; 3]; [0; 0]]%R in
  of_frames (patch_of 1 f 2) f 2 /\ (ps_ref_end (patch_of 1 f 2) - ps_ref_start (patch_of 1 f 2) = INR 2 * 1)%R.
Proof. apply patch_of_ok. intros f [<-|[<-|[]]]; reflexivity. Qed.

(** C15 for the patches that matching returns, when none is lost: the frames are the rows of the similarity maps of the
    matched pairs. *)
Theorem C15_matched_patches refs idx (S : mat R) p fd radius l :
  refs <> [] -> (forall ref, In ref refs -> nrows ref = nrows S /\ ncols ref = p) -> 1 <= nrows S ->
  (1 <= Z.of_nat p < 2 ^ 31)%Z -> (1 <= Z.of_nat (ncols S) < 2 ^ 31)%Z -> (0 < fd)%R ->
  find_most_optimal_deg_patches measure_patch_similarity refs idx S fd radius = Ret l ->
  (forall x, In x l -> ps_deg_end x <> 0%R) -> (2 <= Z.of_nat (length l * p) < 2 ^ 31)%Z ->
  exists maps sd, calc_stddevs l fd = Ret sd /\ length maps = length l /\ length sd = nrows S /\
    (forall i, i < length l -> exists o, o < ncols S /\
       nsim_map (nth i refs (MkMat 0 0 [])) (frames_at 0%R S (Z.of_nat o) p) = Ret (nth i maps (MkMat 0 0 []))) /\
    forall b, b < nrows S -> nth b sd 0%R = stddev (concat (map (fun M => row_list M b) maps)).
Proof. exact (matched_stddevs refs idx S p fd radius l). Qed.
Print Assumptions C15_matched_patches.
Example C15_matched_example : exists l,
  find_most_optimal_deg_patches measure_patch_similarity [MkMat 1 2 [1; 2]%R] [0]%Z (MkMat 1 6 [1; 2; 3; 4; 5; 6]%R) 1%R 60 = Ret l /\
  length l = 1 /\ forall x, In x l -> ps_deg_end x <> 0%R.
Proof. exact matched_case. Qed.

(** C15 in binary64: no reported deviation is negative. *)
Theorem C15_nonnegative_binary64 {L : Libm PrimFloat.float} w (m : manager PrimFloat.float) ref deg m' deg' msg :
  run w m ref deg = (m', deg', Ret msg) -> forall v, In v (ms_fstdnsim msg) -> nltb v (nofZ 0) = false.
Proof. exact (message_stddevs w m ref deg m' deg' msg). Qed.
Print Assumptions C15_nonnegative_binary64.
Example C15_nonnegative_example : exists m d x,
  run (L:=run_libm) run_world run_manager (run_audio 1) (run_audio 2) = (m, d, Ret x) /\ length (ms_patches x) = 1.
Proof. destruct toy_result as (m & d & x & E & H & _). exists m, d, x. split; assumption. Qed.

(** C16 is false: the mean subtracted is the plain average of the patch means.  Frames [0,0] and [1,1,1,1] give
    sqrt(0.5) instead of sqrt(4/15). *)
Theorem C16_other_lengths_refuted :
  exists (fd : R) (ps : list (psr R)) frames l, (0 < fd)%R /\
    Forall2 (fun p f => exists len, 1 <= len /\ of_frames p f len /\ length f = 1 /\
                                   (ps_ref_end p - ps_ref_start p = INR len * fd)%R) ps frames /\
    calc_stddevs ps fd = Ret l /\
    nth 0 l 0%R <> stddev (concat (map (fun f => nth 0 f []) frames)).
Proof. exact unequal_lengths. Qed.
Print Assumptions C16_other_lengths_refuted.

(** C16, what holds: patches of any lengths whose plain average of means is the mean over all frames.
    Missing: patches of different lengths in general (false, see above). *)
Theorem C16_equal_means_partial (fd : R) nb (ps : list (psr R)) frames : (0 < fd)%R -> ps <> [] -> 0 < nb ->
  Forall2 (fun p f => exists len, 1 <= len /\ of_frames p f len /\ length f = nb /\
                                 (ps_ref_end p - ps_ref_start p = INR len * fd)%R) ps frames ->
  (2 <= Z.of_nat (length (concat (map (fun f => nth 0 f []) frames))) < 2 ^ 31)%Z ->
  (forall b, b < nb -> mean (map (fun f => mean (nth b f [])) frames) = mean (concat (map (fun f => nth b f []) frames))) ->
  exists l, calc_stddevs ps fd = Ret l /\ length l = nb /\
    forall b, b < nb -> nth b l 0%R = stddev (concat (map (fun f => nth b f []) frames)).
Proof. exact (pooled_any fd nb ps frames). Qed.
Print Assumptions C16_equal_means_partial.
Example C16_example : (mean (map mean [[1; 3]; [2; 2; 2; 2]]) = mean (concat [[1; 3]; [2; 2; 2; 2]]))%R.
Proof. unfold mean, total. cbn. field. Qed.

(** C66 is false: a lost patch has its means cleared but keeps the deviations and the degraded energy of the pair it was
    last compared with. *)
Theorem C66_lost_patches_count_as_silence_refuted : exists r0 r1,
  find_most_optimal_deg_patches measure_patch_similarity [ridge2; ridge2] [0; 6]%Z valleys2 1%float 1 = Ret [r0; r1] /\
  ps_sim r1 = 0%float /\ ps_deg_start r1 = 0%float /\ ps_deg_end r1 = 0%float /\
  (forall v, In v (elems (ps_means r1)) -> v = 0%float) /\
  (forall v, In v (elems (ps_stddevs r1)) -> nltb 0%float v = true) /\
  nth 0 (elems (ps_energy r1)) 0%float = 0x1.3p+3%float.
Proof. exact lost_keeps. Qed.
Print Assumptions C66_lost_patches_count_as_silence_refuted.

(** C67 is false: at 48 kHz in audio mode the patch at frame 74 is counted as 31 frames. *)
Theorem C67_patch_frames_refuted : exists idx win fd,
  create_ref_patch_indices 30 130 = Ret idx /\ In 74%Z idx /\
  make_window (T:=PrimFloat.float) 48000 = Ret win /\ calc_frame_duration win 48000 = Ret fd /\
  forall x, ps_ref_start x = nmul (nofZ 74) fd -> ps_ref_end x = nadd (ps_ref_start x) (nmul fd (nofZ 30)) ->
    frame_count fd x = Ret 31%Z.
Proof. exact one_frame_more. Qed.
Print Assumptions C67_patch_frames_refuted.

(** C67, what holds: the count is never off by more than one frame, and never too small. *)
Theorem C67_patch_frames_partial (x : psr PrimFloat.float) fd i p :
  fin fd -> (/ 1048576 <= FR fd <= 1048576)%R -> (0 <= i < 2 ^ 30)%Z -> 1 <= p <= 1000 ->
  ps_ref_start x = nmul (nofZ i) fd -> ps_ref_end x = nadd (ps_ref_start x) (nmul fd (nofZ (Z.of_nat p))) ->
  frame_count fd x = Ret (Z.of_nat p) \/ frame_count fd x = Ret (Z.of_nat p + 1)%Z.
Proof. exact (AggFloatP.frame_count_F x fd i p). Qed.
Print Assumptions C67_patch_frames_partial.
Example C67_example : let fd := 0x1.47ae147ae147bp-6%float in
  frame_count fd (MkPsr (MkMat 0 0 []) (MkMat 0 0 []) (MkMat 0 0 []) (nofZ 0) (nmul (nofZ 14) fd)
                        (nadd (nmul (nofZ 14) fd) (nmul fd (nofZ 30))) (nofZ 0) (nofZ 0)) = Ret 30%Z.
Proof. vm_compute. reflexivity. Qed.
