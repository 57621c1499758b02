(** Properties C41-C43, C63: preparation of spectrograms, patch similarity, smoothing. *)
From Coq Require Import ZArith List Bool Reals Lra Lia.
From Verif Require Import Base.Res Base.Num Base.NumR Base.NumF Base.Lists Base.Mat Model.Amatrix Model.MiscMath
  Model.Spectrogram Model.Nsim Spec.StatSpec Spec.SmoothSpec
  Proofs.RealP Proofs.PrepareP Proofs.ConvP Proofs.FloatP Proofs.NsimP Proofs.NsimFP Proofs.NsimSpecP.
Import ListNotations.
Open Scope R_scope.

(** C41: shapes are kept, nothing is negative, the smallest entry over both is 0, entries of a shared frame
    are within 45 dB of every entry of that frame in either spectrogram, and within a shared frame louder
    entries do not get below quieter ones. *)
Theorem C41_common_nonnegative_floor (A B : mat R) :
  wf A -> wf B -> (0 < nrows A)%nat -> (0 < nrows B)%nat -> (0 < ncols A)%nat -> (0 < ncols B)%nat ->
  exists A' B',
    prepare_spectrograms A B = Ret (A', B') /\ wf A' /\ wf B' /\
    (nrows A' = nrows A /\ ncols A' = ncols A /\ nrows B' = nrows B /\ ncols B' = ncols B) /\
    (forall r c, (r < nrows A)%nat -> (c < ncols A)%nat -> 0 <= at_ A' r c) /\
    (forall r c, (r < nrows B)%nat -> (c < ncols B)%nat -> 0 <= at_ B' r c) /\
    (exists r c, (r < nrows A)%nat /\ (c < ncols A)%nat /\ at_ A' r c = 0 \/
                 (r < nrows B)%nat /\ (c < ncols B)%nat /\ at_ B' r c = 0) /\
    (forall c, (c < ncols A)%nat -> (c < ncols B)%nat ->
       forall X X' Y Y', (X = A /\ X' = A' \/ X = B /\ X' = B') -> (Y = A /\ Y' = A' \/ Y = B /\ Y' = B') ->
       forall r s, (r < nrows X)%nat -> (s < nrows Y)%nat ->
         at_ Y' s c - 45 <= at_ X' r c /\
         (level (at_ X r c) <= level (at_ Y s c) -> at_ X' r c <= at_ Y' s c)).
Proof. exact (prepare_properties A B). Qed.
Print Assumptions C41_common_nonnegative_floor.
Example C41_example : wf (MkMat 2 2 [1; 2; 3; 0]) /\ (0 < nrows (MkMat 2 2 [1; 2; 3; 0]))%nat.
Proof. split; [reflexivity|cbn; lia]. Qed.

(** C41, closed form: each entry is its level in dB, raised to -45 dB and to 45 dB below the peak of its frame over both
    spectrograms (frames that only one spectrogram has are raised to -45 dB only), minus a common constant. *)
Theorem C41_closed_form (A B : mat R) :
  wf A -> wf B -> (0 < nrows A)%nat -> (0 < nrows B)%nat -> (0 < ncols A)%nat -> (0 < ncols B)%nat ->
  exists A' B' (fl : nat -> R) low,
    prepare_spectrograms A B = Ret (A', B') /\ wf A' /\ wf B' /\ same_shape A A' /\ same_shape B B' /\
    (forall c, (c < Nat.min (ncols A) (ncols B))%nat -> exists peak, fl c = peak - 45 /\
       (forall r, (r < nrows A)%nat -> Rmax (-45) (level (at_ A r c)) <= peak) /\
       (forall r, (r < nrows B)%nat -> Rmax (-45) (level (at_ B r c)) <= peak) /\
       (exists r, (r < nrows A)%nat /\ peak = Rmax (-45) (level (at_ A r c)) \/
                  (r < nrows B)%nat /\ peak = Rmax (-45) (level (at_ B r c)))) /\
    (forall c, (Nat.min (ncols A) (ncols B) <= c)%nat -> fl c = -45) /\
    (forall r c, (r < nrows A)%nat -> (c < ncols A)%nat ->
       at_ A' r c = Rmax (fl c) (Rmax (-45) (level (at_ A r c))) - low) /\
    (forall r c, (r < nrows B)%nat -> (c < ncols B)%nat ->
       at_ B' r c = Rmax (fl c) (Rmax (-45) (level (at_ B r c))) - low) /\
    (forall r c, (r < nrows A)%nat -> (c < ncols A)%nat -> 0 <= at_ A' r c) /\
    (forall r c, (r < nrows B)%nat -> (c < ncols B)%nat -> 0 <= at_ B' r c) /\
    (exists r c, (r < nrows A)%nat /\ (c < ncols A)%nat /\ at_ A' r c = 0 \/
                 (r < nrows B)%nat /\ (c < ncols B)%nat /\ at_ B' r c = 0).
Proof. exact (prepare_spec A B). Qed.
Print Assumptions C41_closed_form.
Example C41_closed_form_example : level 1 = 0.
Proof. unfold level. destruct (Req_EM_T 1 0); [lra|]. rewrite Rabs_R1, ln_1. lra. Qed.

(** C42: a patch compared with itself. *)
Theorem C42_self_similarity_is_one (A : mat R) : (0 < nrows A)%nat -> (0 < ncols A)%nat ->
  exists p, measure_patch_similarity A A = Ret p /\ ps_sim p = 1 /\
    nrows (ps_means p) = nrows A /\ ncols (ps_means p) = 1%nat /\
    nrows (ps_stddevs p) = nrows A /\ ncols (ps_stddevs p) = 1%nat /\
    forall r, (r < nrows A)%nat -> at_ (ps_means p) r 0 = 1 /\ at_ (ps_stddevs p) r 0 = 0.
Proof. exact (measure_self A). Qed.
Print Assumptions C42_self_similarity_is_one.
Example C42_example : (0 < nrows (MkMat 2 2 [1; 2; 3; 0]))%nat /\ (0 < ncols (MkMat 2 2 [1; 2; 3; 0]))%nat.
Proof. cbn. lia. Qed.

(** C42: exchanging the patches, exact reals. *)
Theorem C42_symmetric (A B : mat R) :
  (0 < nrows A)%nat -> (0 < ncols A)%nat -> nrows A = nrows B -> ncols A = ncols B ->
  exists pa pb, measure_patch_similarity A B = Ret pa /\ measure_patch_similarity B A = Ret pb /\
    ps_sim pa = ps_sim pb /\ ps_means pa = ps_means pb /\ ps_stddevs pa = ps_stddevs pb.
Proof. exact (@sym_generic R NumR Rmult_comm Rplus_comm A B). Qed.
Print Assumptions C42_symmetric.
Example C42_symmetric_example : nrows (MkMat 1 2 [1; 2]) = nrows (MkMat 1 2 [3; 4]) /\
  ncols (MkMat 1 2 [1; 2]) = ncols (MkMat 1 2 [3; 4]).
Proof. split; reflexivity. Qed.

(** C42: exchanging the patches in binary64 arithmetic gives bit-identical results. *)
Theorem C42_symmetric_binary64 (A B : mat PrimFloat.float) :
  (0 < nrows A)%nat -> (0 < ncols A)%nat -> nrows A = nrows B -> ncols A = ncols B ->
  exists pa pb, measure_patch_similarity A B = Ret pa /\ measure_patch_similarity B A = Ret pb /\
    ps_sim pa = ps_sim pb /\ ps_means pa = ps_means pb /\ ps_stddevs pa = ps_stddevs pb.
Proof. exact (@sym_generic PrimFloat.float NumF Fmul_comm Fadd_comm A B). Qed.
Print Assumptions C42_symmetric_binary64.
Example C42_symmetric_binary64_example :
  match measure_patch_similarity (T:=PrimFloat.float) (MkMat 1 2 [nofZ 1; nofZ 2]) (MkMat 1 2 [nofZ 3; nofZ 5]) with
  | Ret p => nltb (ndec 1 1) (ps_sim p) && nltb (ps_sim p) n1
  | _ => false
  end = true.
Proof. vm_compute. reflexivity. Qed.

(** C42: every entry of the similarity map, every band mean and the similarity lie in [-1,1] - for all
    patches, not only non-negative ones. *)
Theorem C42_bounded (A B : mat R) :
  (0 < nrows A)%nat -> (0 < ncols A)%nat -> nrows A = nrows B -> ncols A = ncols B ->
  exists S p, nsim_map A B = Ret S /\ measure_patch_similarity A B = Ret p /\
    (forall r c, (r < nrows A)%nat -> (c < ncols A)%nat -> -1 <= at_ S r c <= 1) /\
    (forall r, (r < nrows A)%nat -> -1 <= at_ (ps_means p) r 0 <= 1) /\
    -1 <= ps_sim p <= 1.
Proof. exact (measure_bounded A B). Qed.
Print Assumptions C42_bounded.

(** C69: in binary64 the denominator of the structure term is positive, at least C3, whatever the sign of the
    product of the two variances it is computed from, as long as that product is not NaN. *)
Theorem C69_structure_denominator_positive (d : PrimFloat.float) : neqb d d = true ->
  nleb nsim_c3 (structure_denominator d) = true /\ nltb n0 (structure_denominator d) = true.
Proof. exact (denominator_positive d). Qed.
Print Assumptions C69_structure_denominator_positive.
Example C69_example : let d : PrimFloat.float := nopp (ndec 1 20) in
  neqb d d = true /\ nltb d n0 = true /\ neqb (nsqrt d) (nsqrt d) = false.
Proof. repeat split; vm_compute; reflexivity. Qed.

(** C63: the similarity is the mean of the band means of intensity times structure, the deviations are the
    unbiased ones of each band, the energy is the band mean of the degraded patch. *)
Theorem C63_similarity_formula (A B : mat R) :
  (0 < nrows A)%nat -> (0 < ncols A)%nat -> nrows A = nrows B -> ncols A = ncols B ->
  let nr := nrows A in let nc := ncols A in
  let sim r := map (fun c => similarity nr nc (at_ A) (at_ B) r c) (seq 0 nc) in
  exists p, measure_patch_similarity A B = Ret p /\
    (nrows (ps_means p) = nr /\ ncols (ps_means p) = 1%nat /\ nrows (ps_stddevs p) = nr /\
     ncols (ps_stddevs p) = 1%nat /\ nrows (ps_energy p) = nr /\ ncols (ps_energy p) = 1%nat) /\
    (forall r, (r < nr)%nat ->
       at_ (ps_means p) r 0 = mean (sim r) /\
       at_ (ps_stddevs p) r 0 = stddev (sim r) /\
       at_ (ps_energy p) r 0 = mean (map (fun c => at_ B r c) (seq 0 nc))) /\
    ps_sim p = mean (map (fun r => mean (sim r)) (seq 0 nr)).
Proof. exact (measure_formula A B). Qed.
Print Assumptions C63_similarity_formula.
Example C63_example : similarity 1 1 (fun _ _ => 0) (fun _ _ => 1) 0 0 = 0.0001 / 1.0001.
Proof.
  unfold similarity, smooth. cbn. 
  match goal with |- context [sqrt ?x] => replace x with 0 by lra end. rewrite sqrt_0. lra.
Qed.

(** C43: smoothing is the weighted average of the nine neighbours with clamped coordinates. *)
Theorem C43_weighted_average (M : mat R) : (0 < nrows M)%nat -> (0 < ncols M)%nat ->
  conv2d nsim_window M = Ret (tab (nrows M) (ncols M) (smooth (nrows M) (ncols M) (at_ M))).
Proof. exact (conv2d_smooth M). Qed.
Print Assumptions C43_weighted_average.
Example C43_example : clamped 5 0 0 = 0%nat /\ clamped 5 4 2 = 4%nat /\ clamped 5 2 2 = 3%nat.
Proof. repeat split. Qed.

(** C43: monotone, linear, keeps constants. *)
Theorem C43_smoothing_laws (nr nc : nat) (x y : nat -> nat -> R) (a b : R) (r c : nat) :
  ((forall i j, x i j <= y i j) -> smooth nr nc x r c <= smooth nr nc y r c) /\
  smooth nr nc (fun i j => a * x i j + b * y i j) r c = a * smooth nr nc x r c + b * smooth nr nc y r c /\
  smooth nr nc (fun _ _ => a) r c = a.
Proof. exact (smooth_laws nr nc x y a b r c). Qed.
Print Assumptions C43_smoothing_laws.
Example C43_laws_example : forall i j : nat, (fun _ _ : nat => 1) i j <= (fun _ _ : nat => 2) i j.
Proof. intros; lra. Qed.
