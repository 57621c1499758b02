(** The audio of matched pairs: consequences and witnesses (C96). *)
From Coq Require Import ZArith List Bool Reals Lra Lia Floats.
From Verif Require Import Base.Res Base.Num Base.NumR Base.NumF Base.Lists Base.Mat Model.Amatrix Model.FilterBank Model.Alignment Model.Nsim Model.Selector
  Spec.AlignSpec Spec.MatchSpec Proofs.AlignP Proofs.AlignCasesP Proofs.MatchAllP Proofs.MatchCasesP Proofs.SliceRoundP.
Import ListNotations.
Open Scope Z_scope.

(** binary64 *)
Lemma ref_audio_near (measure : mat PrimFloat.float -> mat PrimFloat.float -> res (psr PrimFloat.float)) refs idx S p h radius l i x (ref : audio PrimFloat.float) :
  refs <> [] -> (forall r, In r refs -> nrows r = nrows S /\ ncols r = p) ->
  1 <= Z.of_nat p < 2 ^ 31 -> 1 <= Z.of_nat (ncols S) < 2 ^ 31 -> 1 <= h -> 2 <= Z.of_nat p * h -> 1 <= au_sr ref < 2 ^ 31 ->
  find_most_optimal_deg_patches measure refs idx S (ndiv (nofZ h) (nofZ (au_sr ref))) radius = Ret l -> nth_error l i = Some x ->
  let k := nth i idx 0 in 0 <= k -> (k + Z.of_nat p) * h < Z.of_nat (length (au_data ref)) < 2 ^ 31 ->
  exists a b, k * h - 1 <= a <= k * h /\ (k + Z.of_nat p) * h - 1 <= b <= (k + Z.of_nat p) * h /\
    slice ref (ps_ref_start x) (ps_ref_end x) = Ret (MkAudio (interval (au_data ref) a b) (au_sr ref)).
Proof.
  intros R1 R2 P1 C1 H1 H2 S1 F E k K0 KL. destruct (one_result measure refs idx S p _ radius l i x R1 R2 P1 C1 F E) as (T1 & T2 & _). rewrite T2, T1.
  destruct (slice_near k (Z.of_nat p) h (au_sr ref) K0 ltac:(lia) H1 S1 ltac:(lia) ref eq_refl H2 ltac:(lia)) as (a & b & _ & A & B & C & _). exists a, b. split; [exact A|]. split; [exact B|]. exact C.
Qed.
Lemma deg_audio_near (measure : mat PrimFloat.float -> mat PrimFloat.float -> res (psr PrimFloat.float)) refs idx S p h radius l i x (deg : audio PrimFloat.float) :
  refs <> [] -> (forall r, In r refs -> nrows r = nrows S /\ ncols r = p) ->
  1 <= Z.of_nat p < 2 ^ 31 -> 1 <= Z.of_nat (ncols S) < 2 ^ 31 -> 1 <= h -> 2 <= Z.of_nat p * h -> 1 <= au_sr deg < 2 ^ 31 ->
  find_most_optimal_deg_patches measure refs idx S (ndiv (nofZ h) (nofZ (au_sr deg))) radius = Ret l -> nth_error l i = Some x ->
  (ps_sim x = n0 /\ ps_deg_start x = n0 /\ ps_deg_end x = n0) \/
  exists o r, (o < ncols S)%nat /\ measure (nth i refs (MkMat 0 0 [])) (frames_at n0 S (Z.of_nat o) p) = Ret r /\ ps_sim x = ps_sim r /\
    ((Z.of_nat o + Z.of_nat p) * h < Z.of_nat (length (au_data deg)) < 2 ^ 31 ->
     exists a b, Z.of_nat o * h - 1 <= a <= Z.of_nat o * h /\ (Z.of_nat o + Z.of_nat p) * h - 1 <= b <= (Z.of_nat o + Z.of_nat p) * h /\
       slice deg (ps_deg_start x) (ps_deg_end x) = Ret (MkAudio (interval (au_data deg) a b) (au_sr deg))).
Proof.
  intros R1 R2 P1 C1 H1 H2 S1 F E. destruct (one_result measure refs idx S p _ radius l i x R1 R2 P1 C1 F E) as (_ & _ & [(A & B & C & _)|(o & r & O & M & SI & _ & T1 & T2)]); [left; auto|]. right.
  exists o, r. split; [exact O|]. split; [exact M|]. split; [exact SI|]. intros KL. rewrite T2, T1.
  destruct (slice_near (Z.of_nat o) (Z.of_nat p) h (au_sr deg) ltac:(lia) ltac:(lia) H1 S1 ltac:(lia) deg eq_refl H2 ltac:(lia)) as (a & b & _ & A & B & C & _). exists a, b. split; [exact A|]. split; [exact B|]. exact C.
Qed.

(** exact arithmetic *)
Lemma audio_exact (s : audio R) k n h : 0 <= k -> 1 <= n -> 1 <= h -> 1 <= au_sr s -> (k + n) * h < Z.of_nat (length (au_data s)) <= 2 ^ 31 ->
  let fd := ndiv (nofZ h) (nofZ (au_sr s)) in
  slice s (nmul (nofZ k) fd) (nadd (nmul (nofZ k) fd) (nmul fd (nofZ n))) = Ret (MkAudio (interval (au_data s) (k * h) ((k + n) * h)) (au_sr s)).
Proof.
  intros Hk Hn Hh Hs HL fd. unfold fd. cbn [nmul nadd ndiv nofZ NumR].
  assert (E : (IZR (au_sr s) <> 0)%R) by (apply Rgt_not_eq, IZR_lt; lia).
  replace (IZR k * (IZR h / IZR (au_sr s)) + IZR h / IZR (au_sr s) * IZR n)%R with (IZR ((k + n) * h) / IZR (au_sr s))%R by (rewrite mult_IZR, plus_IZR; field; exact E).
  replace (IZR k * (IZR h / IZR (au_sr s)))%R with (IZR (k * h) / IZR (au_sr s))%R by (rewrite mult_IZR; field; exact E).
  apply slice_R; nia.
Qed.

(** a patch that starts one sample early *)
Definition fd48 : PrimFloat.float := ndiv (nofZ 960) (nofZ 48000).
Lemma early_slice (s : audio PrimFloat.float) : au_sr s = 48000 -> 56640 < Z.of_nat (length (au_data s)) <= 2 ^ 31 ->
  slice s (nmul (nofZ 29) fd48) (nadd (nmul (nofZ 29) fd48) (nmul fd48 (nofZ 30))) = Ret (MkAudio (interval (au_data s) 27839 56640) 48000).
Proof.
  intros ES HL. destruct (slice_near 29 30 960 48000 ltac:(lia) ltac:(lia) ltac:(lia) ltac:(lia) ltac:(lia) s ES ltac:(lia) ltac:(lia)) as (i & j & _ & _ & _ & E & I & J).
  apply (f_equal (fun z => match z with Ret q => q | _ => 0 end)) in I, J. vm_compute in I, J. subst i j. exact E.
Qed.
Lemma early_differs (s : audio PrimFloat.float) : au_sr s = 48000 -> 56640 < Z.of_nat (length (au_data s)) <= 2 ^ 31 ->
  slice s (nmul (nofZ 29) fd48) (nadd (nmul (nofZ 29) fd48) (nmul fd48 (nofZ 30))) = Ret (MkAudio (interval (au_data s) 27839 56640) 48000) /\
  slice s (nmul (nofZ 29) fd48) (nadd (nmul (nofZ 29) fd48) (nmul fd48 (nofZ 30))) <> Ret (MkAudio (interval (au_data s) (29 * 960) (59 * 960)) 48000).
Proof.
  intros H1 H2. split; [now apply early_slice|]. rewrite early_slice by assumption. intros E. apply (f_equal (fun z => match z with Ret a => Z.of_nat (length (au_data a)) | _ => 0 end)) in E.
  cbn [au_data] in E. unfold interval in E. rewrite !map_length, !seq_length, !Z2Nat.id in E by lia. lia.
Qed.
