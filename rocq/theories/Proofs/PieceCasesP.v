(** Reported times of realigned pairs: the frames of a match, a run that returns, and a match at the end of the degraded signal (C97). *)
From Coq Require Import ZArith List Bool Reals Lra Lia Floats.
From Verif Require Import Base.Res Base.Num Base.NumR Base.NumF Base.Lists Base.Mat Model.Amatrix Model.MiscMath Model.Window
  Model.FilterBank Model.Spectrogram Model.Nsim Model.Fft Model.Alignment Model.Selector
  Spec.AlignSpec Spec.FineSpec Spec.PieceSpec Spec.PolaritySpec Spec.FftSpec Proofs.FftP Proofs.DftP Proofs.AlignP Proofs.AlignCasesP Proofs.FineP Proofs.FineSafeP Proofs.FineTimesP Proofs.FineRunP Proofs.LevelCasesP Proofs.PieceP.
Import ListNotations.
Open Scope Z_scope.

Lemma frames_times h sr p i : 1 <= sr -> (frame_time h sr i = IZR (i * h) / IZR sr /\ frame_end h sr p i = IZR ((i + p) * h) / IZR sr)%R.
Proof.
  intros H. assert (E : (IZR sr <> 0)%R) by (apply Rgt_not_eq, IZR_lt; lia). unfold frame_end, frame_time. cbn [nmul nadd ndiv nofZ NumR].
  split; rewrite !mult_IZR, ?plus_IZR; field; exact E.
Qed.

Lemma realigned_times {L : Libm R} measure pf speech w (ref deg : audio R) k rs k' l n r r' h p i j :
  keeps_length pf -> au_sr ref = au_sr deg -> 1 <= au_sr deg -> Z.of_nat (length (au_data ref)) < 2 ^ 30 -> Z.of_nat (length (au_data deg)) < 2 ^ 30 ->
  finely_align measure pf speech w ref deg k rs = (k', Ret l) -> nth_error rs n = Some r -> nth_error l n = Some r' ->
  let sr := au_sr deg in matched_at h sr p i j r -> 1 <= h -> 1 <= p -> 0 <= i -> 0 <= j ->
  (i + p) * h < Z.of_nat (length (au_data ref)) -> (j + p) * h < Z.of_nat (length (au_data deg)) ->
  r' = r \/
  exists a b c d, i * h <= a < b /\ b <= (i + p) * h /\ j * h <= c < d /\ d <= (j + p) * h /\ b - a = d - c /\ 2 * (b - a) >= p * h /\
    (ps_ref_start r' = IZR a / IZR sr /\ ps_ref_end r' = IZR b / IZR sr /\ ps_deg_start r' = IZR c / IZR sr /\ ps_deg_end r' = IZR d / IZR sr)%R /\
    compares measure speech w (MkAudio (interval (au_data ref) a b) sr) (MkAudio (interval (au_data deg) c d) sr) r'.
Proof.
  intros K ES HS LR LD F N1 N2 sr (M1 & M2 & M3 & M4) Hh Hp Hi Hj Br Bd.
  destruct (frames_times h sr p i HS) as [E1 E2]. destruct (frames_times h sr p j HS) as [E3 E4].
  replace (p * h) with ((i + p) * h - i * h) by ring.
  apply (all_times measure pf speech w ref deg K rs k k' l n r r' (i * h) ((i + p) * h) (j * h) ((j + p) * h) F N1 N2 ES HS LR LD); [|nia|lia|nia|lia|ring].
  rewrite M1, M2, M3, M4. auto.
Qed.

(** a run that returns *)
Definition match50 : psr R := let z := MkMat 2 1 [0; 0]%R in MkPsr z z z 0%R (frame_time 1 50 2) (frame_end 1 50 20 2) (frame_time 1 50 4) (frame_end 1 50 20 4).
Lemma match50_returns {L : Libm R} : exists k l r', finely_align measure_patch_similarity ideal_fft false win50 (constant 50 1) (constant 52 1) (bank_init 2 1%R) [match50] = (k, Ret l) /\ nth_error l 0 = Some r'.
Proof.
  destruct (fine_all (half_exact_R _) lag_back_R lag_back_neg_R zero_back_R ideal_fft false win50 (constant 50 1) (constant 52 1) 0 1 20
    ideal_keeps_length ltac:(lia) hop50 ltac:(lia) ltac:(cbn; lia) ltac:(lia) eq_refl ltac:(lia)
    (times_R' 1 50 20 ltac:(lia) ltac:(lia) ltac:(lia)) ltac:(cbn; lia) eq_refl ltac:(cbn; lia) ltac:(cbn; lia) [match50] (bank_init 2 1%R)) as [(l & E)|[X _]]; [cbn; lia| | |lia].
  - constructor; [|constructor]. right. exists 2, 4. cbn. repeat split; lia.
  - destruct (finely_align _ _ _ _ _ _ _ _) as [k x] eqn:F. cbn [snd] in E. subst x.
    assert (N : length l = 1%nat).
    { clear -F. cbn [finely_align] in F. destruct (finely_align_one _ _ _ _ _ _ _ _) as [k1 [q| | |]]; try discriminate F. cbn in F. injection F as _ <-. reflexivity. }
    destruct l as [|r' l]; [discriminate N|]. exists k, (r' :: l), r'. auto.
Qed.

(** the degraded patch reaches past the end of its signal: silence stands in front of its audio *)
Definition snd_ref : audio PrimFloat.float := MkAudio (map (fun i => nofZ (Z.of_nat (i * i mod 7))) (seq 0 40)) 8.
Definition snd_deg : audio PrimFloat.float := MkAudio (map (fun i => nofZ (Z.of_nat (i * i mod 7))) (seq 0 20)) 8.
Definition match8 : psr PrimFloat.float := let z := MkMat 2 1 [0; 0]%float in MkPsr z z z 0.25%float 1%float 2.5%float 1.25%float 2.75%float.
Definition second8 : bank PrimFloat.float * res (list (psr PrimFloat.float)) := Eval vm_compute in finely_align (L:=toy_libm) measure_patch_similarity fft32 false (MkWin 4 0.25%float) snd_ref snd_deg (bank_init 2 1%float) [match8].
Definition new8 : psr PrimFloat.float := Eval vm_compute in match snd second8 with Ret (r :: _) => r | _ => match8 end.
Definition piece8 (x : res (audio PrimFloat.float)) : audio PrimFloat.float := match x with Ret a => a | _ => snd_ref end.
Definition ref8 := piece8 (slice snd_ref 1%float 2.5%float).
Definition deg8 := piece8 (slice snd_deg 1.25%float 2.75%float).
Lemma match8_times :
  finely_align (L:=toy_libm) measure_patch_similarity fft32 false (MkWin 4 0.25%float) snd_ref snd_deg (bank_init 2 1%float) [match8] = (fst second8, Ret [new8]) /\
  slice snd_ref 1%float 2.5%float = Ret ref8 /\ slice snd_deg 1.25%float 2.75%float = Ret deg8 /\
  ps_ref_start new8 = 1%float /\ ps_ref_end new8 = 2.375%float /\ ps_deg_start new8 = 1.25%float /\ ps_deg_end new8 = 2.625%float /\
  align_and_truncate fft32 ref8 deg8 = Ret (MkAudio (interval (au_data snd_ref) 8 19) 8, MkAudio ([0; 0] ++ interval (au_data snd_deg) 10 19)%float 8, 0%float) /\
  ([0; 0] ++ interval (au_data snd_deg) 10 19)%float <> interval (au_data snd_deg) 10 21.
Proof.
  repeat split; try (vm_compute; reflexivity). intros H. apply (f_equal (fun l => match l with x :: _ => PrimFloat.eqb x 0%float | _ => true end)) in H. vm_compute in H. discriminate H.
Qed.
