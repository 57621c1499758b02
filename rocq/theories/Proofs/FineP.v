(** Fine realignment (C30). *)
From Coq Require Import ZArith List Bool Reals Lra Lia ZifyBool ZifyNat.
From Verif Require Import Base.Res Base.Num Base.NumR Base.Lists Base.Mat Model.Amatrix Model.MiscMath Model.Window
  Model.FilterBank Model.Spectrogram Model.Nsim Model.Fft Model.Alignment Model.Selector.
Import ListNotations.
Open Scope nat_scope.

Section Fine.
  Context {T : Type} {N : Num T} {L : Libm T}.
  Variable measure : mat T -> mat T -> res (psr T).
  Variable pf : pffft T.
  Variable speech : bool.
  Variable w : window T.
  Variables ref deg : audio T.

  (** what may happen to one patch result *)
  Definition realigned (r r' : psr T) : Prop :=
    r' = r \/
    (is_lost r = false /\ nltb (ps_sim r') (ps_sim r) = false /\
     exists ra da ra' da' lag,
       slice ref (ps_ref_start r) (ps_ref_end r) = Ret ra /\
       slice deg (ps_deg_start r) (ps_deg_end r) = Ret da /\
       align_and_truncate pf ra da = Ret (ra', da', lag) /\
       ps_ref_start r' = (if nltb n0 lag then nadd (ps_ref_start r) lag else ps_ref_start r) /\
       ps_deg_start r' = (if nltb n0 lag then ps_deg_start r else nsub (ps_deg_start r) lag) /\
       ps_ref_end r' = nadd (ps_ref_start r') (ndiv (nofnat (length (au_data ra'))) (nofZ (au_sr ra'))) /\
       ps_deg_end r' = nadd (ps_deg_start r') (ndiv (nofnat (length (au_data da'))) (nofZ (au_sr da')))).

  Lemma finely_align_one_spec k r k' r' :
    finely_align_one measure pf speech w ref deg k r = (k', Ret r') -> realigned r r'.
  Proof.
    unfold finely_align_one. destruct (is_lost r) eqn:El; [intros H; injection H as _ <-; now left|].
    destruct (slice ref _ _) as [ra| | |] eqn:E1; cbn [bind]; try discriminate.
    destruct (slice deg _ _) as [da| | |] eqn:E2; cbn [bind]; try discriminate.
    destruct (align_and_truncate pf ra da) as [[[ra' da'] lag]| | |] eqn:E3; try discriminate.
    destruct (build speech k ra' w) as [k1 [rspec| | |]]; try discriminate.
    destruct (build speech k1 da' w) as [k2 [dspec| | |]]; cbn [bind]; try discriminate.
    destruct (prepare_spectrograms _ _) as [[A B]| | |]; cbn [bind]; try discriminate.
    destruct (measure A B) as [new| | |]; cbn [bind]; try discriminate.
    intros H. injection H as _ <-. unfold merge_result.
    destruct (nltb (ps_sim new) (ps_sim r)) eqn:En; [now left|]. right.
    split; [exact El|]. split; [exact En|]. exists ra, da, ra', da', lag. cbn. auto 10.
  Qed.

  Lemma finely_align_spec : forall rs k k' l,
    finely_align measure pf speech w ref deg k rs = (k', Ret l) -> Forall2 realigned rs l.
  Proof.
    induction rs as [|r t IH]; intros k k' l; cbn [finely_align].
    - intros H. injection H as _ <-. constructor.
    - destruct (finely_align_one measure pf speech w ref deg k r) as [k1 [r'| | |]] eqn:E1; try discriminate.
      destruct (finely_align measure pf speech w ref deg k1 t) as [k2 [y| | |]] eqn:E2; cbn [bind]; try discriminate.
      intros H. injection H as _ <-. constructor; [eapply finely_align_one_spec; exact E1|eapply IH; exact E2].
  Qed.

  Lemma finely_align_lost : forall rs k k' l,
    finely_align measure pf speech w ref deg k rs = (k', Ret l) ->
    length l = length rs /\
    forall i r r', nth_error rs i = Some r -> nth_error l i = Some r' ->
      realigned r r' /\ (is_lost r = true -> r' = r).
  Proof.
    intros rs k k' l H. apply finely_align_spec in H. induction H as [|a b la lb Hab Hf IH].
    - split; [reflexivity|]. intros [|i] r r' E; discriminate.
    - destruct IH as [IL IH]. split; [cbn; lia|]. intros [|i] r r' E E'; [|apply (IH i); assumption].
      cbn in E, E'. injection E as <-. injection E' as <-. split; [exact Hab|].
      intros El. destruct Hab as [->|(C & _)]; [reflexivity|congruence].
  Qed.
End Fine.

Lemma realign_results {T} {N : Num T} {L : Libm T} (measure : mat T -> mat T -> res (psr T)) (pf : pffft T)
  (speech : bool) (w : window T) (ref deg : audio T) rs k k' l :
  finely_align measure pf speech w ref deg k rs = (k', Ret l) ->
  length l = length rs /\
  forall i r r', nth_error rs i = Some r -> nth_error l i = Some r' -> realigned pf ref deg r r'.
Proof.
  intros H. apply finely_align_lost in H. destruct H as [H1 H2]. split; [exact H1|].
  intros i r r' A B. apply (H2 i r r' A B).
Qed.

(** *** a concrete run: stand-in transforms and elementary functions, two patches, one of them lost *)
From Coq Require Import Floats.
From Verif Require Import Base.NumF.
Definition toy_libm : Libm PrimFloat.float :=
  Build_Libm _ (fun _ => 1%float) (fun x => x) (fun x => x) (fun _ => 1%float) (fun _ => 0%float) (fun _ => 1%float) 3%float.
Definition toy_fft : pffft PrimFloat.float := MkPffft (fun l => l) (fun l => l) (fun x => x).
Definition toy_audio : audio PrimFloat.float := MkAudio (map (fun i => nofZ (Z.of_nat (i * i mod 7))) (seq 0 40)) 10.
Definition toy_patch (lost : bool) : psr PrimFloat.float :=
  let z := MkMat 2 1 [0; 0]%float in
  if lost then MkPsr z z z 0%float 1%float 3%float 0%float 0%float else MkPsr z z z 0.25%float 1%float 3%float 1%float 3%float.
Definition toy_run := finely_align (L:=toy_libm) measure_patch_similarity toy_fft false (MkWin 4 0.25%float)
  toy_audio toy_audio (bank_init 2 1%float) [toy_patch false; toy_patch true].
Lemma toy_run_result : exists k r, toy_run = (k, Ret [r; toy_patch true]) /\ ps_sim r = 1%float /\ ps_ref_start r = 1.2%float.
Proof. eexists _, _. split; [vm_compute; reflexivity|split; reflexivity]. Qed.
