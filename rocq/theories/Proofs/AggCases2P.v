(** Binary64 facts and concrete cases for Props/ResultProps.v. *)
From Coq Require Import ZArith List Bool Reals Lra Lia ZifyBool ZifyNat Floats.
From Flocq Require Import Core.Core IEEE754.BinarySingleNaN IEEE754.PrimFloat.
From Verif Require Import Base.Res Base.Num Base.NumR Base.NumF Base.Lists Base.Mat Model.Amatrix Model.MiscMath Model.PatchCreator Model.FilterBank
  Model.Window Model.Nsim Model.Fft Model.Alignment Model.Selector Model.Visqol Model.Manager
  Spec.StatSpec Spec.AggSpec Spec.MatchSpec Spec.ManagerSpec
  Proofs.B64P Proofs.NsimP Proofs.ScoresP Proofs.OptimalP Proofs.ShapeP Proofs.MatchAllP Proofs.MatchCasesP Proofs.AggregateP Proofs.AggregateRP Proofs.AggFloatP Proofs.AggCasesP.
Import ListNotations.
Open Scope nat_scope.

Lemma sqrt_not_negative (d : PrimFloat.float) : PrimFloat.ltb (PrimFloat.sqrt d) 0%float = false.
Proof.
  rewrite ltb_equiv, sqrt_equiv.
  destruct (Bsqrt_correct prec emax Hprec64 Hmax64 mode_NE (Prim2B d)) as (E & F & _).
  remember (Bsqrt mode_NE (Prim2B d)) as x eqn:X. change (Prim2B 0%float) with (B754_zero false : binary_float prec emax) at 1.
  destruct x as [s|s| |s m e Hb]; try reflexivity.
  - destruct s; [|reflexivity]. exfalso. clear E. destruct (Prim2B d) as [[|]|[|]| |[|] m e Hm]; cbn in F; try discriminate; cbn in X; discriminate.
  - rewrite Bltb_correct by reflexivity. rewrite E. cbn [B2R]. apply Rlt_bool_false.
    apply round_ge_generic; [apply (fexp_correct prec emax); exact Hprec64|apply valid_rnd_N|apply generic_format_0|apply sqrt_pos].
Qed.
Lemma pooled_not_negative tot (c mean : PrimFloat.float) : nltb (pooled tot c mean) n0 = false.
Proof.
  unfold pooled. destruct (nltb (ndiv _ _) n0); [reflexivity|]. apply sqrt_not_negative.
Qed.
Lemma stddevs_not_negative (ps : list (psr PrimFloat.float)) fd l : calc_stddevs ps fd = Ret l -> forall v, In v l -> nltb v n0 = false.
Proof.
  unfold calc_stddevs. destruct ps as [|p0 t]; [discriminate|]. intros H. apply bind_ret in H. destruct H as (mm & _ & H).
  apply bind_ret in H. destruct H as ([tot c] & _ & H). destruct (fits_int _); [|discriminate].
  match type of H with Ret ?a = Ret ?b => assert (HH : a = b) by congruence end. rewrite <- HH.
  intros v Hv. apply in_map_iff in Hv. destruct Hv as (b & <- & _). apply pooled_not_negative.
Qed.
Lemma message_stddevs {L : Libm PrimFloat.float} w (m : manager PrimFloat.float) ref deg m' deg' msg :
  run w m ref deg = (m', deg', Ret msg) -> forall v, In v (ms_fstdnsim msg) -> nltb v n0 = false.
Proof.
  intros H. apply run_summary in H. destruct H as (r & fd & cfb & ps & lag & HS & HP).
  unfold populate in HP. apply bind_ret in HP. destruct HP as (v & _ & HP).
  match type of HP with Ret ?a = Ret ?b => assert (E : a = b) by congruence end. rewrite <- E. cbn [ms_fstdnsim].
  unfold summarise in HS.
  apply bind_ret in HS. destruct HS as (a1 & _ & HS). apply bind_ret in HS. destruct HS as (a2 & _ & HS).
  apply bind_ret in HS. destruct HS as (a3 & ES & HS). apply bind_ret in HS. destruct HS as (a4 & _ & HS).
  apply bind_ret in HS. destruct HS as (mos & _ & HS).
  match type of HS with Ret ?a = Ret ?b => assert (E' : a = b) by congruence end. rewrite <- E'. cbn [sr_fstdnsim].
  apply (stddevs_not_negative _ _ _ ES).
Qed.


(** one matched patch over the reals *)
Lemma matched_case : exists l,
  find_most_optimal_deg_patches measure_patch_similarity [MkMat 1 2 [1; 2]%R] [0]%Z (MkMat 1 6 [1; 2; 3; 4; 5; 6]%R) 1%R 60 = Ret l /\
  length l = 1 /\ forall x, In x l -> ps_deg_end x <> 0%R.
Proof.
  set (A := MkMat 1 6 [1; 2; 3; 4; 5; 6]%R).
  destruct (optimal_reports scoresR counts_exact_R measure_patch_similarity 2 A A [0]%Z [MkMat 1 2 [1; 2]%R] 1%R 60) as (l & off & E & Ll & _ & G & _).
  - lia.
  - reflexivity.
  - split; [cbn; lia|reflexivity].
  - reflexivity.
  - split; [repeat constructor|]. split; [reflexivity|]. intros s [<-|[]]; cbn; lia.
  - reflexivity.
  - lia.
  - cbn [ncols A]. lia.
  - intros i s Hi Hs. cbn [length] in Hi. assert (i = 0) as -> by lia. cbn [nth].
    destruct (measure_bounded (MkMat 1 2 [1; 2]%R) (frames_at n0 A (Z.of_nat s) 2)) as (_ & r & _ & Er & _ & _ & Hb');
      [cbn; lia|cbn; lia|reflexivity|reflexivity|].
    rewrite Er. cbn [result_of]. split; [reflexivity|]. split; [exact I|]. cbn. apply Rabs_le. lra.
  - left. cbn [ncols A]. lia.
  - exists l. split; [exact E|]. cbn [length] in Ll. assert (L1 : length l = 1) by lia. split; [exact L1|]. intros x Hx.
    destruct (G 0 ltac:(lia)) as (y & Ey & Wy). destruct l as [|z [|]]; cbn in L1; try lia.
    destruct Hx as [<-|[]]. cbn in Ey. injection Ey as ->. rewrite Wy. cbn [skipped with_times ps_deg_end].
    cbn [nadd nmul nofZ NumR]. pose proof (IZR_le 0 (Z.of_nat (off 0)) ltac:(lia)). change (Z.of_nat 2) with 2%Z. lra.
Qed.

(** a lost patch: the means are cleared, the deviations and energies are not *)
Definition ridge2 : mat PrimFloat.float := MkMat 4 2 [0; 10; 0; 10; 0; 10; 1; 9]%float.
Definition valleys2 : mat PrimFloat.float := MkMat 4 16 (concat (repeat [10; 0; 10; 0; 9; 0; 10; 1]%float 8)).
Lemma lost_keeps : exists r0 r1,
  find_most_optimal_deg_patches measure_patch_similarity [ridge2; ridge2] [0; 6]%Z valleys2 1%float 1 = Ret [r0; r1] /\
  ps_sim r1 = 0%float /\ ps_deg_start r1 = 0%float /\ ps_deg_end r1 = 0%float /\
  (forall v, In v (elems (ps_means r1)) -> v = 0%float) /\
  (forall v, In v (elems (ps_stddevs r1)) -> nltb 0%float v = true) /\
  nth 0 (elems (ps_energy r1)) 0%float = 0x1.3p+3%float.
Proof.
  eexists _, _. split; [vm_compute; reflexivity|]. split; [reflexivity|]. split; [reflexivity|]. split; [reflexivity|].
  split; [intros v [<-|[<-|[<-|[<-|[]]]]]; reflexivity|]. split; [intros v [<-|[<-|[<-|[<-|[]]]]]; reflexivity|reflexivity].
Qed.

(** 48 kHz audio mode: hop 960, frame duration 0.02; the patch at frame 74 counts as 31 frames *)
Lemma one_frame_more : exists idx win fd,
  create_ref_patch_indices 30 130 = Ret idx /\ In 74%Z idx /\
  make_window (T:=PrimFloat.float) 48000 = Ret win /\ calc_frame_duration win 48000 = Ret fd /\
  forall x, ps_ref_start x = nmul (nofZ 74) fd -> ps_ref_end x = nadd (ps_ref_start x) (nmul fd (nofZ 30)) ->
    frame_count fd x = Ret 31%Z.
Proof.
  exists [14; 44; 74]%Z, (MkWin 3840 (ndec 25 2)), 0x1.47ae147ae147bp-6%float.
  split; [vm_compute; reflexivity|]. split; [right; right; now left|]. split; [vm_compute; reflexivity|].
  split; [vm_compute; reflexivity|]. intros x E1 E2. unfold frame_count. rewrite E2, E1. vm_compute. reflexivity.
Qed.
