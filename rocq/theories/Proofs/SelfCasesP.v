(** Restatements and an example for C106. *)
From Coq Require Import ZArith List Bool Reals Lra Lia Floats.
From Coq Require Strings.String.
From Flocq Require Import Core.Core IEEE754.BinarySingleNaN IEEE754.PrimFloat.
From Verif Require Import Base.Res Base.Num Base.NumR Base.NumF Base.Lists Base.Mat Model.Amatrix Model.Fft Model.Window
  Model.FilterBank Model.Nsim Model.Alignment Model.MiscAudio Model.Mappers Model.Visqol Model.Manager
  Spec.FftSpec Spec.ManagerSpec Spec.TotalSpec Spec.UndefinedSpec Spec.StableSpec Spec.LibmSpec Spec.PcmSpec Spec.SelfSpec
  Proofs.B64P Proofs.RoundP Proofs.FftP Proofs.ToyRunP Proofs.FinitePrepP Proofs.StableBankP Proofs.RoundedLibmP Proofs.AccurateRunP Proofs.AccurateCasesP Proofs.NsimWideP Proofs.SelfRunP.
Import ListNotations.
Open Scope Z_scope.

Lemma patch_self (A : mat F) : patch_table A -> exists r, measure_patch_similarity A A = Ret r /\ PrimFloat.leb 0.9994 (ps_sim r) = true /\ PrimFloat.leb (ps_sim r) 1.0006 = true.
Proof.
  intros (HR & HC & HE). destruct (self_wide A) as (r & E & Fr & Br); [|lia|lia|].
  - split; [lia|]. split; [lia|]. intros i c Hi Hc. specialize (HE i c Hi Hc). assert (F4 : fin 4100) by reflexivity.
    assert (E4 : FR 4100 = 4100%R) by (change 4100%float with (F_ofZ 4100); apply FR_ofZ; lia).
    assert (Fx : fin (at_ A i c)). { revert HE. unfold fin. rewrite leb_equiv, abs_equiv. destruct (Prim2B (at_ A i c)) as [[]|[]| |[] ? ? ?]; try discriminate; reflexivity. }
    split; [exact Fx|]. assert (Fa : fin (PrimFloat.abs (at_ A i c)) /\ FR (PrimFloat.abs (at_ A i c)) = Rabs (FR (at_ A i c))).
    { unfold fin, FR. rewrite abs_equiv. split; [rewrite is_finite_Babs; exact Fx|apply B2R_Babs]. }
    destruct Fa as [Fa Ea]. rewrite FR_leb in HE by assumption. rewrite Ea, E4 in HE. revert HE. case Rle_bool_spec; [auto|discriminate].
  - exists r. split; [exact E|]. apply Rabs_le_inv in Br. assert (F1 : fin 0.9994) by reflexivity. assert (F2 : fin 1.0006) by reflexivity.
    assert (E1 : FR 0.9994 = F2R (Float radix2 9001794935188147 (-53))) by reflexivity. assert (E2 : FR 1.0006 = F2R (Float radix2 4506301787146918 (-52))) by reflexivity.
    unfold F2R in E1, E2. cbn [Fnum Fexp] in E1, E2. change (bpow radix2 (-53)) with (/ 9007199254740992)%R in E1. change (bpow radix2 (-52)) with (/ 4503599627370496)%R in E2.
    split; rewrite FR_leb by assumption; rewrite ?E1, ?E2; case Rle_bool_spec; try reflexivity; intros C; exfalso; lra.
Qed.

Lemma one_is x : fin x -> FR x = 1%R -> x = 1%float.
Proof.
  intros Fx E. apply Prim2B_inj. assert (E1 : B2R (Prim2B 1) = 1%R) by (change (Prim2B 1) with (Prim2B (F_ofZ 1)); apply (FR_ofZ 1); lia). unfold FR in E.
  apply B2R_inj; [|reflexivity|congruence]. unfold fin in Fx. destruct (Prim2B x) as [?|?| |? ? ? ?]; try discriminate; [|reflexivity]. cbn in E. lra.
Qed.
Lemma rounded_pow : mpow10 (Libm:=rounded_libm) 0%float = 1%float.
Proof.
  cbn [mpow10 rounded_libm]. change (PrimFloat.eqb 0 infinity) with false. change (PrimFloat.eqb 0 neg_infinity) with false. change (PrimFloat.eqb 0 0) with true. cbv iota.
  replace (FR 0) with 0%R by reflexivity. rewrite Rmult_0_l, exp_0.
  assert (R1 : rnd 1 = 1%R) by (apply (rnd_exact 1 0); [cbn; lra|reflexivity|lia]).
  destruct (FR_nearest 1) as [E Fi]; [rewrite R1, Rabs_R1; unfold fmax; change 1%R with (bpow radix2 0); apply bpow_lt; change emax with 1024; lia|]. apply one_is; [exact Fi|congruence].
Qed.

Definition still_manager : manager F := fst (init run_world manager_new (MkInit String.EmptyString true false 4 false true true)).
Lemma still_reached : reachable (L:=rounded_libm) still_manager /\ mg_init still_manager = true /\ mg_no_global still_manager = true /\ st_no_realign (mg_settings still_manager) = true /\ st_radius (mg_settings still_manager) = 4 /\ st_speech (mg_settings still_manager) = true.
Proof. split; [apply r_init, r_new|]. repeat split. Qed.
Lemma self_returns {L : Libm F} (w : world F) (m : manager F) (s : audio F) : accurate L -> mpow10 0%float = 1%float -> keeps_length (w_fft w) -> mg_init m = true -> reachable m ->
  let sr := au_sr s in let st := mg_settings m in let frames := frames_in sr (length (au_data s)) in let p := if st_speech st then 20 else 30 in
  4000 <= sr <= 262144 -> Z.of_nat (length (au_data s)) < 2 ^ 29 ->
  (if st_speech st then 29 else 45) <= frames -> (st_speech st = true -> window_samples sr mod 4 = 0) ->
  frames <= st_radius st * p -> frames + st_radius st * p <= 2 ^ 31 -> can_predict (st_mapper st) ->
  Forall pcm (au_data s) -> audible s ->
  (mg_no_global m = true \/ exists lag, globally_align (w_fft w) s s = Ret (s, lag)) -> st_no_realign st = true ->
  exists msg, snd (run w m s s) = Ret msg /\ PrimFloat.leb 0.999 (ms_vnsim msg) = true.
Proof.
  intros A P1 K I HR sr st frames p Hsr Hl EF HW COV RB CP PR EX NG NR.
  assert (Rad : 1 <= st_radius st) by (unfold p in COV; destruct (st_speech st); lia).
  assert (Wr : 2 * window_samples sr < Z.of_nat (length (au_data s))).
  { unfold frames, frames_in in EF. destruct (Z.lt_ge_cases (2 * window_samples sr) (Z.of_nat (length (au_data s)))); [assumption|].
    assert (4 <= window_samples sr) by (unfold window_samples; lia). assert (1 <= hop_samples sr) by (unfold hop_samples; lia).
    assert ((Z.of_nat (length (au_data s)) - window_samples sr) / hop_samples sr < 28) by (apply Z.div_lt_upper_bound; [lia|unfold hop_samples in *; lia]). destruct (st_speech st); lia. }
  destruct (run_accurate w m s s A K I HR eq_refl Hsr Hl Hl) as [[msg EM]|[C _]]; try assumption; [fold sr; lia| |].
  - exists msg. split; [exact EM|]. exact (self_run w m s msg A P1 K I HR Hsr Hl EF HW COV RB PR EX NG EM).
  - fold st in C. congruence.
Qed.
Lemma still_runs : exists msg, snd (run (L:=rounded_libm) run_world still_manager (tone 0.5) (tone 0.5)) = Ret msg /\ PrimFloat.leb 0.999 (ms_vnsim msg) = true.
Proof.
  destruct still_reached as (R1 & R2 & R3 & R4 & R5 & R6).
  assert (KL : keeps_length (w_fft run_world)) by (split; intros l; reflexivity).
  assert (LN : Z.of_nat (length (au_data (tone 0.5))) = 2700) by (unfold tone; cbn [au_data]; rewrite repeat_length; reflexivity).
  assert (FN : frames_in 4000 (length (au_data (tone 0.5))) = 30) by (unfold frames_in; rewrite LN; reflexivity).
  refine (self_returns (L:=rounded_libm) run_world still_manager (tone 0.5) rounded_accurate rounded_pow KL R2 R1 _ _ _ _ _ _ _ (tone_pcm _ half_pcm) _ (or_introl R3) R4);
    change (au_sr (tone 0.5)) with 4000; rewrite ?LN, ?FN, ?R5, ?R6.
  - lia.
  - lia.
  - lia.
  - intros _. reflexivity.
  - lia.
  - lia.
  - exact Logic.I.
  - unfold audible, tone. cbn [au_data]. apply Exists_exists. exists 0.5%float. split; [|reflexivity]. replace (Z.to_nat 2700) with (S (Z.to_nat 2699)) by lia. left. reflexivity.
Qed.
Definition ramp : mat F := MkMat 2 3 [0; 10; 20; 4045; 1; 7]%float.
Lemma ramp_patch : patch_table ramp.
Proof.
  split; [cbn; lia|]. split; [cbn; lia|]. intros r c Hr Hc. cbn [nrows ncols ramp] in Hr, Hc.
  destruct r as [|[|r]]; [| |lia]; (destruct c as [|[|[|c]]]; [| | |lia]); reflexivity.
Qed.
