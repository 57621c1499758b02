(** Property C119: a mean similarity lies between the similarities it summarises. *)
From Coq Require Import ZArith List Bool Reals Lra Lia Floats.
From Verif Require Import Base.Res Base.Num Base.NumR Base.NumF Base.Mat Model.Amatrix Model.Nsim Model.FilterBank Model.Mappers Model.Visqol Model.Manager
  Spec.MeanRangeSpec Spec.ManagerSpec Proofs.B64P Proofs.ToyRunP Proofs.MeanRangeP.
Import ListNotations.
Open Scope R_scope.

(** C119 is false: the summary of a patch whose 21 bands all have the similarity 0.8 reports a similarity above 0.8. *)
Theorem C119_above_refuted : exists (L : Libm PrimFloat.float) (p : psr PrimFloat.float) (r : sim_result PrimFloat.float),
  summarise (fun x => x) (MSpeech true) 0.02%float [] [p] = Ret r /\ length (sr_fvnsim r) = 21%nat /\
  Forall (fun x => PrimFloat.ltb x (sr_vnsim r) = true) (sr_fvnsim r).
Proof. exact level_refutes. Qed.
Print Assumptions C119_above_refuted.
Example C119_refuted_example : exists r, summarise (L:=run_libm) (fun x => x) (MSpeech true) 0.02%float [] [level_patch] = Ret r /\
  sr_fvnsim r = repeat 0.8%float 21 /\ PrimFloat.ltb 0.8%float (sr_vnsim r) = true.
Proof. exact level_above. Qed.

(** What holds: without rounding the similarity is between the smallest and the largest similarity of a band, and that of a band between those of
    the patches. *)
Theorem C119_exact {L : Libm R} w (m : manager R) ref deg m' deg' msg : reachable m ->
  (Z.of_nat (length (au_data ref)) + 1 < 2 ^ 31)%Z -> (Z.of_nat (length (au_data deg')) + 1 < 2 ^ 31)%Z ->
  run w m ref deg = (m', deg', Ret msg) ->
  within_range 0 (ms_vnsim msg) (ms_fvnsim msg) /\
  forall b, (b < length (ms_fvnsim msg))%nat -> within_range 0 (nth b (ms_fvnsim msg) 0) (map (fun p => nth b (pm_means p) 0) (ms_patches msg)).
Proof. exact (run_range w m ref deg m' deg' msg). Qed.
Print Assumptions C119_exact.
Example C119_exact_example : within_range 0 (1 / 2) [1 / 4; 3 / 4] /\ ~ within_range 0 1 [1 / 4; 3 / 4].
Proof.
  split; [split; [exists (3 / 4); split; [right; left; reflexivity|lra]|exists (1 / 4); split; [left; reflexivity|lra]]|].
  intros [(x & [<-|[<-|[]]] & H) _]; lra.
Qed.

(** In binary64 it leaves that range by less than a billionth, if the similarities of the patches are at most 4 in magnitude. *)
Theorem C119_near_partial {L : Libm PrimFloat.float} w (m : manager PrimFloat.float) ref deg m' deg' msg : reachable m ->
  (Z.of_nat (length (au_data ref)) + 1 < 2 ^ 31)%Z -> (Z.of_nat (length (au_data deg')) + 1 < 2 ^ 31)%Z ->
  run w m ref deg = (m', deg', Ret msg) -> (Z.of_nat (length (ms_patches msg)) <= 1000000)%Z ->
  Forall (fun p => Forall (fun x => fin x /\ Rabs (FR x) <= 4) (pm_means p)) (ms_patches msg) ->
  within_range (1 / 1000000000) (FR (ms_vnsim msg)) (map FR (ms_fvnsim msg)) /\
  forall b, (b < length (ms_fvnsim msg))%nat -> within_range (1 / 1000000000) (FR (nth b (ms_fvnsim msg) n0)) (map (fun p => FR (nth b (pm_means p) n0)) (ms_patches msg)).
Proof. exact (run_range_F w m ref deg m' deg' msg). Qed.
Print Assumptions C119_near_partial.
(** a complete comparison of 33 samples *)
Example C119_near_example : reachable (L:=run_libm) run_manager /\ exists m d x, run (L:=run_libm) run_world run_manager (run_audio 1) (run_audio 2) = (m, d, Ret x) /\
  (Z.of_nat (length (ms_patches x)) <= 1000000)%Z /\ (Z.of_nat (length (au_data d)) + 1 < 2 ^ 31)%Z /\
  Forall (fun p => Forall (fun x => fin x /\ Rabs (FR x) <= 4) (pm_means p)) (ms_patches x).
Proof. split; [apply r_init, r_new|exact toy_bounded]. Qed.
