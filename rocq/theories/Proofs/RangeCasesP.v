(** A comparison whose numbers are in range (C85). *)
From Coq Require Import ZArith List Bool Reals Lra Lia.
From Verif Require Import Base.Res Base.Num Base.NumR Model.FilterBank Model.Window Model.Fft Model.MiscAudio Model.Alignment Model.Mappers Model.Visqol Model.Manager
  Spec.ManagerSpec Spec.RangeSpec Proofs.FftP Proofs.AlignP Proofs.DftP Proofs.AlignCasesP Proofs.AggregateP Proofs.RangeP Proofs.TotalP Proofs.TotalCasesP.
Import ListNotations.
Open Scope Z_scope.

Lemma ramp_length n : length (au_data (ramp n)) = n.
Proof. unfold ramp. cbn [au_data]. now rewrite map_length, seq_length. Qed.
Lemma run_degraded_length (m : manager R) ref deg m' deg' x : 1 <= Z.of_nat (length (au_data ref)) -> 1 <= Z.of_nat (length (au_data deg)) -> Z.of_nat (length (au_data ref)) < 2 ^ 29 -> Z.of_nat (length (au_data deg)) < 2 ^ 29 ->
  run total_world m ref deg = (m', deg', x) -> Z.of_nat (length (au_data deg')) < 2 ^ 30.
Proof.
  intros G1 G2 H1 H2. unfold run. destruct (negb (mg_init m)). { intros H; injection H as _ <- _; lia. }
  destruct (validate ref deg). { intros H; injection H as _ <- _; lia. }
  destruct (if mg_no_global m then _ else _) as [[al lag]| | |] eqn:EG; try (intros H; injection H as _ <- _; lia).
  assert (LA : Z.of_nat (length (au_data al)) < 2 ^ 30).
  { destruct (mg_no_global m).
    - apply (f_equal (fun z => match z with Ret y => fst y | _ => deg end)) in EG. cbn [fst] in EG. subst al. lia.
    - apply (globally_align_cases _ ref deg al lag (half_exact_R _) ideal_keeps_length) in EG; [|lia|lia]. apply aligned_by_length in EG. lia. }
  destruct (make_window (au_sr ref)) as [win| | |]; try (intros H; injection H as _ <- _; lia).
  destruct (calculate_similarity _ _ _ _ _ _ _) as [[k d] r] eqn:EC. intros H. injection H as _ <- _.
  unfold calculate_similarity in EC. assert (d = scale_to_match_spl ref al) as ->.
  { destruct (build (st_speech (mg_settings m)) (mg_bank m) ref win) as [k1 [?| | |]]; try (injection EC; congruence).
    destruct (build (st_speech (mg_settings m)) k1 _ win) as [k2 [?| | |]]; try (injection EC; congruence).
    destruct (compare_spectrograms _ _ _ _ _ _ _ _ _); injection EC; congruence. }
  unfold scale_to_match_spl. cbn [au_data]. now rewrite map_length.
Qed.
Lemma range_example (speech : bool) : exists m' deg' msg,
  run total_world (total_manager speech) (ramp (if speech then 32 else 48)) (ramp 50) = (m', deg', Ret msg) /\
  reachable (total_manager speech) /\ (forall n o, st_mapper (mg_settings (total_manager speech)) <> MLattice n o) /\
  Z.of_nat (length (au_data deg')) + 1 < 2 ^ 31 /\ in_range msg /\ (1 <= ms_moslqo msg <= 5)%R.
Proof.
  destruct (total_runs speech) as (msg & E). destruct (run total_world _ _ _) as [[m' deg'] x] eqn:ER. cbn [snd] in E. subst x.
  exists m', deg', msg. split; [reflexivity|]. destruct (total_reached speech) as (A & _).
  assert (NL : forall n o, st_mapper (mg_settings (total_manager speech)) <> MLattice n o) by (destruct speech; discriminate).
  assert (LR : Z.of_nat (length (au_data (ramp (if speech then 32 else 48)))) < 2 ^ 29) by (rewrite ramp_length; destruct speech; lia).
  assert (LD : Z.of_nat (length (au_data deg')) < 2 ^ 30).
  { apply (run_degraded_length (total_manager speech) (ramp (if speech then 32 else 48)) (ramp 50) m' deg' (Ret msg)); [rewrite ramp_length; destruct speech; lia|rewrite ramp_length; lia|exact LR|rewrite ramp_length; lia|exact ER]. }
  split; [exact A|]. split; [exact NL|]. split; [lia|]. split.
  - apply (run_ranged total_world (total_manager speech) (ramp (if speech then 32 else 48)) (ramp 50) m' deg' msg A); [lia|lia|exact ER].
  - apply (run_score total_world (total_manager speech) (ramp (if speech then 32 else 48)) (ramp 50) m' deg' msg NL ER).
Qed.
