(** What Run does to its degraded argument, in exact arithmetic (C06). *)
From Coq Require Import ZArith List Bool Reals Lra Lia.
From Verif Require Import Base.Res Base.Num Base.NumR Base.Lists Model.FilterBank Model.Fft Model.Alignment Model.MiscAudio Model.Visqol Model.Manager
  Spec.AlignSpec Spec.FftSpec Proofs.FftP Proofs.AlignP Proofs.AlignCasesP Proofs.ApiP.
Import ListNotations.
Open Scope R_scope.

Lemma run_degraded_R w (m : manager R) ref deg m' deg' x : keeps_length (w_fft w) ->
  (1 <= Z.of_nat (length (au_data ref)) < 2 ^ 30)%Z -> (1 <= Z.of_nat (length (au_data deg)) < 2 ^ 30)%Z ->
  run w m ref deg = (m', deg', Ret x) ->
  exists aligned lag f, aligned_by ref deg aligned lag /\ (mg_no_global m = true -> aligned = deg) /\ 0 < f /\
    au_data deg' = map (fun s => s * f) (au_data aligned) /\ au_sr deg' = au_sr deg.
Proof.
  intros K H1 H2 E.
  assert (Q : exists aligned lag, (if mg_no_global m then Ret (deg, n0) else globally_align (w_fft w) ref deg) = Ret (aligned, lag) /\
                deg' = scale_to_match_spl ref aligned).
  { revert E. unfold run. destruct (negb _); [discriminate|]. destruct (validate _ _); [discriminate|].
    destruct (if mg_no_global m then _ else _) as [[d lag]| | |]; try discriminate.
    destruct (Window.make_window _) as [win| | |]; try discriminate.
    pose proof (similarity_alike Nsim.measure_patch_similarity (w_fft w) (mg_settings m) win ref d (mg_bank m) (mg_bank m) (conj eq_refl eq_refl)) as [_ S].
    destruct (calculate_similarity _ _ _ _ _ _ _) as [[k d'] r]. cbn [fst snd] in S. intros H. exists d, lag. split; [reflexivity|].
    assert (d' = deg') by congruence. congruence. }
  destruct Q as (aligned & lag & EG & ->). exists aligned, lag, (spl_scale_factor ref aligned).
  assert (A : aligned_by ref deg aligned lag).
  { destruct (mg_no_global m).
    - assert (deg = aligned) by congruence. assert (lag = n0) by congruence. left. split; congruence.
    - exact (globally_align_cases (w_fft w) ref deg aligned lag (half_exact_R _) K H1 H2 EG). }
  split; [exact A|]. split; [intros G; rewrite G in EG; congruence|]. split; [apply exp_pos|]. split; [reflexivity|].
  cbn. destruct A as [[-> _]|[(k & _ & _ & _ & S & _)|(k & _ & _ & _ & S & _)]]; auto.
Qed.
