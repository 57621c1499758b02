(** Concrete objects for C74. *)
From Coq Require Import String ZArith List Bool Reals Lia.
From Verif Require Import Base.Res Base.Num Base.NumR Model.Window Model.FilterBank Model.Fft Model.Alignment Model.MiscAudio Model.Mappers Model.Visqol Model.Manager
  Spec.FftSpec Spec.ManagerSpec Spec.TotalSpec Proofs.FftP Proofs.DftP Proofs.TotalP.
Import ListNotations.
Open Scope Z_scope.

(** *** concrete objects *)
Definition total_world : world R := MkWorld ideal_fft (fun _ => Some (fun _ => 3%R)) (fun _ => inl InvalidArgument) (fun _ => None) "/"%string.
Definition total_manager (speech : bool) : manager R := fst (init total_world manager_new (MkInit "model"%string speech false 60 false false false)).
Definition ramp (n : nat) : audio R := MkAudio (map INR (seq 0 n)) 50.
Lemma total_reached speech : reachable (total_manager speech) /\ mg_init (total_manager speech) = true /\
  st_speech (mg_settings (total_manager speech)) = speech /\ can_predict (st_mapper (mg_settings (total_manager speech))).
Proof. split; [apply r_init, r_new|]. destruct speech; repeat split; discriminate. Qed.
Lemma total_runs (speech : bool) : exists msg, snd (run total_world (total_manager speech) (ramp (if speech then 32 else 48)) (ramp 50)) = Ret msg.
Proof.
  destruct (total_reached speech) as (A & B & C & D).
  assert (LN : forall n, List.length (au_data (ramp n)) = n) by (intros n; unfold ramp; cbn [au_data]; rewrite map_length, seq_length; reflexivity).
  refine (run_returns_at total_world (total_manager speech) (ramp (if speech then 32 else 48)) (ramp 50) ideal_keeps_length B A _ _ _ _ _ _ _ _ _ D); rewrite ?LN, ?C;
    try (destruct speech; vm_compute; (reflexivity || discriminate || (split; (reflexivity || discriminate)))).
Qed.
