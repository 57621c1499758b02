(** Statements of Props/MapperProps.v and their concrete cases. *)
From Coq Require Import ZArith List Bool String Reals Lra Lia Floats.
From Verif Require Import Base.Res Base.Num Base.NumR Base.NumF Base.Mat Model.MiscMath Model.FilterBank Model.Nsim Model.Fft Model.Mappers
  Model.Visqol Model.Manager Spec.StatSpec Spec.ManagerSpec Proofs.MapperP Proofs.MapperRP.
Import ListNotations.
Open Scope nat_scope.

Definition any_libm : Libm PrimFloat.float :=
  Build_Libm _ (fun x => x) (fun x => x) (fun x => x) (fun x => x) (fun x => x) (fun x => x) 3%float.
Definition nan_world : world PrimFloat.float :=
  MkWorld (MkPffft (fun l => l) (fun l => l) (fun x => x)) (fun _ => Some (fun _ => nan)) (fun _ => inl Unknown) (fun _ => None) EmptyString.
Definition nan_manager : manager PrimFloat.float := fst (init nan_world manager_new (MkInit EmptyString false false 60 false false false)).
Lemma nan_manager_reachable : reachable (L:=any_libm) nan_manager.
Proof. apply r_init, r_new. Qed.
(** a patch result with two bands and 30 frames of 1/16 second *)
Definition nan_patch : psr PrimFloat.float :=
  MkPsr (MkMat 2 1 [0.25; 0.75]%float) (MkMat 2 1 [0.125; 0.125]%float) (MkMat 2 1 [3; 4]%float) 0.5%float 0%float 0x1.ep+0%float 0%float 0x1.ep+0%float.
Definition nan_result : sim_result PrimFloat.float :=
  Eval vm_compute in match summarise (L:=any_libm) (fun x => x) (st_mapper (mg_settings nan_manager)) 0x1p-4%float [] [nan_patch] with Ret r => r
  | _ => MkSim nan nan [] [] [] [] [] [] end.
Lemma nan_scores_five : summarise (L:=any_libm) (fun x => x) (st_mapper (mg_settings nan_manager)) 0x1p-4%float [] [nan_patch] = Ret nan_result /\
  sr_moslqo nan_result = 5%float /\ sr_vnsim nan_result = 0.5%float.
Proof. vm_compute. repeat split. Qed.

Open Scope R_scope.
Lemma speech_mapping (scale : bool) :
  (forall l l', mean l = mean l' -> speech_predict scale l = speech_predict scale l') /\
  (forall l l', mean l <= mean l' -> speech_predict scale l <= speech_predict scale l') /\
  (forall l : list R, 1 <= speech_predict scale l <= 5) /\
  (forall l, mean l = 1 -> if scale then 5 - 1 / 10 ^ 7 <= speech_predict scale l < 5
                           else 4.01 <= speech_predict scale l <= 4.02).
Proof.
  split; [intros l l' E; rewrite !speech_R, E; reflexivity|]. split; [apply speech_mono|]. split; [apply speech_bounds|].
  intros l E. destruct (speech_perfect l E) as (A & B). destruct scale; [exact B|lra].
Qed.
Lemma speech_constants (scale : bool) (l : list R) :
  speech_predict scale l =
    Rmin (Rmax ((-262.847869 + exp (0.0154302525 * (mean l + 361.063949))) * (if scale then 10444345 / 2 ^ 23 else 1)) 1) 5 /\
  Rabs (10444345 / 2 ^ 23 - 1.245063) < / 2 ^ 24.
Proof.
  split.
  - rewrite speech_R. unfold fit, scale_of. do 2 f_equal. f_equal. f_equal; [lra|]. f_equal. lra.
  - destruct scale_nearest as (_ & H). replace 1.245063 with (1245063 / 10 ^ 6) by lra. exact H.
Qed.
Open Scope nat_scope.
Lemma names_distinct (b b' : nat) :
  let names := ["fvnsim"; "fvnsim10_"; "fstdnsim"; "fvdegenergy"]%string in
  (forall k k' s s', nth_error names k = Some s -> nth_error names k' = Some s' ->
     append s (dec_string b) = append s' (dec_string b') -> k = k' /\ b = b') /\
  (forall s, In s names -> append s (dec_string b) <> "tau"%string).
Proof.
  cbv zeta. split.
  - intros k k' s s' E E' H. apply (feature_name_inj k b k' b').
    + assert (k < List.length ["fvnsim"; "fvnsim10_"; "fstdnsim"; "fvdegenergy"]%string) by (apply nth_error_Some; congruence). exact H0.
    + assert (k' < List.length ["fvnsim"; "fvnsim10_"; "fstdnsim"; "fvdegenergy"]%string) by (apply nth_error_Some; congruence). exact H0.
    + unfold feature_name, base_names. apply (nth_error_nth _ _ EmptyString) in E, E'. rewrite E, E'. exact H.
  - intros s [<-|[<-|[<-|[<-|[]]]]]; discriminate.
Qed.
Lemma lattice_all_slots {T} {N : Num T} (m : lattice T) f32 n (f1 f2 f3 f4 : list T) :
  List.length f1 = n -> List.length f2 = n -> List.length f3 = n -> List.length f4 = n ->
  let name s b := append s (dec_string b) in
  let written s := s = "tau"%string \/ exists b, b < n /\
    (s = name "fvnsim"%string b \/ s = name "fvnsim10_"%string b \/ s = name "fstdnsim"%string b \/ s = name "fvdegenergy"%string b) in
  ((forall s, written s -> In s (lt_inputs m)) ->
   exists env, lattice_predict m f32 n f1 f2 f3 f4 = Ret (lt_run m env) /\ env "tau"%string = Some (ndec 5 1) /\
     (forall b, b < n ->
        env (name "fvnsim"%string b) = Some (f32 (nth b f1 n0)) /\ env (name "fvnsim10_"%string b) = Some (f32 (nth b f2 n0)) /\
        env (name "fstdnsim"%string b) = Some (f32 (nth b f3 n0)) /\ env (name "fvdegenergy"%string b) = Some (f32 (nth b f4 n0))) /\
     (forall s, ~ written s -> env s = None)) /\
  ((exists s, written s /\ ~ In s (lt_inputs m)) -> lattice_predict m f32 n f1 f2 f3 f4 = Ub).
Proof.
  intros L1 L2 L3 L4 name written.
  assert (W : forall s, written s <-> In s (all_names n)).
  { intros s. rewrite in_all_names. unfold written. split.
    - intros [->|(b & Hb & H)]; [now left|right].
      destruct H as [->|[->|[->| ->]]]; [exists 0, b|exists 1, b|exists 2, b|exists 3, b]; (split; [lia|]; split; [exact Hb|reflexivity]).
    - intros [->|(k & b & Hk & Hb & ->)]; [now left|right]. exists b. split; [exact Hb|].
      destruct k as [|[|[|[|k]]]]; try lia; unfold feature_name, base_names; cbn [nth]; tauto. }
  split.
  - intros H. destruct (lattice_slots m f32 n f1 f2 f3 f4 L1 L2 L3 L4) as (env & E & A & B & C).
    { intros s Hs. apply H, W, Hs. }
    exists env. split; [exact E|]. split; [exact A|]. split.
    + intros b Hb. split; [|split; [|split]].
      * exact (B 0 b ltac:(lia) Hb).
      * exact (B 1 b ltac:(lia) Hb).
      * exact (B 2 b ltac:(lia) Hb).
      * exact (B 3 b ltac:(lia) Hb).
    + intros s Hs. apply C. intros I. apply Hs, W, I.
  - intros (s & Hs & NI). apply lattice_missing; try assumption. exists s. split; [apply W, Hs|exact NI].
Qed.
