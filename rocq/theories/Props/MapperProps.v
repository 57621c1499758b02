(** Properties C09-C11, C59: from the similarity to the score. *)
From Coq Require Import ZArith List Bool String Reals Lra Lia Floats.
From Verif Require Import Base.Res Base.Num Base.NumR Base.NumF Base.Mat Model.MiscMath Model.FilterBank Model.Nsim Model.Fft Model.Mappers
  Model.Visqol Model.Manager Spec.StatSpec Spec.ManagerSpec Proofs.MapperP Proofs.MapperRP Proofs.MapperCasesP.
Import ListNotations.
Open Scope nat_scope.

(** C09: binary64, audio mode, any history of calls, any regression model (NaN and infinities included): the score
    computed from any list of patch results is between 1 and 5. *)
Theorem C09_audio_score_range {L : Libm PrimFloat.float} (m : manager PrimFloat.float) f32 fd cfb ps r :
  reachable m -> st_speech (mg_settings m) = false ->
  summarise f32 (st_mapper (mg_settings m)) fd cfb ps = Ret r ->
  nleb (nofZ 1) (sr_moslqo r) = true /\ nleb (sr_moslqo r) (nofZ 5) = true.
Proof. exact (summary_range m f32 fd cfb ps r). Qed.
Print Assumptions C09_audio_score_range.
Example C09_example : reachable (L:=any_libm) nan_manager /\ st_speech (mg_settings nan_manager) = false /\
  exists r, summarise (L:=any_libm) (fun x => x) (st_mapper (mg_settings nan_manager)) 0x1p-4%float [] [nan_patch] = Ret r.
Proof. exact (conj nan_manager_reachable (conj eq_refl (ex_intro _ _ (proj1 nan_scores_five)))). Qed.

(** C09 for the score of a complete comparison. *)
Theorem C09_reported_score_range {L : Libm PrimFloat.float} w (m : manager PrimFloat.float) ref deg m' deg' msg :
  reachable m -> st_speech (mg_settings m) = false -> run w m ref deg = (m', deg', Ret msg) ->
  nleb (nofZ 1) (ms_moslqo msg) = true /\ nleb (ms_moslqo msg) (nofZ 5) = true.
Proof. exact (audio_score_range w m ref deg m' deg' msg). Qed.
Print Assumptions C09_reported_score_range.

(** C10 fails in audio mode: a model that predicts NaN yields the perfect score 5.0. *)
Theorem C10_undefined_is_not_perfect_refuted :
  reachable (L:=any_libm) nan_manager /\ st_mapper (mg_settings nan_manager) = MSvr (Some (fun _ => nan)) /\
  exists r, summarise (L:=any_libm) (fun x => x) (st_mapper (mg_settings nan_manager)) 0x1p-4%float [] [nan_patch] = Ret r /\
    sr_moslqo r = 5%float /\ sr_vnsim r = 0.5%float.
Proof. exact (conj nan_manager_reachable (conj eq_refl (ex_intro _ _ nan_scores_five))). Qed.
Print Assumptions C10_undefined_is_not_perfect_refuted.

(** C10 fails for every complete comparison with such a model whose similarity is not below 0.15. *)
Theorem C10_every_run_refuted {L : Libm PrimFloat.float} w (m : manager PrimFloat.float) model ref deg m' deg' msg :
  st_mapper (mg_settings m) = MSvr (Some model) -> (forall l, neqb (model l) (model l) = false) ->
  run w m ref deg = (m', deg', Ret msg) ->
  ms_moslqo msg = (if nltb (ms_vnsim msg) (ndec 15 2) then nofZ 1 else nofZ 5).
Proof. exact (run_nan_model w m model ref deg m' deg' msg). Qed.
Print Assumptions C10_every_run_refuted.

(** C10, what holds: the speech mapping turns an undefined mean similarity into an undefined score. *)
Theorem C10_speech_partial {L : Libm PrimFloat.float} scale f : mexp (nan : PrimFloat.float) = nan ->
  let m := ndiv (nsum f) (nofnat (List.length f)) in
  neqb m m = false -> neqb (speech_predict scale f) (speech_predict scale f) = false.
Proof. exact (speech_nan scale f). Qed.
Print Assumptions C10_speech_partial.
Example C10_speech_example : let f := [0.5%float; nan; 0.25%float] in
  let m := ndiv (nsum f) (nofnat (List.length f)) in neqb m m = false.
Proof. reflexivity. Qed.

Open Scope R_scope.
(** C11, exact arithmetic with the real exponential: for all vectors of similarities. *)
Theorem C11_speech_mapping (scale : bool) :
  (forall l l', mean l = mean l' -> speech_predict scale l = speech_predict scale l') /\
  (forall l l', mean l <= mean l' -> speech_predict scale l <= speech_predict scale l') /\
  (forall l : list R, 1 <= speech_predict scale l <= 5) /\
  (forall l, mean l = 1 -> if scale then 5 - 1 / 10 ^ 7 <= speech_predict scale l < 5
                           else 4.01 <= speech_predict scale l <= 4.02).
Proof. exact (speech_mapping scale). Qed.
Print Assumptions C11_speech_mapping.
Example C11_example : mean [1; 1; 1] = 1 /\ mean [0; 1] <= mean [1; 1; 1].
Proof. unfold mean, total; cbn. lra. Qed.

(** C11: the constants of the fit, and the single-precision scale as the number nearest to 1.245063. *)
Theorem C11_fit_constants (scale : bool) (l : list R) :
  speech_predict scale l =
    Rmin (Rmax ((-262.847869 + exp (0.0154302525 * (mean l + 361.063949))) * (if scale then 10444345 / 2 ^ 23 else 1)) 1) 5 /\
  Rabs (10444345 / 2 ^ 23 - 1.245063) < / 2 ^ 24.
Proof. exact (speech_constants scale l). Qed.
Print Assumptions C11_fit_constants.

Open Scope nat_scope.
(** C59, regression model: feature i of the vector is node i with index i+1; the list ends with index -1. *)
Theorem C59_svr_slots {T} {N : Num T} (l : list T) :
  List.length (convert_observation l) = List.length l + 1 /\
  (forall i, i < List.length l -> nth_error (convert_observation l) i = Some ((Z.of_nat i + 1)%Z, Some (nth i l n0))) /\
  nth_error (convert_observation l) (List.length l) = Some ((-1)%Z, None).
Proof. exact (convert_slots l). Qed.
Print Assumptions C59_svr_slots.
Example C59_svr_example : convert_observation [0.5%float; 0.75%float] = [(1%Z, Some 0.5%float); (2%Z, Some 0.75%float); ((-1)%Z, None)].
Proof. reflexivity. Qed.

(** C59, lattice model: the names are all different ... *)
Theorem C59_names_distinct (b b' : nat) :
  let names := ["fvnsim"; "fvnsim10_"; "fstdnsim"; "fvdegenergy"]%string in
  (forall k k' s s', nth_error names k = Some s -> nth_error names k' = Some s' ->
     append s (dec_string b) = append s' (dec_string b') -> k = k' /\ b = b') /\
  (forall s, In s names -> append s (dec_string b) <> "tau"%string).
Proof. exact (names_distinct b b'). Qed.
Print Assumptions C59_names_distinct.
Example C59_names_example : dec_string 17 = "17"%string /\ append "fvnsim10_" (dec_string 2) = "fvnsim10_2"%string.
Proof. split; reflexivity. Qed.

(** ... and, when the model has them all, every one of them receives its own value and nothing else is written. *)
Theorem C59_lattice_slots {T} {N : Num T} (m : lattice T) f32 n (f1 f2 f3 f4 : list T) :
  List.length f1 = n -> List.length f2 = n -> List.length f3 = n -> List.length f4 = n ->
  let name s b := append s (dec_string b) in
  let written s := s = "tau"%string \/ exists b, b < n /\
    (s = name "fvnsim"%string b \/ s = name "fvnsim10_"%string b \/ s = name "fstdnsim"%string b \/ s = name "fvdegenergy"%string b) in
  ((forall s, written s -> In s (lt_inputs m)) ->
   exists env, lattice_predict m f32 n f1 f2 f3 f4 = Ret (lt_run m env) /\ env "tau"%string = Some (ndec 5 1) /\
     (forall b, b < n ->
        env (name "fvnsim"%string b) = Some (f32 (nth b f1 n0)) /\ env (name "fvnsim10_"%string b) = Some (f32 (nth b f2 n0)) /\
        env (name "fstdnsim"%string b) = Some (f32 (nth b f3 n0)) /\ env (name "fvdegenergy"%string b) = Some (f32 (nth b f4 n0))) /\
     (forall s, ~ written s -> env s = None)) /\
  ((exists s, written s /\ ~ In s (lt_inputs m)) -> lattice_predict m f32 n f1 f2 f3 f4 = Ub).
Proof. exact (lattice_all_slots m f32 n f1 f2 f3 f4). Qed.
Print Assumptions C59_lattice_slots.
Example C59_lattice_example :
  lattice_predict (MkLattice ["fvnsim0"; "fvnsim10_0"; "fstdnsim0"; "fvdegenergy0"; "tau"]%string
    (fun env => match env "fstdnsim0"%string with Some v => v | None => nan end)) (fun x => x) 1
    [1%float] [2%float] [3%float] [4%float] = Ret 3%float.
Proof. reflexivity. Qed.

(** C59: the vectors of a comparison have exactly the number of bands the lattice model is fed with. *)
Theorem C59_none_missing {T} {N : Num T} {L : Libm T} w (m : manager T) ref deg m' deg' msg n l : reachable m ->
  (Z.of_nat (List.length (au_data ref)) + 1 < 2 ^ 31)%Z -> (Z.of_nat (List.length (au_data deg')) + 1 < 2 ^ 31)%Z ->
  st_mapper (mg_settings m) = MLattice n l ->
  run w m ref deg = (m', deg', Ret msg) ->
  n = 21 /\ List.length (ms_fvnsim msg) = n /\ List.length (ms_fvnsim10 msg) = n /\ List.length (ms_fstdnsim msg) = n /\
  List.length (ms_fvdegenergy msg) = n.
Proof. exact (lattice_vectors w m ref deg m' deg' msg n l). Qed.
Print Assumptions C59_none_missing.
Example C59_none_missing_example : exists m n l, reachable (L:=any_libm) m /\ mg_init m = true /\ st_mapper (mg_settings m) = MLattice n (Some l).
Proof.
  exists (fst (init (MkWorld (MkPffft (fun l => l) (fun l => l) (fun x => x)) (fun _ => None) (fun _ => inr (MkLattice [] (fun _ => nan))) (fun _ => None) EmptyString)
    manager_new (MkInit EmptyString true false 60 true false false))), 21, (MkLattice [] (fun _ => nan)).
  split; [apply r_init, r_new|]. split; reflexivity.
Qed.
