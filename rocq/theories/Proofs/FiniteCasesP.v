(** Concrete objects for C98 and C99, and C99 at a sample rate. *)
From Coq Require Import ZArith List Bool Reals Lra Lia Floats ZifyBool ZifyNat.
From Coq Require Strings.String.
From Flocq Require Import Core.Core IEEE754.BinarySingleNaN IEEE754.PrimFloat.
From Verif Require Import Spec.FiniteSpec.
From Verif Require Import Base.Res Base.Num Base.NumR Base.NumF Base.Lists Base.Mat Model.Amatrix Model.MiscMath Model.Fft Model.Window
  Model.FilterBank Model.Spectrogram Model.Nsim Model.Alignment Model.PatchCreator Model.Selector Model.MiscAudio Model.Mappers
  Model.Visqol Model.Manager Spec.FftSpec Spec.AlignSpec Spec.ManagerSpec Spec.TotalSpec Spec.UndefinedSpec
  Proofs.B64P Proofs.FftP Proofs.WindowFP Proofs.BoundP Proofs.FinitePrepP Proofs.FiniteRunP Proofs.FiniteFineP Proofs.FiniteTotalP Proofs.FineRunP Proofs.AlignP Proofs.AlignCasesP Proofs.ToyRunP Proofs.TotalP.
Import ListNotations.
Open Scope Z_scope.

(** *** statements in terms of binary64 comparisons *)
Lemma rg_from_to a b x : Z.abs a < 2 ^ 53 -> Z.abs b < 2 ^ 53 -> rg a b x -> from_to (F_ofZ a) (F_ofZ b) x.
Proof.
  intros Ha Hb (Fi & H). destruct (FR_ofZ a Ha) as [Ea Fa]. destruct (FR_ofZ b Hb) as [Eb Fb]. split.
  - rewrite (FR_leb _ _ Fa Fi), Ea. case Raux.Rle_bool_spec; [reflexivity|lra].
  - rewrite (FR_leb _ _ Fi Fb), Eb. case Raux.Rle_bool_spec; [reflexivity|lra].
Qed.
Lemma zero_eqb x : fin x -> FR x = 0%R -> PrimFloat.eqb x 0 = true.
Proof. intros Fi E. rewrite eqb_equiv, Beqb_correct; [|exact Fi|reflexivity]. apply Raux.Req_bool_true. exact E. Qed.

Lemma prepared_finite {L : Libm F} (A B A' B' : mat F) : sane_log mlog10 -> wf A -> wf B -> Forall (fun x => ~ infinite x) (elems A) -> Forall (fun x => ~ infinite x) (elems B) ->
  prepare_spectrograms A B = Ret (A', B') ->
  Forall (from_to 0 4045) (elems A') /\ Forall (from_to 0 4045) (elems B') /\ exists x, (In x (elems A') \/ In x (elems B')) /\ PrimFloat.eqb x 0 = true.
Proof.
  intros SL WA WB HA HB E. destruct (prepare_rg SL A B A' B' WA WB HA HB E) as (R1 & R2 & x & Hx & Fx & Ex).
  assert (Z0 : F_ofZ 0 = 0%float) by reflexivity. assert (Z1 : F_ofZ 4045 = 4045%float) by reflexivity.
  split; [|split; [|exists x; split; [exact Hx|apply zero_eqb; assumption]]].
  - eapply Forall_impl; [|exact R1]. intros y Hy. apply rg_from_to in Hy; [|lia|lia]. rewrite Z0, Z1 in Hy. exact Hy.
  - eapply Forall_impl; [|exact R2]. intros y Hy. apply rg_from_to in Hy; [|lia|lia]. rewrite Z0, Z1 in Hy. exact Hy.
Qed.

Lemma leb_not_ltb b : PrimFloat.leb 0 b = true -> PrimFloat.ltb b 0 = false.
Proof.
  rewrite leb_equiv, ltb_equiv. change (Prim2B 0) with (B754_zero (prec:=prec) (emax:=emax) false). unfold Bltb, Bleb, SFltb, SFleb.
  destruct (Prim2B b) as [[]|[]| |[] m e H]; cbn; congruence.
Qed.
(** *** at a sample rate *)
Lemma run_at_finite {L : Libm F} (w : world F) (m : manager F) ref deg (Q : F -> Prop) : sane_log mlog10 -> keeps_length (w_fft w) -> mg_init m = true -> reachable m ->
  let sr := au_sr ref in let st := mg_settings m in let win := MkWin (Z.to_nat (window_samples sr)) kOverlap in
  au_sr deg = sr -> 44 <= sr < 2 ^ 31 ->
  Z.of_nat (length (au_data ref)) < 2 ^ 29 -> Z.of_nat (length (au_data deg)) < 2 ^ 29 ->
  Z.of_nat (length (au_data ref)) + 2 * window_samples sr < 2 * Z.of_nat (length (au_data deg)) ->
  (if st_speech st then 29 else 45) <= frames_in sr (length (au_data ref)) ->
  (st_speech st = true -> window_samples sr mod 4 = 0 /\ window_samples sr < 2 ^ 24) ->
  1 <= st_radius st -> frames_in sr (length (au_data ref)) + st_radius st * (if st_speech st then 20 else 30) <= 2 ^ 31 ->
  can_predict (st_mapper st) ->
  no_overflow (st_speech st) (mg_bank m) win ref ->
  (forall x, compared w m ref deg x -> no_overflow (st_speech st) (mg_bank m) win x) ->
  (forall x, compared w m ref deg x -> st_no_realign st = false -> Q n0 /\ Forall Q (au_data ref) /\ Forall Q (au_data x) /\
       forall y, au_sr y = sr -> Forall Q (au_data y) -> no_overflow (st_speech st) (mg_bank m) win y) ->
  (exists msg, snd (run w m ref deg) = Ret msg /\ finite_numbers msg) \/ (st_no_realign st = false /\ snd (run w m ref deg) = Throw).
Proof.
  intros SL K I HR sr st win ES Hsr Lr Ld Wd EF HW Rad RB CP CR CD CQ. subst sr st.
  assert (W4 : 4 <= window_samples (au_sr ref)) by (unfold window_samples; lia).
  assert (H1 : 1 <= hop_samples (au_sr ref)) by (unfold hop_samples; lia).
  assert (Wr : window_samples (au_sr ref) < Z.of_nat (length (au_data ref))).
  { unfold frames_in in EF. destruct (Z.lt_ge_cases (window_samples (au_sr ref)) (Z.of_nat (length (au_data ref)))); [assumption|].
    assert ((Z.of_nat (length (au_data ref)) - window_samples (au_sr ref)) / hop_samples (au_sr ref) < 1) by (apply Z.div_lt_upper_bound; lia).
    destruct (st_speech _); lia. }
  destruct (window_geometry_F (au_sr ref) ltac:(lia)) as [EW EH]. fold (window_samples (au_sr ref)) in EW, EH. fold (hop_samples (au_sr ref)) in EH. fold win in EW, EH.
  assert (EFR : Z.of_nat (1 + (length (au_data ref) - w_size win) / Z.to_nat (hop_samples (au_sr ref))) = frames_in (au_sr ref) (length (au_data ref))).
  { unfold frames_in, win. cbn [w_size]. rewrite Nat2Z.inj_add, Nat2Z.inj_div, Nat2Z.inj_sub by lia. rewrite !Z2Nat.id by lia. reflexivity. }
  apply (run_finite SL w m ref deg win (hop_samples (au_sr ref)) Q K I HR); try assumption; try lia.
  - unfold hop_samples, window_samples. lia.
  - unfold hop_samples, window_samples. lia.
  - unfold win; cbn [w_size]; lia.
  - unfold win; cbn [w_size]; lia.
  - unfold enough_frames. destruct (st_speech _); lia.
  - rewrite EFR. unfold patch_size. destruct (st_speech _); exact RB.
  - intros S. destruct (HW S) as [W1 W2]. unfold win; cbn [w_size]. rewrite Z2Nat.id by lia. split; [|exact W2]. unfold hop_samples. lia.
  - intros d lag EG. assert (CO : compared w m ref deg (scale_to_match_spl ref d)) by (exists d, lag; split; [exact EG|reflexivity]). split; [apply CD, CO|apply CQ, CO].
Qed.
Lemma run_at_F {L : Libm F} (w : world F) (m : manager F) ref deg (Q : F -> Prop) : sane_log mlog10 -> keeps_length (w_fft w) -> mg_init m = true -> reachable m ->
  let sr := au_sr ref in let st := mg_settings m in let win := MkWin (Z.to_nat (window_samples sr)) kOverlap in
  au_sr deg = sr -> 44 <= sr < 2 ^ 31 ->
  Z.of_nat (length (au_data ref)) < 2 ^ 29 -> Z.of_nat (length (au_data deg)) < 2 ^ 29 ->
  Z.of_nat (length (au_data ref)) + 2 * window_samples sr < 2 * Z.of_nat (length (au_data deg)) ->
  (if st_speech st then 29 else 45) <= frames_in sr (length (au_data ref)) ->
  (st_speech st = true -> window_samples sr mod 4 = 0 /\ window_samples sr < 2 ^ 24) ->
  1 <= st_radius st -> frames_in sr (length (au_data ref)) + st_radius st * (if st_speech st then 20 else 30) <= 2 ^ 31 ->
  can_predict (st_mapper st) ->
  no_overflow (st_speech st) (mg_bank m) win ref ->
  (forall x, compared w m ref deg x -> no_overflow (st_speech st) (mg_bank m) win x) ->
  (forall x, compared w m ref deg x -> st_no_realign st = false -> Q n0 /\ Forall Q (au_data ref) /\ Forall Q (au_data x) /\
       forall y, au_sr y = sr -> Forall Q (au_data y) -> no_overflow (st_speech st) (mg_bank m) win y) ->
  (exists msg, snd (run w m ref deg) = Ret msg) \/ (st_no_realign st = false /\ snd (run w m ref deg) = Throw).
Proof.
  intros SL K I HR sr st win ES Hsr Lr Ld Wd EF HW Rad RB CP CR CD CQ.
  destruct (run_at_finite w m ref deg Q SL K I HR ES Hsr Lr Ld Wd EF HW Rad RB CP CR CD CQ) as [(msg & E & _)|X]; [left; exists msg; exact E|right; exact X].
Qed.
Lemma run_without_realign_F {L : Libm F} (w : world F) (m : manager F) ref deg : sane_log mlog10 -> keeps_length (w_fft w) -> mg_init m = true -> reachable m ->
  let sr := au_sr ref in let st := mg_settings m in let win := MkWin (Z.to_nat (window_samples sr)) kOverlap in
  au_sr deg = sr -> 44 <= sr < 2 ^ 31 ->
  Z.of_nat (length (au_data ref)) < 2 ^ 29 -> Z.of_nat (length (au_data deg)) < 2 ^ 29 ->
  Z.of_nat (length (au_data ref)) + 2 * window_samples sr < 2 * Z.of_nat (length (au_data deg)) ->
  (if st_speech st then 29 else 45) <= frames_in sr (length (au_data ref)) ->
  (st_speech st = true -> window_samples sr mod 4 = 0 /\ window_samples sr < 2 ^ 24) ->
  1 <= st_radius st -> frames_in sr (length (au_data ref)) + st_radius st * (if st_speech st then 20 else 30) <= 2 ^ 31 ->
  can_predict (st_mapper st) -> st_no_realign st = true ->
  no_overflow (st_speech st) (mg_bank m) win ref ->
  (forall x, compared w m ref deg x -> no_overflow (st_speech st) (mg_bank m) win x) ->
  exists msg, snd (run w m ref deg) = Ret msg.
Proof.
  intros SL K I HR sr st win ES Hsr Lr Ld Wd EF HW Rad RB CP NR CR CD.
  destruct (run_at_F w m ref deg (fun _ => True) SL K I HR ES Hsr Lr Ld Wd EF HW Rad RB CP CR CD) as [X|[X _]]; [intros x _ C; fold st in C; congruence|exact X|fold st in X; congruence].
Qed.
Lemma run_with_realign_F {L : Libm F} (w : world F) (m : manager F) ref deg b : sane_log mlog10 -> keeps_length (w_fft w) -> mg_init m = true -> reachable m ->
  let sr := au_sr ref in let st := mg_settings m in let win := MkWin (Z.to_nat (window_samples sr)) kOverlap in
  au_sr deg = sr -> 44 <= sr < 2 ^ 31 ->
  Z.of_nat (length (au_data ref)) < 2 ^ 29 -> Z.of_nat (length (au_data deg)) < 2 ^ 29 ->
  Z.of_nat (length (au_data ref)) + 2 * window_samples sr < 2 * Z.of_nat (length (au_data deg)) ->
  (if st_speech st then 29 else 45) <= frames_in sr (length (au_data ref)) ->
  (st_speech st = true -> window_samples sr mod 4 = 0 /\ window_samples sr < 2 ^ 24) ->
  1 <= st_radius st -> frames_in sr (length (au_data ref)) + st_radius st * (if st_speech st then 20 else 30) <= 2 ^ 31 ->
  can_predict (st_mapper st) -> PrimFloat.leb 0 b = true ->
  (forall y, au_sr y = sr -> at_most b y -> no_overflow (st_speech st) (mg_bank m) win y) ->
  at_most b ref -> (forall x, compared w m ref deg x -> at_most b x) ->
  (exists msg, snd (run w m ref deg) = Ret msg) \/ snd (run w m ref deg) = Throw.
Proof.
  intros SL K I HR sr st win ES Hsr Lr Ld Wd EF HW Rad RB CP B0 NO AR AX.
  assert (SX : forall x, compared w m ref deg x -> au_sr x = sr).
  { intros x (d & lag & EG & ->). unfold scale_to_match_spl. cbn [au_sr]. destruct (mg_no_global m); [injection EG as <- <-; exact ES|].
    assert (0 <= window_samples sr) by (unfold window_samples; lia).
    apply (globally_align_cases _ _ _ _ _ half_exact_F K) in EG; [|fold sr|fold sr].
    - destruct EG as [(-> & _)|[(q & _ & _ & _ & -> & _)|(q & _ & _ & _ & -> & _)]]; exact ES.
    - unfold frames_in in EF. assert (1 <= hop_samples sr) by (unfold hop_samples, window_samples; lia).
      destruct (Z.lt_ge_cases (window_samples sr) (Z.of_nat (length (au_data ref)))); [lia|].
      assert ((Z.of_nat (length (au_data ref)) - window_samples sr) / hop_samples sr < 1) by (apply Z.div_lt_upper_bound; lia). destruct (st_speech _); lia.
    - lia. }
  destruct (run_at_F w m ref deg (fun s => PrimFloat.ltb b (PrimFloat.abs s) = false) SL K I HR ES Hsr Lr Ld Wd EF HW Rad RB CP) as [X|[_ X]];
    [apply NO; [reflexivity|exact AR]|intros x Hx; apply NO; [apply SX, Hx|apply AX, Hx]| |left; exact X|right; exact X].
  intros x Hx _. split; [|split; [exact AR|split; [apply AX, Hx|exact NO]]].
  change (PrimFloat.abs (@n0 F NumF)) with 0%float. apply leb_not_ltb, B0.
Qed.

(** *** concrete objects *)
(** a step for each function of libm; log10 keeps infinity and what is undefined *)
Definition step_log (x : F) : F := if (x <? 1)%float then (-5)%float else if (x <? infinity)%float then 1%float else x.
Definition step_libm : Libm F :=
  Build_Libm _ (fun x => if (x <? 1)%float then 1%float else 266%float) (fun x => x) step_log (fun _ => 1%float) (fun _ => 0%float) (fun _ => 1%float) 3%float.
Lemma step_sane : sane_log step_log.
Proof.
  unfold sane_log, step_log. split; [|split; [reflexivity|]].
  - intros x _ H. destruct (x <? 1)%float; [split; reflexivity|]. rewrite H. split; reflexivity.
  - intros x H. assert (X := proj1 (undefined_B x) H). assert (G : forall y, (x <? y)%float = false) by (intros y; rewrite ltb_equiv, X; reflexivity).
    rewrite !G. exact H.
Qed.
Definition one_cell (x : F) : mat F := MkMat 1 1 [x].
Lemma infinity_undefined : exists A' B', prepare_spectrograms (L:=step_libm) (one_cell infinity) (one_cell 1) = Ret (A', B') /\ Forall undefined (elems A') /\ Forall undefined (elems B').
Proof. eexists _, _. split; [vm_compute; reflexivity|]. split; repeat constructor. Qed.
Lemma two_cells_prepared : exists A' B', prepare_spectrograms (L:=step_libm) (MkMat 2 1 [nan; 4%float]) (MkMat 2 1 [0%float; 0.5%float]) = Ret (A', B') /\
  elems A' = [0; 45]%float /\ elems B' = [0; 0]%float.
Proof. eexists _, _. split; [vm_compute; reflexivity|]. split; reflexivity. Qed.

Definition quiet_manager (radius : Z) : manager F := fst (init run_world manager_new (MkInit String.EmptyString true false radius false true true)).
Lemma quiet_reached radius : reachable (L:=step_libm) (quiet_manager radius) /\ mg_init (quiet_manager radius) = true /\ st_no_realign (mg_settings (quiet_manager radius)) = true /\
  st_radius (mg_settings (quiet_manager radius)) = radius /\ can_predict (st_mapper (mg_settings (quiet_manager radius))).
Proof. split; [apply r_init, r_new|]. repeat split. Qed.
Definition loud_audio (v : F) (k : Z) : audio F := MkAudio (map (fun i => PrimFloat.mul v (nofZ (k * (Z.of_nat i * Z.of_nat i mod 7)))) (seq 0 33)) 50.
Lemma loud_finite k : 0 <= k <= 2 -> Forall (fun s => PrimFloat.leb (PrimFloat.abs s) 0x1p700 = true) (au_data (loud_audio 0x1p600 k)).
Proof. intros H. assert (k = 0 \/ k = 1 \/ k = 2) as [ -> | [ -> | -> ] ] by lia; vm_compute; repeat constructor. Qed.
Lemma loud_undefined : snd (run (L:=step_libm) run_world (quiet_manager 0) (loud_audio 0x1p600 1) (loud_audio 0x1p600 2)) = Ub.
Proof. vm_compute. reflexivity. Qed.
Definition win50F : window F := MkWin 4 kOverlap.
Lemma finite_entries (M : mat F) : forallb (fun e => negb (PrimFloat.eqb (PrimFloat.abs e) infinity)) (elems M) = true -> Forall (fun e => ~ infinite e) (elems M).
Proof. intros H. rewrite forallb_forall in H. apply Forall_forall. intros e He C. unfold infinite in C. specialize (H e He). rewrite C in H. discriminate. Qed.
Definition entries_ok (x : audio F) : bool :=
  match snd (build (L:=step_libm) true (mg_bank (quiet_manager 1)) x win50F) with Ret s => forallb (fun e => negb (PrimFloat.eqb (PrimFloat.abs e) infinity)) (elems (sp_data s)) | _ => false end.
Lemma entries_no_overflow x : entries_ok x = true -> no_overflow (L:=step_libm) true (mg_bank (quiet_manager 1)) win50F x.
Proof. unfold entries_ok, no_overflow. intros H s E. rewrite E in H. apply finite_entries, H. Qed.
Lemma ref_fine : entries_ok (loud_audio 1 1) = true. Proof. vm_compute. reflexivity. Qed.
Lemma deg_fine : entries_ok (scale_to_match_spl (L:=step_libm) (loud_audio 1 1) (loud_audio 1 2)) = true. Proof. vm_compute. reflexivity. Qed.
Lemma quiet_runs : exists msg, snd (run (L:=step_libm) run_world (quiet_manager 1) (loud_audio 1 1) (loud_audio 1 2)) = Ret msg.
Proof.
  destruct (quiet_reached 1) as (R1 & R2 & R3 & R4 & R5).
  assert (KL : keeps_length (w_fft run_world)) by (split; intros l; reflexivity).
  assert (LN : forall v k, length (au_data (loud_audio v k)) = 33%nat) by (intros; unfold loud_audio; cbn [au_data]; rewrite map_length, seq_length; reflexivity).
  refine (run_without_realign_F (L:=step_libm) run_world (quiet_manager 1) (loud_audio 1 1) (loud_audio 1 2) step_sane KL R2 R1 eq_refl _ _ _ _ _ _ _ _ R5 R3 _ _); rewrite ?LN.
  1-8: vm_compute; (reflexivity || discriminate || (split; (reflexivity || discriminate)) || (intros _; split; reflexivity)).
  - exact (entries_no_overflow _ ref_fine).
  - intros x (d & lag & EG & ->). assert (X : d = loud_audio 1 2) by (vm_compute in EG |- *; congruence). subst d. exact (entries_no_overflow _ deg_fine).
Qed.
Lemma infinity_spoils : exists (L : Libm F) (A B A' B' : mat F), sane_log mlog10 /\ wf A /\ wf B /\
  prepare_spectrograms A B = Ret (A', B') /\ Forall undefined (elems A') /\ Forall undefined (elems B') /\ elems A' <> [] /\ elems B' <> [].
Proof.
  exists step_libm, (one_cell infinity), (one_cell 1). eexists _, _. split; [exact step_sane|]. split; [reflexivity|]. split; [reflexivity|].
  split; [vm_compute; reflexivity|]. repeat split; try (repeat constructor); discriminate.
Qed.
Lemma huge_undefined : exists (L : Libm F) (w : world F) (m : manager F) ref deg,
  sane_log mlog10 /\ keeps_length (w_fft w) /\ mg_init m = true /\ reachable m /\ au_sr deg = au_sr ref /\ au_sr ref = 50 /\
  length (au_data ref) = 33%nat /\ length (au_data deg) = 33%nat /\ can_predict (st_mapper (mg_settings m)) /\
  Forall (fun s => PrimFloat.leb (PrimFloat.abs s) 0x1p700 = true) (au_data ref ++ au_data deg) /\ snd (run w m ref deg) = Ub.
Proof.
  exists step_libm, run_world, (quiet_manager 0), (loud_audio 0x1p600 1), (loud_audio 0x1p600 2). destruct (quiet_reached 0) as (R1 & R2 & _ & _ & R5).
  split; [exact step_sane|]. split; [split; intros l; reflexivity|]. split; [exact R2|]. split; [exact R1|]. split; [reflexivity|]. split; [reflexivity|].
  split; [reflexivity|]. split; [reflexivity|]. split; [exact R5|]. split; [apply Forall_app; split; apply loud_finite; lia|exact loud_undefined].
Qed.
