(** A recording compared with itself in binary64 (C106). *)
From Coq Require Import ZArith List Bool Reals Lra Lia Floats.
From Coq Require Import ZifyBool ZifyNat Sorting.Sorted.
From Flocq Require Import Core.Core IEEE754.BinarySingleNaN IEEE754.PrimFloat.
From Verif Require Import Base.Res Base.Num Base.NumR Base.NumF Base.Lists Base.Mat Model.Amatrix Model.MiscMath Model.Fft Model.Window
  Model.FilterBank Model.Spectrogram Model.Nsim Model.Alignment Model.PatchCreator Model.Selector Model.MiscAudio Model.Mappers
  Model.Visqol Model.Manager Spec.FftSpec Proofs.DftP Spec.AlignSpec Spec.FineSpec Spec.MatchSpec Spec.StatSpec Spec.AggSpec Spec.ManagerSpec Spec.TotalSpec Spec.UndefinedSpec Spec.StableSpec Spec.LibmSpec Spec.PcmSpec
  Proofs.ConvP Proofs.B64P Proofs.ScoresP Proofs.FftP Proofs.AlignP Proofs.AlignCasesP Proofs.BankP Proofs.ShapeP Proofs.AggregateP Proofs.AggFloatP
  Proofs.PatchCreatorP Proofs.SelectorP Proofs.MatchP Proofs.MatchAllP Proofs.OptimalP Proofs.SafeP Proofs.MatchCasesP Proofs.MapperP Proofs.MapperRP
  Proofs.ShortP Proofs.FineP Proofs.WindowP Proofs.WindowFP Proofs.FineSafeP Proofs.FineTimesP Proofs.FineRunP Proofs.BoundP Proofs.FiniteNsimP Proofs.FinitePrepP Proofs.FiniteVadP Proofs.TotalP
  Proofs.FiniteRunP Proofs.FiniteFineP Proofs.FiniteTotalP Proofs.FiniteCasesP Proofs.StableCasesP Proofs.LevelFloatP Proofs.AccurateRunP Proofs.WindowFP
  Proofs.NsimWideP Proofs.SelfScoreP Proofs.SelfMatchP Proofs.SelfSummaryP.
Import ListNotations.
Open Scope Z_scope.

(** *** the level does not change *)
Lemma sub_same x : fin x -> PrimFloat.sub x x = 0%float.
Proof.
  intros F. apply Prim2SF_inj. rewrite sub_spec. unfold fin in F. rewrite <- (B2SF_Prim2B x). destruct (Prim2B x) as [[]|[]| |s m e B]; try discriminate; try reflexivity.
  cbn [B2SF]. unfold SF64sub, SpecFloat.SFsub. cbv zeta. rewrite Z.sub_diag. reflexivity.
Qed.
Lemma mul_one x : fin x -> PrimFloat.mul x 1%float = x.
Proof.
  intros F. apply Prim2B_inj. rewrite mul_equiv. assert (F1 : fin 1%float) by reflexivity.
  pose proof (Bmult_correct prec emax Hprec Hmax mode_NE (Prim2B x) (Prim2B 1)) as C. cbv zeta in C.
  assert (E1 : B2R (Prim2B 1) = 1%R) by (change (Prim2B 1) with (Prim2B (F_ofZ 1)); apply (FR_ofZ 1); lia).
  rewrite E1, Rmult_1_r in C. rewrite round_generic in C; [|apply valid_rnd_round_mode|apply generic_format_B2R].
  rewrite Rlt_bool_true in C by (apply abs_B2R_lt_emax). destruct C as (C1 & C2 & C3).
  unfold fin in F, F1. rewrite F, F1 in C2. cbn [andb] in C2.
  apply B2R_Bsign_inj; [exact C2|exact F|exact C1|]. rewrite C3 by (destruct (Bmult _ _ _); (reflexivity || discriminate C2)). change (Bsign (Prim2B 1)) with false. apply xorb_false_r.
Qed.
Lemma scale_self_F {L : Libm F} (A : accurate L) (s : audio F) : mpow10 0%float = 1%float -> Forall pcm (au_data s) -> 1 <= Z.of_nat (length (au_data s)) < 2 ^ 30 ->
  Exists (fun x => PrimFloat.eqb x 0 = false) (au_data s) -> scale_to_match_spl s s = s.
Proof.
  intros P1 HP HL HE. unfold scale_to_match_spl, spl_scale_factor. cbn [nsub ndiv nmul nofZ NumF].
  destruct (spl_cases A s HP HL) as [[Z _]|(Fs & _)].
  - exfalso. rewrite Exists_exists in HE. destruct HE as (x & Hx & N). rewrite Forall_forall in Z, HP. rewrite zero_eqb in N; [discriminate N|apply (pcm_real x (HP x Hx))|apply Z, Hx].
  - rewrite sub_same by exact Fs. change (PrimFloat.div 0 (F_ofZ 20)) with 0%float. rewrite P1. destruct s as [d sr]. cbn [au_data au_sr] in *. f_equal.
    rewrite <- (map_id d) at 2. apply map_ext_in. intros x Hx. apply mul_one. rewrite Forall_forall in HP. apply (pcm_real x (HP x Hx)).
Qed.

(** *** the comparison *)
Section Self.
  Context {L : Libm F} (SL : sane_log mlog10).
  Lemma similarity_self_F (pf : pffft F) st (w : window F) (s : audio F) k h (Q : F -> Prop) k' d' r :
    keeps_length pf -> make_window (au_sr s) = Ret w -> hop_size w = Some h -> 1 <= h -> 1 <= au_sr s < 2 ^ 31 -> h <= au_sr s -> au_sr s <= 1000 * h ->
    Z.of_nat (length (au_data s)) < 2 ^ 29 -> bk_bands k = num_bands (st_speech st) ->
    (w_size w < length (au_data s))%nat ->
    let frames := (1 + (length (au_data s) - w_size w) / Z.to_nat h)%nat in
    enough_frames (st_speech st) frames -> 1 <= st_radius st -> Z.of_nat frames + st_radius st * Z.of_nat (patch_size (st_speech st)) <= 2 ^ 31 ->
    Z.of_nat frames <= st_radius st * Z.of_nat (patch_size (st_speech st)) ->
    (st_speech st = true -> Z.of_nat (w_size w) = 4 * h /\ Z.of_nat (w_size w) < 2 ^ 24) ->
    scale_to_match_spl s s = s ->
    no_overflow (st_speech st) k w s -> Q n0 -> Forall Q (au_data s) -> (forall x, au_sr x = au_sr s -> Forall Q (au_data x) -> no_overflow (st_speech st) k w x) ->
    calculate_similarity measure_patch_similarity pf st w s s k = (k', d', Ret r) ->
    Forall (shaped (num_bands (st_speech st))) (sr_patches r) /\ fin (sr_vnsim r) /\ (999 / 1000 <= FR (sr_vnsim r) <= 9001)%R.
  Proof.
    intros K EW EH Hh Hsr D1 D2 Hr Hk Wr frames EF Rad RB COV HW SC CR Q0 QR CQ.
    destruct (window_F (au_sr s) w h ltac:(lia) EW EH Hh) as (_ & h2 & W4). destruct (patch_size_facts (st_speech st)) as (P1 & P2 & P3).
    assert (P4 : (patch_size (st_speech st) <= 60)%nat) by (unfold patch_size; destruct (st_speech st); lia).
    assert (NP : (0 < bk_bands k)%nat) by (rewrite Hk; apply num_bands_pos).
    assert (NQ : (1 <= num_bands (st_speech st) <= 1000)%nat) by (unfold num_bands; destruct (st_speech st); lia).
    unfold calculate_similarity. rewrite SC.
    destruct (build_ret (st_speech st) k s w h EH Hh Wr) as (R1 & B1 & W1 & N1 & C1 & _). pose proof (CR R1 B1) as I1.
    pose proof (build_depends (st_speech st) k k s w eq_refl eq_refl) as (_ & K1 & K1').
    destruct (build (st_speech st) k s w) as [k1 rs] eqn:EB1. cbn [fst snd] in B1, K1, K1'. subst rs.
    pose proof (build_depends (st_speech st) k1 k s w K1 K1') as (EBD & K2 & K2'). rewrite EB1 in EBD. cbn [snd] in EBD.
    destruct (build (st_speech st) k1 s w) as [k2 ds] eqn:EB2. cbn [fst snd] in EBD, K2, K2'. subst ds.
    unfold compare_spectrograms.
    match goal with |- context [match ?e with Ret _ => _ | Err _ => _ | Throw => _ | Ub => _ end] =>
      destruct e as [[fd sims]| | |] eqn:EC end; try discriminate.
    apply bind_ret in EC. destruct EC as ([A B] & EP & EC). pose proof (prepare_equal _ _ _ EP) as EAB. subst B.
    destruct (prepare_ret (sp_data R1) (sp_data R1) W1 W1) as (A' & B' & EP' & WA & _ & [NA CA] & _);
      [lia|lia|rewrite C1; apply le_n_S, Nat.le_0_l|rewrite C1; apply le_n_S, Nat.le_0_l|].
    rewrite EP in EP'. injection EP' as <- <-.
    destruct (prepare_rg SL (sp_data R1) (sp_data R1) A A W1 W1 I1 I1 EP) as (RA & _).
    fold frames in C1. rewrite C1 in CA.
    apply bind_ret in EC. destruct EC as (idx & EI & EC). apply bind_ret in EC. destruct EC as (fd' & EFD & EC). apply bind_ret in EC. destruct EC as (refs & ER & EC).
    apply bind_ret in EC. destruct EC as (sims' & ES & EC). injection EC as -> ->.
    destruct (indices_return_F (st_speech st) (ncols A) s w h Hh Wr CA ltac:(lia) ltac:(rewrite CA; exact EF) HW) as (idx' & EI' & PS & CI).
    rewrite EI in EI'. injection EI' as <-.
    pose proof (frames_le (length (au_data s)) (w_size w) h Hh Wr) as FL. fold frames in FL.
    assert (FD : calc_frame_duration w (au_sr s) = Ret (PrimFloat.div (F_ofZ h) (F_ofZ (au_sr s)))).
    { unfold calc_frame_duration. rewrite EH. replace (0 <=? h) with true by lia. reflexivity. }
    rewrite FD in EFD. injection EFD as <-. set (fd := PrimFloat.div (F_ofZ h) (F_ofZ (au_sr s))) in *.
    set (p := patch_size (st_speech st)) in *.
    destruct (self_matching p A idx refs fd (st_radius st) WA RA ltac:(lia) ltac:(lia) ltac:(lia) PS ltac:(nia) ER Rad ltac:(lia) ltac:(lia)) as (l & EL & LL & SL' & TL).
    rewrite ES in EL. injection EL as <-.
    pose proof (create_patches_inv (Z.of_nat p) A ltac:(lia) ltac:(lia) idx refs ER) as [L1 L2]. rewrite Nat2Z.id in L2.
    assert (Sh : shapes refs A p).
    { constructor; [eapply find_some; exact ES| |lia|lia]. intros q Hq. destruct (L2 q Hq). split; lia. }
    destruct (find_shaped refs idx A p _ (st_radius st) sims ltac:(lia) Sh ES) as [F1 F2].
    replace (nrows A) with (num_bands (st_speech st)) in F2 by lia.
    assert (G : forall k3 al, (if st_no_realign st then (k2, Ret sims) else finely_align measure_patch_similarity pf (st_speech st) w s s k2 sims) = (k3, Ret al) ->
      length al = length sims /\ Forall (shaped (num_bands (st_speech st))) al /\ Forall sound_result al /\ (total (map (fun x => FR (ps_sim x)) sims) <= total (map (fun x => FR (ps_sim x)) al))%R).
    { intros k3 al. destruct (st_no_realign st).
      - intros H. injection H as _ <-. split; [reflexivity|]. split; [exact F2|]. split; [exact SL'|apply Rle_refl].
      - intros EQ. pose proof (align_shaped pf (st_speech st) w s s sims k2 k3 al ltac:(lia)) as AS. replace (bk_bands k2) with (num_bands (st_speech st)) in AS by lia.
        destruct (AS F2 EQ) as [AS1 AS2].
        destruct (sims_timed nan_free_F measure_patch_similarity w h (au_sr s) p (length (au_data s)) (length (au_data s)) A A idx refs (st_radius st) sims) as [PB TM];
          try lia; try assumption.
        assert (CA2 : forall x sp, au_sr x = au_sr s -> Forall Q (au_data x) -> snd (build (st_speech st) k x w) = Ret sp -> Forall (fun e => ~ infinite e) (elems (sp_data sp))).
        { intros x sp X1 X2 X3. exact (CQ x X1 X2 sp X3). }
        destruct (fine_all_sound SL pf K (st_speech st) w h EH Hh s s (Z.of_nat p) ltac:(lia) ltac:(lia) Hsr eq_refl ltac:(lia) ltac:(lia) Q Q0 QR QR k ltac:(lia) ltac:(lia) CA2 sims k2 k3 al) as (Y1 & Y2 & Y3); try assumption; try congruence.
        auto. }
    destruct (if st_no_realign st then _ else _) as [k3 al] eqn:EQ. destruct al as [al| | |]; cbn [bind]; try (intros H; discriminate H).
    destruct (G k3 al eq_refl) as (G1 & G2 & G3 & G4).
    destruct (summarise _ _ _ _ al) as [r'| | |] eqn:EU; intros H; try discriminate H. injection H as _ _ <-.
    assert (AN : al <> []) by (intros ->; cbn [length] in G1; lia).
    assert (IX : 20 * Z.of_nat (length idx) < 2 ^ 29) by nia.
    destruct (summary_sound (num_bands (st_speech st)) _ _ _ _ al r' NQ AN ltac:(lia) G2 G3 EU) as [V1 V2].
    destruct (summarise_inv _ _ _ _ _ _ _ AN G2 EU) as (-> & _). split; [exact G2|]. split; [exact V1|].
    assert (ML : (1 - 56 / 100000 <= mean (map (fun x => FR (ps_sim x)) al))%R).
    { unfold mean. rewrite map_length, G1. assert (0 < INR (length sims))%R by (apply lt_0_INR; lia). apply Rmult_le_reg_r with (INR (length sims)); [assumption|].
      unfold Rdiv. rewrite (Rmult_assoc (total _)), Rinv_l by lra. lra. }
    assert (MU : (mean (map (fun x => FR (ps_sim x)) al) <= 9000)%R).
    { apply Rle_trans with (1 := Rle_abs _). apply mean_le; [lra|]. apply Forall_map. eapply Forall_impl; [|exact G3]. intros x (_ & [_ B] & _). exact B. }
    apply Rabs_le_inv in V2. lra.
  Qed.
End Self.

(** a degraded recording that the first step turns into the reference *)
Lemma aligned_run_range {L : Libm F} (w : world F) (m : manager F) (s d : audio F) (lag : F) msg : accurate L -> mpow10 0%float = 1%float -> keeps_length (w_fft w) -> mg_init m = true -> reachable m ->
  let sr := au_sr s in let st := mg_settings m in let frames := frames_in sr (length (au_data s)) in let p := if st_speech st then 20 else 30 in
  4000 <= sr <= 262144 -> Z.of_nat (length (au_data s)) < 2 ^ 29 ->
  (if st_speech st then 29 else 45) <= frames -> (st_speech st = true -> window_samples sr mod 4 = 0) ->
  frames <= st_radius st * p -> frames + st_radius st * p <= 2 ^ 31 ->
  Forall pcm (au_data s) -> Exists (fun x => PrimFloat.eqb x 0 = false) (au_data s) ->
  au_sr d = au_sr s -> (if mg_no_global m then Ret (d, n0) else globally_align (w_fft w) s d) = Ret (s, lag) ->
  snd (run w m s d) = Ret msg -> fin (ms_vnsim msg) /\ (999 / 1000 <= FR (ms_vnsim msg) <= 9001)%R.
Proof.
  intros A P1 K I HR sr st frames p Hsr Hl EF HW COV RB PR EX ED EG EM. subst sr.
  assert (SL := accurate_log A). assert (SC := accurate_cos A). assert (SB := accurate_bank A m (au_sr s) HR Hsr).
  assert (W4 : 4 <= window_samples (au_sr s) <= 2 ^ 20) by (unfold window_samples; lia).
  assert (H1 : 1 <= hop_samples (au_sr s)) by (unfold hop_samples; lia).
  assert (Wr : window_samples (au_sr s) < Z.of_nat (length (au_data s))).
  { unfold frames, frames_in in EF. destruct (Z.lt_ge_cases (window_samples (au_sr s)) (Z.of_nat (length (au_data s)))); [assumption|].
    assert ((Z.of_nat (length (au_data s)) - window_samples (au_sr s)) / hop_samples (au_sr s) < 1) by (apply Z.div_lt_upper_bound; lia).
    destruct (st_speech _); lia. }
  assert (Rad : 1 <= st_radius st) by (unfold p in COV; destruct (st_speech st); lia).
  set (win := MkWin (Z.to_nat (window_samples (au_sr s))) kOverlap : window F).
  destruct (window_geometry_F (au_sr s) ltac:(lia)) as [EW EH]. fold (window_samples (au_sr s)) in EW, EH. fold (hop_samples (au_sr s)) in EH. fold win in EW, EH.
  assert (EFR : Z.of_nat (1 + (length (au_data s) - w_size win) / Z.to_nat (hop_samples (au_sr s))) = frames).
  { unfold frames, frames_in, win. cbn [w_size]. rewrite Nat2Z.inj_add, Nat2Z.inj_div, Nat2Z.inj_sub by lia. rewrite !Z2Nat.id by lia. reflexivity. }
  assert (UR : Forall usable (au_data s)) by (eapply Forall_impl; [|exact PR]; exact pcm_usable).
  assert (Hw : 2 <= Z.of_nat (w_size win) <= 2 ^ 20) by (unfold win; cbn [w_size]; lia).
  assert (NO : forall y, au_sr y = au_sr s -> Forall usable (au_data y) -> no_overflow (st_speech st) (mg_bank m) win y).
  { intros y Ey Fy. apply usable_no_overflow; try assumption. rewrite Ey. exact SB. }
  pose proof (bank_invariant m HR) as [KB _]. fold st in KB.
  unfold run in EM. rewrite I in EM. cbn [negb] in EM. unfold validate in EM. rewrite ED, Z.eqb_refl, EG, EW in EM. fold st in EM.
  destruct (calculate_similarity _ (w_fft w) st win s s (mg_bank m)) as [[k' d'] x] eqn:EC. cbn [snd] in EM.
  apply bind_ret in EM. destruct EM as (r & EX' & EM); subst x.
  assert (EP : Z.of_nat (patch_size (st_speech st)) = p) by (unfold p, patch_size; destruct (st_speech st); reflexivity).
  destruct (similarity_self_F SL (w_fft w) st win s (mg_bank m) (hop_samples (au_sr s)) usable k' d' r) as (S1 & S2 & S3); try assumption; try lia.
  - unfold hop_samples, window_samples. lia.
  - unfold hop_samples, window_samples. lia.
  - unfold win; cbn [w_size]; lia.
  - unfold enough_frames. destruct (st_speech st); lia.
  - intros S. pose proof (HW S) as W1. unfold win; cbn [w_size]. rewrite Z2Nat.id by lia. split; [unfold hop_samples; lia|lia].
  - apply (scale_self_F A); try assumption. lia.
  - apply NO; [reflexivity|exact UR].
  - left. reflexivity.
  - pose proof (populate_inv (num_bands (st_speech st)) r lag msg S1 EM) as (_ & -> & _). split; assumption.
Qed.
Lemma self_run_range {L : Libm F} (w : world F) (m : manager F) (s : audio F) msg : accurate L -> mpow10 0%float = 1%float -> keeps_length (w_fft w) -> mg_init m = true -> reachable m ->
  let sr := au_sr s in let st := mg_settings m in let frames := frames_in sr (length (au_data s)) in let p := if st_speech st then 20 else 30 in
  4000 <= sr <= 262144 -> Z.of_nat (length (au_data s)) < 2 ^ 29 ->
  (if st_speech st then 29 else 45) <= frames -> (st_speech st = true -> window_samples sr mod 4 = 0) ->
  frames <= st_radius st * p -> frames + st_radius st * p <= 2 ^ 31 ->
  Forall pcm (au_data s) -> Exists (fun x => PrimFloat.eqb x 0 = false) (au_data s) ->
  (mg_no_global m = true \/ exists lag, globally_align (w_fft w) s s = Ret (s, lag)) ->
  snd (run w m s s) = Ret msg -> fin (ms_vnsim msg) /\ (999 / 1000 <= FR (ms_vnsim msg) <= 9001)%R.
Proof.
  intros A P1 K I HR sr st frames p Hsr Hl EF HW COV RB PR EX NG EM.
  assert (EG : exists lag, (if mg_no_global m then Ret (s, n0) else globally_align (w_fft w) s s) = Ret (s, lag)).
  { destruct (mg_no_global m); [exists n0; reflexivity|]. destruct NG as [C|NG]; [discriminate|exact NG]. }
  destruct EG as (lag & EG). exact (aligned_run_range w m s s lag msg A P1 K I HR Hsr Hl EF HW COV RB PR EX eq_refl EG EM).
Qed.
Lemma leb_999 v : fin v -> (999 / 1000 <= FR v)%R -> PrimFloat.leb 0.999 v = true.
Proof.
  intros S2 S3.
    assert (F9 : fin 0.999) by reflexivity. rewrite FR_leb by assumption. case Rle_bool_spec; [reflexivity|]. intros C. exfalso.
    assert (E9 : (FR 0.999 <= 999 / 1000)%R); [|lra].
    assert (EF9 : FR 0.999 = F2R (Float radix2 8998192055486251 (-53))) by reflexivity. rewrite EF9. unfold F2R. cbn [Fnum Fexp]. change (bpow radix2 (-53)) with (/ 9007199254740992)%R. lra.
Qed.
Lemma self_run {L : Libm F} (w : world F) (m : manager F) (s : audio F) msg : accurate L -> mpow10 0%float = 1%float -> keeps_length (w_fft w) -> mg_init m = true -> reachable m ->
  let sr := au_sr s in let st := mg_settings m in let frames := frames_in sr (length (au_data s)) in let p := if st_speech st then 20 else 30 in
  4000 <= sr <= 262144 -> Z.of_nat (length (au_data s)) < 2 ^ 29 ->
  (if st_speech st then 29 else 45) <= frames -> (st_speech st = true -> window_samples sr mod 4 = 0) ->
  frames <= st_radius st * p -> frames + st_radius st * p <= 2 ^ 31 ->
  Forall pcm (au_data s) -> Exists (fun x => PrimFloat.eqb x 0 = false) (au_data s) ->
  (mg_no_global m = true \/ exists lag, globally_align (w_fft w) s s = Ret (s, lag)) ->
  snd (run w m s s) = Ret msg -> PrimFloat.leb 0.999 (ms_vnsim msg) = true.
Proof.
  intros A P1 K I HR sr st frames p Hsr Hl EF HW COV RB PR EX NG EM.
  destruct (self_run_range w m s msg A P1 K I HR Hsr Hl EF HW COV RB PR EX NG EM) as (S2 & S3 & _). apply leb_999; assumption.
Qed.
