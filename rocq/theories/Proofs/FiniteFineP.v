(** Realigned patches in binary64 have finite means and a sensible number of frames (C99). *)
From Coq Require Import ZArith List Bool Reals Lra Lia Floats.
From Coq Require Import ZifyBool ZifyNat Sorting.Sorted.
From Flocq Require Import Core.Core IEEE754.BinarySingleNaN IEEE754.PrimFloat.
From Verif Require Import Base.Res Base.Num Base.NumR Base.NumF Base.Lists Base.Mat Model.Amatrix Model.MiscMath Model.Fft Model.Window
  Model.FilterBank Model.Spectrogram Model.Nsim Model.Alignment Model.PatchCreator Model.Selector Model.MiscAudio Model.Mappers
  Model.Visqol Model.Manager Spec.FftSpec Proofs.DftP Spec.AlignSpec Spec.FineSpec Spec.AggSpec Spec.UndefinedSpec
  Proofs.ConvP Proofs.B64P Proofs.ScoresP Proofs.FftP Proofs.AlignP Proofs.AlignCasesP Proofs.BankP Proofs.ShapeP Proofs.AggregateP Proofs.AggFloatP
  Proofs.PatchCreatorP Proofs.SelectorP Proofs.ShortP Proofs.FineP Proofs.FineSafeP Proofs.FineTimesP Proofs.FineRunP Proofs.BoundP Proofs.FiniteNsimP Proofs.FinitePrepP Proofs.FiniteRunP.
From Verif Require Proofs.RoundP.
Import ListNotations.
Open Scope Z_scope.

(** *** the number of frames of a moved patch *)
Lemma moved_count (x : psr F) fd s c p : fin fd -> (bpow radix2 (-20) <= FR fd <= bpow radix2 20)%R -> fin s -> (Rabs (FR s) <= 2147483648 * FR fd)%R ->
  fin c -> 1 <= p <= 1000 -> (6 * FR fd <= FR c <= 2 * IZR p * FR fd)%R -> ps_ref_start x = s -> ps_ref_end x = PrimFloat.add s c -> counted fd (2 * p + 1) x.
Proof.
  intros Ff Hf Fs Hs Fc Hp Hc E1 E2. set (D := FR fd) in *. set (a := FR s) in *. set (b := FR c) in *. set (P := IZR p) in *.
  change (bpow radix2 (-20)) with (/ 1048576)%R in Hf. change (bpow radix2 20) with 1048576%R in Hf.
  assert (HP : (1 <= P <= 1000)%R) by (unfold P; split; apply IZR_le; lia).
  pose proof RoundP.u_pos as U0. pose proof RoundP.u_small as U1. pose proof RoundP.tiny_small as T1. pose proof RoundP.big_large as G1.
  set (B1 := (4294967296 * D)%R). assert (TB : (RoundP.tiny <= B1)%R) by (unfold B1; lra). assert (BB : (B1 <= RoundP.big)%R) by (unfold B1; lra).
  assert (Hb : (6 * D <= b <= 2000 * D)%R) by nra.
  assert (UB : (RoundP.u * B1 <= D / 1000000)%R) by (unfold B1; nra).
  apply Rabs_le_inv in Hs.
  assert (Z1 : (Rabs (a + b) <= B1)%R) by (apply Rabs_le; unfold B1; lra).
  pose proof (RoundP.rnd_err _ _ Z1 TB) as R1. destruct (FR_add s c Fs Fc) as [A1 A2]; [fold a b; apply (RoundP.rnd_fmax _ B1); assumption|]. fold a b in A1.
  set (e := PrimFloat.add s c) in *. apply Rabs_le_inv in R1. rewrite <- A1 in R1.
  assert (Z2 : (Rabs (FR e - a) <= B1)%R) by (apply Rabs_le; unfold B1 in *; lra).
  pose proof (RoundP.rnd_err _ _ Z2 TB) as R2. destruct (FR_sub e s A2 Fs) as [S1 S2]; [fold a; apply (RoundP.rnd_fmax _ B1); assumption|]. fold a in S1.
  set (f := PrimFloat.sub e s) in *. apply Rabs_le_inv in R2. rewrite <- S1 in R2.
  assert (FB : (5 * D <= FR f <= (2 * P + 1 / 100) * D)%R) by nra.
  assert (ID : (0 < / D)%R) by (apply Rinv_0_lt_compat; lra).
  assert (QB : (5 <= FR f / D <= 2 * P + 1 / 100)%R).
  { split; [apply Rmult_le_reg_r with D|apply Rmult_le_reg_r with D]; try lra; unfold Rdiv; rewrite Rmult_assoc, Rinv_l by lra; lra. }
  assert (Z3 : (Rabs (FR f / D) <= 3000)%R) by (apply Rabs_le; lra).
  pose proof (RoundP.rnd_err _ _ Z3 ltac:(lra)) as R3. destruct (FR_div f fd S2) as [V1 V2]; [fold D; lra|fold D; apply (RoundP.rnd_fmax _ 3000); try assumption; lra|]. fold D in V1.
  apply Rabs_le_inv in R3. rewrite <- V1 in R3.
  unfold counted, frame_count. rewrite E1, E2. fold e. cbn [nceil ndiv nsub NumF]. fold f. rewrite (F_ceil_spec _ V2). set (q := FR (PrimFloat.div f fd)) in *.
  assert (QR : (4 < q < 2 * P + 1 / 10)%R) by nra.
  assert (CB : 2 <= Zceil q <= 2 * p + 1).
  { split.
    - assert (4 < Zceil q); [|lia]. apply lt_IZR. apply Rlt_le_trans with q; [lra|apply Zceil_ub].
    - apply Zceil_glb. rewrite plus_IZR, mult_IZR. fold P. lra. }
  unfold fits_int. replace (_ && _) with true by lia. eexists. split; [reflexivity|exact CB].
Qed.

(** *** samples *)
Section Samples.
  Context (Q : F -> Prop) (Q0 : Q n0).
  Lemma Forall_firstn {A} (P : A -> Prop) n l : Forall P l -> Forall P (firstn n l).
  Proof. revert l. induction n as [|n IH]; intros l H; [constructor|]. destruct l; [constructor|]. inversion H; subst. cbn. constructor; auto. Qed.
  Lemma Forall_skipn {A} (P : A -> Prop) n l : Forall P l -> Forall P (skipn n l).
  Proof. revert l. induction n as [|n IH]; intros l H; [exact H|]. destruct l; [constructor|]. inversion H; subst. cbn. auto. Qed.
  Lemma rows_all (l m : list F) a b : Forall Q l -> v_rows l a b = Ret m -> Forall Q m.
  Proof. intros H E. unfold v_rows in E. destruct (_ && _) in E; [|discriminate]. injection E as <-. apply Forall_firstn, Forall_skipn, H. Qed.
  Lemma silence_all n : Forall Q (repeat n0 n).
  Proof. apply Forall_forall. intros x Hx. apply repeat_spec in Hx. subst x. exact Q0. Qed.
  Lemma slice_all (s m : audio F) a b : Forall Q (au_data s) -> slice s a b = Ret m -> Forall Q (au_data m).
  Proof.
    intros H E. unfold slice in E. destruct (to_int (nmul a _)) as [si| | |]; try discriminate. cbn [bind] in E. destruct (to_int (nmul b _)) as [ei| | |]; try discriminate. cbn [bind] in E.
    destruct (v_rows _ _ _) as [v| | |] eqn:EV; try discriminate. apply (rows_all _ _ _ _ H) in EV. cbn [bind] in E.
    assert (G : forall X, (if nltb n0 (nsub (nmul b (nofZ (au_sr s))) (nofZ (Z.of_nat (length (au_data s))))) then do k <- to_size (nsub (nmul b (nofZ (au_sr s))) (nofZ (Z.of_nat (length (au_data s))))); Ret (repeat n0 (Z.to_nat k) ++ v) else Ret v) = Ret X -> Forall Q X).
    { intros X. destruct (nltb _ _); [|intros EX; injection EX as <-; exact EV]. destruct (to_size _) as [z| | |]; try discriminate. cbn [bind]. intros EX. injection EX as <-.
      apply Forall_app. split; [apply silence_all|exact EV]. }
    destruct (if nltb n0 (nsub _ _) then _ else _) as [X| | |]; try discriminate. specialize (G X eq_refl). cbn [bind] in E.
    destruct (nltb a n0).
    - destruct (to_size _) as [z| | |]; try discriminate. cbn [bind] in E. injection E as <-. cbn [au_data]. apply Forall_app. split; [apply silence_all|exact G].
    - cbn [bind] in E. injection E as <-. exact G.
  Qed.
  Lemma aligned_all (ref deg d : audio F) t : aligned_by ref deg d t -> Forall Q (au_data deg) -> Forall Q (au_data d).
  Proof.
    intros [[-> _]|[(k & _ & _ & -> & _)|(k & _ & _ & -> & _)]] H; [exact H|apply Forall_skipn, H|apply Forall_app; split; [apply silence_all|exact H]].
  Qed.
  Lemma part_all (l m : list F) : part_of l m -> Forall Q l -> Forall Q m.
  Proof. intros (i & ->) H. apply Forall_firstn, Forall_skipn, H. Qed.
End Samples.

(** *** one patch *)
Section Fine.
  Context {L : Libm F} (SL : sane_log mlog10).
  Context (pf : pffft F) (K : keeps_length pf) (speech : bool) (w : window F) (h : Z) (EH : hop_size w = Some h) (Hh : 1 <= h).
  Context (ref deg : audio F) (p : Z) (Hp : 20 <= p <= 60) (Hph : p * h + 2 < 2 ^ 30).
  Context (Hsr : 1 <= au_sr ref < 2 ^ 31) (Hs : au_sr deg = au_sr ref) (Hr : Z.of_nat (length (au_data ref)) < 2 ^ 30) (Hd : Z.of_nat (length (au_data deg)) < 2 ^ 30).
  Context (Q : F -> Prop) (Q0 : Q n0) (QR : Forall Q (au_data ref)) (QD : Forall Q (au_data deg)).
  Context (k0 : bank F) (Hk0 : (1 <= bk_bands k0)%nat) (Hk1 : Z.of_nat (bk_bands k0) <= 2 ^ 31).
  Context (calm : forall x sp, au_sr x = au_sr ref -> Forall Q (au_data x) -> snd (build speech k0 x w) = Ret sp -> Forall (fun e => ~ infinite e) (elems (sp_data sp))).
  Notation fd := (PrimFloat.div (F_ofZ h) (F_ofZ (au_sr ref))).
  Context (Ffd : fin fd) (Hfd : (bpow radix2 (-20) <= FR fd <= bpow radix2 20)%R).

  Lemma pieces_of r ra da ra' da' lag : is_lost r = false -> timed h (au_sr ref) p (Z.of_nat (length (au_data ref))) (Z.of_nat (length (au_data deg))) r ->
    slice ref (ps_ref_start r) (ps_ref_end r) = Ret ra -> slice deg (ps_deg_start r) (ps_deg_end r) = Ret da -> align_and_truncate pf ra da = Ret (ra', da', lag) ->
    Forall Q (au_data ra') /\ Forall Q (au_data da') /\ au_sr ra' = au_sr ref /\ au_sr da' = au_sr ref /\ length (au_data ra') = length (au_data da') /\
    (p * h <= 2 * Z.of_nat (length (au_data ra')) + 6 /\ Z.of_nat (length (au_data ra')) <= p * h + 1) /\ exists al, aligned_by ra da al lag /\ au_sr da = au_sr ref /\ Z.of_nat (length (au_data ra)) <= p * h + 1.
  Proof.
    intros NL TM E1 E2 E3. pose proof (slice_all Q Q0 _ _ _ _ QR E1) as Q1. pose proof (slice_all Q Q0 _ _ _ _ QD E2) as Q2.
    destruct TM as [C|(i & j & Hi & Hi' & Hj & Hj' & S1 & S2 & S3 & S4)]; [congruence|].
    rewrite S1, S2 in E1. rewrite S3, S4 in E2.
    assert (P20 : 20 * h <= p * h) by nia.
    assert (TW : times_within 1 h (au_sr ref) p (2 ^ 31)) by (apply times_F; lia).
    destruct (slice_close ref 1 h p i ltac:(lia) Hh ltac:(lia) TW Hi ltac:(lia) ltac:(nia)) as (ra0 & Ea & Sa & La & La').
    specialize (La' Hi'). rewrite Ea in E1. injection E1 as <-.
    destruct (slice_close deg 1 h p j ltac:(lia) Hh ltac:(lia)) as (da0 & Ed & Sd & Ld & _); [rewrite Hs; exact TW|exact Hj|nia|lia|].
    rewrite Hs in Ed. rewrite Ed in E2. injection E2 as <-.
    destruct (align_outcome pf ra0 da0 half_exact_F lag_back_F lag_back_neg_F zero_back_F K) as [(x & y & t & EA & X1 & X2 & X3 & X4)|[EA LT]]; try lia;
      try (rewrite EA in E3; discriminate).
    rewrite EA in E3. injection E3 as -> -> ->.
    assert (GC : forall d t', globally_align pf ra0 da0 = Ret (d, t') -> aligned_by ra0 da0 d t') by (intros d t' G; apply (globally_align_cases pf ra0 da0 d t' half_exact_F K) in G; [exact G|lia|lia]).
    destruct (align_and_truncate_equal pf ra0 da0 ra' da' lag) as (al & G1 & _ & PA & PB); [congruence|unfold two64; lia| |exact EA|].
    { intros d t' G. apply GC, aligned_by_length in G. unfold two64. lia. }
    split; [exact (part_all Q _ _ PA Q1)|]. split; [exact (part_all Q _ _ PB (aligned_all Q Q0 _ _ _ _ (GC _ _ G1) Q2))|].
    split; [congruence|]. split; [congruence|]. split; [exact X3|]. split; [split; [lia|]|].
    - destruct PA as (o & PA). apply (f_equal (@length F)) in PA. rewrite firstn_length, skipn_length in PA. lia.
    - exists al. split; [exact (GC _ _ G1)|]. split; [congruence|lia].
  Qed.

  Lemma fine_one_finite k r k' r' : bk_bands k = bk_bands k0 -> bk_min k = bk_min k0 -> timed h (au_sr ref) p (Z.of_nat (length (au_data ref))) (Z.of_nat (length (au_data deg))) r ->
    finite_result r -> finely_align_one measure_patch_similarity pf speech w ref deg k r = (k', Ret r') -> finite_result r' /\ bk_bands k' = bk_bands k0 /\ bk_min k' = bk_min k0.
  Proof.
    intros B0 B1 TM FI. unfold finely_align_one. destruct (is_lost r) eqn:El; [intros H; injection H as <- <-; auto|].
    destruct (slice ref _ _) as [ra| | |] eqn:E1; cbn [bind]; try discriminate.
    destruct (slice deg _ _) as [da| | |] eqn:E2; cbn [bind]; try discriminate.
    destruct (align_and_truncate pf ra da) as [[[ra' da'] lag]| | |] eqn:E3; try discriminate.
    destruct (pieces_of r ra da ra' da' lag El TM E1 E2 E3) as (Q1 & Q2 & A1 & A2 & LE & [_ LB] & _).
    pose proof (build_depends speech k k0 ra' w B0 B1) as (D1 & K1 & K1').
    destruct (build speech k ra' w) as [k1 [rspec| | |]] eqn:EB1; try discriminate. cbn [fst snd] in D1, K1, K1'.
    pose proof (build_depends speech k1 k0 da' w ltac:(congruence) ltac:(congruence)) as (D2 & K2 & K2').
    destruct (build speech k1 da' w) as [k2 [dspec| | |]] eqn:EB2; cbn [bind]; try discriminate. cbn [fst snd] in D2, K2, K2'.
    destruct (prepare_spectrograms _ _) as [[A B]| | |] eqn:EP; cbn [bind]; try discriminate.
    destruct (measure_patch_similarity A B) as [new| | |] eqn:EM; cbn [bind]; try discriminate.
    intros H. injection H as <- <-. split; [|split; congruence].
    unfold merge_result. destruct (nltb (ps_sim new) (ps_sim r)); [exact FI|].
    pose proof (build_inv _ _ _ _ _ _ EB1) as (_ & _ & _ & _ & _ & h1 & EH1 & _ & L1 & _). pose proof (build_inv _ _ _ _ _ _ EB2) as (_ & _ & _ & _ & _ & h2 & EH2 & _ & L2 & _).
    destruct (build_ret speech k ra' w h EH Hh L1) as (R1 & G1 & W1 & N1 & C1 & _). rewrite EB1 in G1. cbn [snd] in G1. injection G1 as <-.
    destruct (build_ret speech k1 da' w h EH Hh L2) as (R2 & G2 & W2 & N2 & C2 & _). rewrite EB2 in G2. cbn [snd] in G2. injection G2 as <-.
    destruct (prepare_ret (sp_data rspec) (sp_data dspec) W1 W2) as (A' & B' & EP' & WA & WB & [NA CA] & [NB CB]);
      [lia|lia|rewrite C1; apply le_n_S, Nat.le_0_l|rewrite C2; apply le_n_S, Nat.le_0_l|].
    rewrite EP in EP'. injection EP' as <- <-.
    destruct (prepare_rg SL (sp_data rspec) (sp_data dspec) A B W1 W2) as (RA & RB & _); [apply (calm ra'); auto|apply (calm da'); auto|exact EP|].
    assert (NC : (0 < ncols A)%nat) by (rewrite CA, C1; apply Nat.lt_0_succ).
    assert (NE : ncols A = ncols B) by (rewrite CA, CB, C1, C2, LE; reflexivity).
    assert (NM : (ncols A <= 64)%nat).
    { rewrite CA, C1. assert (X := Nat.div_le_upper_bound (length (au_data ra') - w_size w) (Z.to_nat h) 61 ltac:(lia) ltac:(nia)).
      set (q := ((length (au_data ra') - w_size w) / Z.to_nat h)%nat) in *. lia. }
    destruct (measure_bd A B ltac:(lia) NC ltac:(lia) NE ltac:(lia) NM) as (pp & EM' & FM); try (intros r0 c0 Hr0 Hc0; apply at_bd; assumption).
    rewrite EM in EM'. injection EM' as <-. exact FM.
  Qed.
  Lemma fine_all_finite : forall rs k k' l, bk_bands k = bk_bands k0 -> bk_min k = bk_min k0 ->
    Forall (timed h (au_sr ref) p (Z.of_nat (length (au_data ref))) (Z.of_nat (length (au_data deg)))) rs -> Forall finite_result rs ->
    finely_align measure_patch_similarity pf speech w ref deg k rs = (k', Ret l) -> Forall finite_result l.
  Proof.
    induction rs as [|r t IH]; intros k k' l B0 B1 TM FI E; cbn [finely_align] in E; [injection E as <- <-; constructor|].
    inversion TM; subst. inversion FI; subst.
    destruct (finely_align_one _ pf speech w ref deg k r) as [k1 [r'| | |]] eqn:E1; try discriminate.
    destruct (finely_align _ pf speech w ref deg k1 t) as [k2 [y| | |]] eqn:E2; cbn [bind] in E; try discriminate. injection E as <- <-.
    destruct (fine_one_finite k r k1 r') as (X1 & X2 & X3); try assumption. constructor; [exact X1|]. eapply IH; eassumption.
  Qed.

  Lemma fine_counted r r' : timed h (au_sr ref) p (Z.of_nat (length (au_data ref))) (Z.of_nat (length (au_data deg))) r -> counted fd (2 * p + 1) r ->
    realigned pf ref deg r r' -> counted fd (2 * p + 1) r'.
  Proof.
    intros TM CR [->|(NL & _ & ra & da & ra' & da' & lag & E1 & E2 & E3 & T1 & _ & T2 & _)]; [exact CR|].
    destruct (pieces_of r ra da ra' da' lag NL TM E1 E2 E3) as (_ & _ & A1 & _ & _ & [LL LB] & al & AB & SD & LR).
    destruct TM as [C|(i & j & Hi & Hi' & _ & _ & S1 & _)]; [congruence|].
    assert (DL : (IZR h * (1 - 1 / 1000) <= FR fd * IZR (au_sr ref) <= IZR h * (1 + 1 / 1000))%R /\ (0 < IZR (au_sr ref))%R /\ (1 <= IZR h)%R).
    { destruct (near_div h (au_sr ref) ltac:(nia) ltac:(lia)) as [_ N]. cbn [ndiv nofZ NumF] in N.
      assert (P1 : (0 < IZR (au_sr ref))%R) by (apply (IZR_lt 0); lia). assert (P2 : (1 <= IZR h)%R) by (apply IZR_le; lia). split; [|split; assumption].
      destruct u_small as [U0 U1]. set (v := FR (PrimFloat.div (F_ofZ h) (F_ofZ (au_sr ref)))) in *. apply Rabs_le_inv in N.
      assert (HQ : (IZR h = IZR h / IZR (au_sr ref) * IZR (au_sr ref))%R) by (field; lra).
      assert (Q9 : (0 <= IZR h / IZR (au_sr ref))%R) by (apply Rlt_le, Rdiv_lt_0_compat; lra).
      set (z := (IZR h / IZR (au_sr ref))%R) in *. assert (z * (1 - 1 / 1000) <= v <= z * (1 + 1 / 1000))%R by nra. rewrite HQ. split; nra. }
    destruct DL as ([DL DU] & SP & H1).
    set (D := FR fd) in *.
    assert (RAT : forall n, 0 <= n <= p * h + 1 -> (IZR n / IZR (au_sr ref) <= 1.5 * IZR p * D)%R).
    { intros n Hn. apply Rmult_le_reg_r with (IZR (au_sr ref)); [exact SP|]. unfold Rdiv. rewrite Rmult_assoc, Rinv_l, Rmult_1_r by lra.
      assert (IZR n <= IZR p * IZR h + 1)%R by (rewrite <- mult_IZR, <- plus_IZR; apply IZR_le; lia). assert (20 <= IZR p)%R by (apply IZR_le; lia).
      assert (IZR p * (IZR h * (1 - 1 / 1000)) <= IZR p * (D * IZR (au_sr ref)))%R by (apply Rmult_le_compat_l; lra). nra. }
    change (bpow radix2 (-20)) with (/ 1048576)%R in Hfd. change (bpow radix2 20) with 1048576%R in Hfd. change (FR fd) with D in Hfd.
    assert (PB : (20 <= IZR p <= 60)%R) by (split; apply IZR_le; lia).
    destruct u_small as [U0 U1].
    (* the start *)
    assert (ST : fin (ps_ref_start r) /\ (Rabs (FR (ps_ref_start r)) <= 1073741825 * D)%R).
    { rewrite S1. unfold frame_time. cbn [nmul ndiv nofZ NumF]. destruct (FR_ofZ i ltac:(nia)) as [Ei Fi].
      assert (IB : (0 <= IZR i <= 1073741824)%R) by (split; apply IZR_le; nia).
      assert (Z1 : (Rabs (IZR i * D) <= 1073741824 * D)%R) by (apply Rabs_le; nra).
      pose proof RoundP.tiny_small as TS. pose proof RoundP.big_large as BL. pose proof RoundP.u_pos. pose proof RoundP.u_small.
      assert (TB : (RoundP.tiny <= 1073741824 * D)%R) by lra. assert (BB : (1073741824 * D <= RoundP.big)%R) by lra.
      pose proof (RoundP.rnd_err _ _ Z1 TB) as R1. destruct (FR_mul (F_ofZ i) fd Fi Ffd) as [M1 M2]; [rewrite Ei; apply (RoundP.rnd_fmax _ (1073741824 * D)); assumption|].
      rewrite Ei in M1. fold D in M1. split; [exact M2|]. rewrite M1. apply Rabs_le_inv in R1, Z1. apply Rabs_le. nra. }
    destruct ST as [FS BS].
    assert (LG : fin lag /\ (Rabs (FR lag) <= 2000 * D)%R).
    { destruct AB as [[_ ->]|[(q & Hq1 & Hq2 & _ & _ & ->)|(q & Hq1 & Hq2 & _ & _ & ->)]].
      - destruct FR_zero as [Z1 Z2]. split; [exact Z2|]. change (@n0 F NumF) with (F_ofZ 0). rewrite Z1, Rabs_R0. lra.
      - rewrite SD. assert (X : fin (ndiv (nofZ (- Z.of_nat q)) (nofZ (au_sr ref)) : F) /\ (Rabs (FR (ndiv (nofZ (- Z.of_nat q)) (nofZ (au_sr ref)) : F)) <= (1 + 1 / 1000) * (IZR (Z.of_nat q) / IZR (au_sr ref)))%R).
        { destruct (FR_ofZ (- Z.of_nat q) ltac:(lia)) as [E4 F4]. destruct (FR_ofZ (au_sr ref) ltac:(lia)) as [E5 F5]. cbn [ndiv nofZ NumF].
          assert (QP : (1 <= IZR (Z.of_nat q) <= 2147483648)%R) by (split; apply IZR_le; lia).
          assert (SB : (1 <= IZR (au_sr ref) <= 2147483648)%R) by (split; apply IZR_le; lia).
          assert (ZL : (/ 2147483648 <= IZR (Z.of_nat q) / IZR (au_sr ref) <= 2147483648)%R).
          { split; apply Rmult_le_reg_r with (IZR (au_sr ref)); try lra; unfold Rdiv; [|rewrite Rmult_assoc, Rinv_l, Rmult_1_r by lra; nra]. rewrite (Rmult_assoc (IZR (Z.of_nat q))), Rinv_l, Rmult_1_r by lra. nra. }
          set (z := (IZR (Z.of_nat q) / IZR (au_sr ref))%R) in *.
          assert (EZ : (IZR (- Z.of_nat q) / IZR (au_sr ref) = - z)%R) by (unfold z; rewrite opp_IZR; field; lra).
          pose proof RoundP.tiny_small as TS. pose proof RoundP.big_large as BL. pose proof RoundP.u_pos. pose proof RoundP.u_small.
          assert (Z1 : (Rabs (- z) <= z)%R) by (rewrite Rabs_Ropp, Rabs_pos_eq; lra).
          pose proof (RoundP.rnd_err _ _ Z1 ltac:(lra)) as R1.
          destruct (FR_div (F_ofZ (- Z.of_nat q)) (F_ofZ (au_sr ref)) F4) as [V1 V2]; [rewrite E5; lra|rewrite E4, E5, EZ; apply (RoundP.rnd_fmax _ z); lra|].
          rewrite E4, E5, EZ in V1. split; [exact V2|]. rewrite V1. apply Rabs_le_inv in R1. apply Rabs_le. nra. }
        destruct X as [X1 X2]. split; [exact X1|]. apply Rle_trans with (1 := X2). pose proof (RAT (Z.of_nat q) ltac:(lia)). nra.
      - rewrite SD. destruct (near_div (Z.of_nat q) (au_sr ref) ltac:(lia) ltac:(lia)) as [X1 X2]. split; [exact X1|]. pose proof (RAT (Z.of_nat q) ltac:(lia)).
        assert (0 <= IZR (Z.of_nat q) / IZR (au_sr ref))%R by (apply Rmult_le_pos; [apply (IZR_le 0); lia|apply Rlt_le, Rinv_0_lt_compat, SP]).
        apply Rabs_le_inv in X2. apply Rabs_le. nra. }
    destruct LG as [FL BL].
    assert (SB : fin (ps_ref_start r') /\ (Rabs (FR (ps_ref_start r')) <= 2147483648 * D)%R).
    { rewrite T1. destruct (nltb n0 lag); [|split; [exact FS|lra]]. cbn [nadd NumF].
      pose proof RoundP.tiny_small as TS. pose proof RoundP.big_large as BG. pose proof RoundP.u_pos. pose proof RoundP.u_small.
      apply Rabs_le_inv in BS, BL. assert (Z1 : (Rabs (FR (ps_ref_start r) + FR lag) <= 1073743825 * D)%R) by (apply Rabs_le; lra).
      pose proof (RoundP.rnd_err _ _ Z1 ltac:(lra)) as R1. destruct (FR_add _ _ FS FL) as [M1 M2]; [apply (RoundP.rnd_fmax _ (1073743825 * D)); lra|].
      split; [exact M2|]. rewrite M1. apply Rabs_le_inv in R1, Z1. apply Rabs_le. nra. }
    destruct SB as [FSB BSB].
    rewrite A1 in T2. unfold nofnat in T2.
    destruct (near_div (Z.of_nat (length (au_data ra'))) (au_sr ref) ltac:(lia) ltac:(lia)) as [X1 X2].
    apply (moved_count r' fd (ps_ref_start r') _ p Ffd Hfd FSB BSB X1 ltac:(lia)); [|reflexivity|exact T2].
    pose proof (RAT (Z.of_nat (length (au_data ra'))) ltac:(lia)).
    assert (0 <= IZR (Z.of_nat (length (au_data ra'))) / IZR (au_sr ref))%R by (apply Rmult_le_pos; [apply (IZR_le 0); lia|apply Rlt_le, Rinv_0_lt_compat, SP]).
    assert (LLR : (7 * D <= (1 + 1 / 1000) * (IZR (Z.of_nat (length (au_data ra'))) / IZR (au_sr ref)))%R).
    { apply Rmult_le_reg_r with (IZR (au_sr ref)); [exact SP|]. unfold Rdiv. rewrite !Rmult_assoc, Rinv_l, Rmult_1_r by lra.
      assert (IZR p * IZR h <= 2 * IZR (Z.of_nat (length (au_data ra'))) + 6)%R by (rewrite <- !mult_IZR, <- plus_IZR; apply IZR_le; lia). nra. }
    apply Rabs_le_inv in X2. change (FR fd) with D. nra.
  Qed.
End Fine.
