(** The gammatone bank in binary64 does not overflow (C100). *)
From Coq Require Import ZArith List Bool Reals Lra Lia Floats ZifyBool ZifyNat.
From Flocq Require Import Core.Core IEEE754.BinarySingleNaN IEEE754.PrimFloat.
From Verif Require Import Base.Res Base.Num Base.NumF Base.Lists Base.Mat Model.Amatrix Model.MiscMath Model.Window Model.SignalFilter Model.Erb
  Model.Spectrogram Model.FilterBank Spec.UndefinedSpec Spec.StableSpec Proofs.B64P Proofs.ScoresP Proofs.RoundP Proofs.BoundP Proofs.FiniteNsimP Proofs.FinitePrepP Proofs.BankP Proofs.StableP.
Import ListNotations.
Open Scope Z_scope.

Lemma within_fin b x : fin b -> within b x -> fin x /\ (Rabs (FR x) <= FR b)%R.
Proof.
  intros Fb H. unfold within in H. assert (Fx : fin x).
  { revert H Fb. unfold fin. rewrite leb_equiv, abs_equiv. destruct (Prim2B x) as [?|?| |? ? ? ?]; try reflexivity; destruct (Prim2B b) as [?|[]| |[] ? ? ?]; cbn; discriminate. }
  split; [exact Fx|]. assert (Fa : fin (PrimFloat.abs x)) by (unfold fin in *; rewrite abs_equiv, is_finite_Babs; exact Fx).
  rewrite FR_leb in H by assumption. replace (Rabs (FR x)) with (FR (PrimFloat.abs x)) by (unfold FR; rewrite abs_equiv, B2R_Babs; reflexivity).
  revert H. case Raux.Rle_bool_spec; [auto|discriminate].
Qed.
Lemma within_of b x : fin b -> fin x -> (Rabs (FR x) <= FR b)%R -> within b x.
Proof.
  intros Fb Fx H. unfold within. assert (Fa : fin (PrimFloat.abs x)) by (unfold fin in *; rewrite abs_equiv, is_finite_Babs; exact Fx).
  rewrite FR_leb by assumption. replace (FR (PrimFloat.abs x)) with (Rabs (FR x)) by (unfold FR; rewrite abs_equiv, B2R_Babs; reflexivity).
  case Raux.Rle_bool_spec; [reflexivity|lra].
Qed.
Lemma pow_bd b k x : fin b -> FR b = bpow radix2 k -> (within b x <-> bd k x).
Proof.
  intros Fb E. split; [intros H; apply within_fin in H; [|exact Fb]; rewrite E in H; exact H|]. intros [F H]. apply within_of; [exact Fb|exact F|]. rewrite E. exact H.
Qed.
Lemma FR_pow x k e : Prim2SF x = SpecFloat.S754_finite false 4503599627370496 e -> (e + 52 = k)%Z -> FR x = bpow radix2 k.
Proof.
  intros H <-. unfold FR. rewrite <- SF2R_B2SF, B2SF_Prim2B, H. cbn [SF2R]. unfold F2R. cbn [Fnum Fexp cond_Zopp]. rewrite bpow_plus, Rmult_comm. f_equal.
Qed.
Lemma FR_100 : FR 0x1p100 = bpow radix2 100. Proof. eapply FR_pow; reflexivity. Qed.
Lemma FR_150 : FR 0x1p150 = bpow radix2 150. Proof. eapply FR_pow; reflexivity. Qed.
Lemma FR_1 : FR 1 = 1%R. Proof. apply (FR_pow 1 0 (-52)); reflexivity. Qed.
Lemma FR_4 : FR 4 = bpow radix2 2. Proof. eapply FR_pow; reflexivity. Qed.
Lemma FR_426 : FR 0x1p426 = bpow radix2 426. Proof. eapply FR_pow; reflexivity. Qed.
Lemma FR_500 : FR 0x1p500 = bpow radix2 500. Proof. eapply FR_pow; reflexivity. Qed.
Lemma within_1 x : within 1 x -> bd 0 x. Proof. apply pow_bd; [reflexivity|exact FR_1]. Qed.
Lemma within_100 x : within 0x1p100 x <-> bd 100 x. Proof. apply pow_bd; [reflexivity|exact FR_100]. Qed.
Lemma within_150 x : within 0x1p150 x -> bd 150 x. Proof. apply pow_bd; [reflexivity|exact FR_150]. Qed.
Lemma within_426 x : within 0x1p426 x <-> bd 426 x. Proof. apply pow_bd; [reflexivity|exact FR_426]. Qed.

Lemma stable_real c : stable c -> fin (e_B1 c) /\ fin (e_B2 c) /\ (Rabs (FR (e_B2 c)) <= 1)%R /\ (Rabs (FR (e_B1 c)) <= 1 + FR (e_B2 c))%R.
Proof.
  intros (W2 & W1 & _ & _). destruct (within_fin 1 (e_B2 c) eq_refl W2) as [F2 B2]. rewrite FR_1 in B2.
  assert (F1 : fin 1) by reflexivity.
  assert (S1 : (Rabs (rnd (FR 1 + FR (e_B2 c))) < fmax)%R).
  { apply (rnd_fmax _ 2); [rewrite FR_1; apply Rabs_le; apply Rabs_le_inv in B2; lra|pose proof tiny_small; lra|pose proof big_large; lra]. }
  destruct (FR_add 1 (e_B2 c) F1 F2 S1) as [ES FS].
  assert (FB : fin (e_B1 c)).
  { revert W1 FS. unfold fin. rewrite ltb_equiv, abs_equiv. destruct (Prim2B (e_B1 c)) as [?|?| |? ? ? ?]; try reflexivity; destruct (Prim2B (1 + e_B2 c)) as [?|[]| |[] ? ? ?]; cbn; discriminate. }
  assert (FA : fin (PrimFloat.abs (e_B1 c))) by (unfold fin in *; rewrite abs_equiv, is_finite_Babs; exact FB).
  split; [exact FB|]. split; [exact F2|]. split; [exact B2|].
  rewrite FR_ltb in W1 by assumption. assert (EA : FR (PrimFloat.abs (e_B1 c)) = Rabs (FR (e_B1 c))) by (unfold FR; rewrite abs_equiv, B2R_Babs; reflexivity).
  revert W1. case Raux.Rlt_bool_spec; [intros W _|discriminate]. rewrite ES in W.
  apply Rnot_lt_le. intros C. assert (X : (rnd (FR 1 + FR (e_B2 c)) <= rnd (FR (PrimFloat.abs (e_B1 c))))%R) by (apply rnd_le; rewrite EA, FR_1; lra).
  rewrite (rnd_FR (PrimFloat.abs (e_B1 c))) in X. lra.
Qed.

(** *** one band *)
Lemma band_bd c sig : stable c -> Z.of_nat (length sig) <= 2 ^ 20 -> Forall (bd 100) sig ->
  exists y f, band_filter c zero_cond sig = Ret (y, f) /\ length y = length sig /\ Forall (bd 426) y.
Proof.
  intros ST HL HF. destruct (stable_real c ST) as (F1 & F2 & R2 & R1). destruct ST as (_ & _ & NU1 & NU2).
  repeat match goal with H : Forall _ (_ :: _) |- _ => inversion H; clear H; subst end.
  repeat match goal with H : within 0x1p150 _ |- _ => apply within_150 in H | H : within 1 _ |- _ => apply within_1 in H end.
  unfold band_filter, zero_cond.
  assert (Z2 : Forall (fun s => s = F_ofZ 0) [@n0 F NumF; @n0 F NumF]) by (repeat constructor).
  assert (L2 : (length [@n0 F NumF; @n0 F NumF] <= 3)%nat) by (cbn; lia).
  assert (STAGE : forall (b0 b1 b2 : F) x k g, bd g b0 -> bd g b1 -> bd g b2 -> 0 <= g <= 150 -> length x = length sig -> Forall (bd k) x -> 0 <= k <= 800 ->
    exists y f, signal_filter [b0; b1; b2] [e_B0 c; e_B1 c; e_B2 c] x [n0; n0] = Ret (y, f) /\ length y = length sig /\ Forall (bd (k + g + 44)) y).
  { intros b0 b1 b2 x k g B0 B1 B2 Hg LX FX Hk. destruct (signal_filter_3 b0 b1 b2 (e_B0 c) (e_B1 c) (e_B2 c) x [n0; n0] L2) as (y & f & E & LY & _).
    exists y, f. split; [exact E|]. split; [congruence|].
    apply (filter_bd (e_B0 c) b0 b1 b2 (e_B1 c) (e_B2 c) k g) with (sig := x) (f := f) (ic := [n0; n0]); try assumption; try lia. }
  cbn [ndiv NumF].
  match goal with |- context [signal_filter [?b0; ?b1; ?b2] _ sig _] => destruct (STAGE b0 b1 b2 sig 100 150) as (y1 & g1 & E1 & L1 & B1); [assumption|assumption|assumption|lia|reflexivity|exact HF|lia|] end.
  rewrite E1. cbn [bind].
  destruct (STAGE (e_A0 c) (e_A12 c) (e_A2 c) y1 294 0) as (y2 & g2 & E2 & L2' & B2); [assumption|assumption|assumption|lia|assumption|exact B1|lia|]. rewrite E2. cbn [bind].
  destruct (STAGE (e_A0 c) (e_A13 c) (e_A2 c) y2 338 0) as (y3 & g3 & E3 & L3 & B3); [assumption|assumption|assumption|lia|assumption|exact B2|lia|]. rewrite E3. cbn [bind].
  destruct (STAGE (e_A0 c) (e_A14 c) (e_A2 c) y3 382 0) as (y4 & g4 & E4 & L4 & B4); [assumption|assumption|assumption|lia|assumption|exact B3|lia|]. rewrite E4. cbn [bind].
  eexists _, _. split; [reflexivity|]. split; [exact L4|exact B4].
Qed.

(** *** the root mean square *)
Lemma sum_nonneg k : (-1074 <= k)%Z -> (k < 960)%Z -> forall (l : list PrimFloat.float) x m, (0 <= m)%Z -> (m + Z.of_nat (length l) < 2 ^ 53)%Z -> Forall (bd k) l -> Forall (fun y => (0 <= FR y)%R) l ->
  fin x -> (0 <= FR x <= IZR m * bpow radix2 k)%R -> (0 <= FR (fold_left PrimFloat.add l x))%R.
Proof.
  intros K1 K2. induction l as [|y l IH]; intros x m Hm HN HF HP Fx Hx; [exact (proj1 Hx)|].
  inversion HF as [|? ? [Fy Hy] F2]; subst. inversion HP as [|? ? Py P2]; subst. cbn [fold_left length] in *.
  assert (Ax : (Rabs (FR x) <= IZR m * bpow radix2 k)%R) by (rewrite Rabs_pos_eq; lra).
  destruct (bd_fold k K1 K2 [y] x m Hm ltac:(cbn [length]; lia) ltac:(constructor; [split; assumption|constructor]) Fx Ax) as [Fs Bs]. cbn [fold_left length] in Fs, Bs.
  assert (Ps : (0 <= FR (x + y)%float)%R).
  { destruct (FR_add x y Fx Fy) as [E _]; [|rewrite E; apply rnd_nonneg; lra].
    apply Rle_lt_trans with (IZR (m + 1) * bpow radix2 k)%R.
    - apply rnd_scaled; [lia|exact K1|]. apply Rle_trans with (1 := Rabs_triang _ _). rewrite plus_IZR. lra.
    - apply Rlt_le_trans with (bpow radix2 53 * bpow radix2 k)%R.
      + apply Rmult_lt_compat_r; [apply bpow_gt_0|]. change (bpow radix2 53) with (IZR (2 ^ 53)). apply IZR_lt. lia.
      + unfold fmax. rewrite <- bpow_plus. apply bpow_le. change emax with 1024%Z. lia. }
  apply (IH _ (m + 1)); try assumption; try lia. split; [exact Ps|]. rewrite Rabs_pos_eq in Bs by exact Ps. exact Bs.
Qed.
Lemma square_far k x : (0 <= k < 500)%Z -> bd k x -> bd (k + k) (PrimFloat.mul x x) /\ (0 <= FR (PrimFloat.mul x x))%R.
Proof.
  intros K B. pose proof (bd_mul k k x x ltac:(lia) B B) as M. split; [exact M|]. destruct B as [F B].
  destruct (FR_mul x x F F) as [E _].
  - apply Rle_lt_trans with (bpow radix2 (k + k)); [|unfold fmax; apply bpow_lt; change emax with 1024%Z; lia].
    apply rnd_bd; [lia|]. rewrite Rabs_mult, bpow_plus. apply Rmult_le_compat; try apply Rabs_pos; assumption.
  - rewrite E. apply rnd_nonneg, Rle_0_sqr.
Qed.
Lemma rms_bd (y : list PrimFloat.float) : y <> [] -> Z.of_nat (length y) <= 2 ^ 20 -> Forall (bd 426) y -> bd 500 (row_rms y) /\ (0 <= FR (row_rms y))%R.
Proof.
  intros N HL HF. unfold row_rms, vmean.
  assert (FS : Forall (bd 852) (map (@nsq F NumF) y)). { apply Forall_map. eapply Forall_impl; [|exact HF]. intros x B. exact (proj1 (square_far 426 x ltac:(lia) B)). }
  assert (FP : Forall (fun v => (0 <= FR v)%R) (map (@nsq F NumF) y)). { apply Forall_map. eapply Forall_impl; [|exact HF]. intros x B. exact (proj2 (square_far 426 x ltac:(lia) B)). }
  assert (NM : map nsq y <> []) by (destruct y; [congruence|discriminate]).
  assert (LM : Z.of_nat (length (map (@nsq F NumF) y)) <= 2 ^ 20) by (rewrite map_length; exact HL).
  assert (BM := bd_mean 852 (map (@nsq F NumF) y) ltac:(lia) NM ltac:(lia) FS).
  set (m := ndiv (nsum (map (@nsq F NumF) y)) (nofnat (length (map (@nsq F NumF) y)))) in *.
  assert (PM : (0 <= FR m)%R).
  { unfold m. destruct (FR_ofZ 0 ltac:(lia)) as [E0 F0].
    assert (PS : (0 <= FR (fold_left PrimFloat.add (map (@nsq F NumF) y) (F_ofZ 0)))%R) by (apply (sum_nonneg 852) with (m := 0); try assumption; try lia; rewrite E0, Rmult_0_l; lra). change (fold_left PrimFloat.add (map (@nsq F NumF) y) (F_ofZ 0)) with (nsum (map (@nsq F NumF) y)) in PS.
    pose proof (bd_sum 852 31 (map (@nsq F NumF) y) ltac:(lia) ltac:(lia) ltac:(lia) ltac:(lia) FS) as [Fs Bs].
    unfold nofnat. cbn [ndiv nofZ NumF]. destruct (FR_ofZ (Z.of_nat (length (map (@nsq F NumF) y))) ltac:(lia)) as [EL _].
    assert (L1 : (1 <= IZR (Z.of_nat (length (map (@nsq F NumF) y))))%R) by (apply IZR_le; destruct (map (@nsq F NumF) y); [congruence|cbn [length]; lia]).
    destruct (FR_div (nsum (map (@nsq F NumF) y)) (F_ofZ (Z.of_nat (length (map (@nsq F NumF) y)))) Fs) as [E _]; [rewrite EL; lra| |].
    - apply Rle_lt_trans with (bpow radix2 (852 + 31)); [|unfold fmax; apply bpow_lt; reflexivity]. apply rnd_bd; [lia|]. rewrite EL.
      unfold Rdiv. rewrite Rabs_mult. rewrite (Rabs_pos_eq (/ _)) by (left; apply Rinv_0_lt_compat; lra).
      apply Rle_trans with (bpow radix2 (852 + 31) * 1)%R; [|lra]. apply Rmult_le_compat; [apply Rabs_pos|left; apply Rinv_0_lt_compat; lra|exact Bs|].
      rewrite <- Rinv_1. apply Rinv_le_contravar; lra.
    - rewrite E, EL. apply rnd_nonneg. apply Rmult_le_pos; [exact PS|left; apply Rinv_0_lt_compat; lra]. }
  destruct BM as [Fm Bm]. cbn [nsqrt NumF]. assert (ES := FR_sqrt m).
  assert (P : (0 <= R_sqrt.sqrt (FR m) <= bpow radix2 442)%R).
  { split; [apply R_sqrt.sqrt_pos|]. rewrite <- (R_sqrt.sqrt_square (bpow radix2 442)) by apply bpow_ge_0. apply R_sqrt.sqrt_le_1_alt. rewrite <- bpow_plus.
    rewrite Rabs_pos_eq in Bm by exact PM. apply Rle_trans with (1 := Bm). apply bpow_le. lia. }
  split; [split; [apply fin_sqrt; assumption|]|rewrite ES; apply rnd_nonneg; lra].
  rewrite ES. apply rnd_bd; [lia|]. rewrite Rabs_pos_eq by lra. apply Rle_trans with (1 := proj2 P). apply bpow_le. lia.
Qed.

(** *** the window *)
Section Bank.
  Context {L : Libm F}.
  Hypothesis (SC : sane_cos).
  Lemma half_bd : bd (-1) (ndec 5 1 : F).
  Proof. split; [reflexivity|]. change (ndec 5 1 : F) with 0.5%float. rewrite (FR_pow 0.5 (-1) (-53)) by reflexivity. rewrite Rabs_pos_eq; [lra|apply bpow_ge_0]. Qed.
  Lemma hann_bd n i : 2 <= Z.of_nat n <= 2 ^ 20 -> (i < n)%nat -> bd 0 (hann n i).
  Proof.
    intros Hn Hi. destruct SC as [SCC SCP]. unfold hann.
    assert (BP : bd 2 mpi) by (apply (pow_bd 4 2); [reflexivity|exact FR_4|exact SCP]).
    assert (B2 : bd 1 (F_ofZ 2)) by (apply bd_ofZ; lia).
    assert (BI : bd 20 (F_ofZ (Z.of_nat i))) by (apply bd_ofZ; lia).
    assert (BA : bd 23 (PrimFloat.mul (PrimFloat.mul (F_ofZ 2) mpi) (F_ofZ (Z.of_nat i)))) by (apply (bd_mul 3 20); [lia|apply (bd_mul 1 2); [lia|exact B2|exact BP]|exact BI]).
    assert (BD : bd 23 (PrimFloat.div (PrimFloat.mul (PrimFloat.mul (F_ofZ 2) mpi) (F_ofZ (Z.of_nat i))) (F_ofZ (Z.of_nat n - 1)))).
    { apply (bd_div 23 0); [lia|exact BA|]. destruct (FR_ofZ (Z.of_nat n - 1) ltac:(lia)) as [E _]. rewrite E. change (bpow radix2 0) with 1%R. apply IZR_le. lia. }
    cbn [nsub nmul ndiv nofZ NumF]. unfold nofnat. cbn [nofZ NumF].
    set (a := PrimFloat.div _ _) in *.
    assert (BC : bd 0 (mcos a)).
    { apply (pow_bd 1 0); [reflexivity|rewrite FR_1; reflexivity|]. apply SCC. destruct BD as [Fa _]. revert Fa. unfold fin. rewrite ltb_equiv, abs_equiv. destruct (Prim2B a) as [?|?| |? ? ? ?]; cbn; congruence. }
    apply (bd_sub (-1)); [lia|exact half_bd|]. apply (bd_mul (-1) 0); [lia|exact half_bd|exact BC].
  Qed.
  Lemma apply_hann_bd w sig f : 2 <= Z.of_nat (w_size w) <= 2 ^ 20 -> length sig = w_size w -> Forall (bd 100) sig -> apply_hann w sig = Ret f -> Forall (bd 100) f /\ length f = w_size w.
  Proof.
    intros Hw LS FS. unfold apply_hann. rewrite LS, Nat.ltb_irrefl. intros E. injection E as <-. split; [|rewrite map_length, seq_length; reflexivity].
    apply Forall_map, Forall_forall. intros i Hi. apply in_seq in Hi. destruct (Nat.ltb_spec i (w_size w)); [|lia].
    apply (bd_mul 0 100); [lia|apply hann_bd; lia|]. rewrite Forall_forall in FS. apply FS, nth_In. lia.
  Qed.
  Lemma build_bd speech (k : bank F) s w sp : 2 <= Z.of_nat (w_size w) <= 2 ^ 20 -> stable_bank speech k (au_sr s) -> Forall (bd 100) (au_data s) ->
    snd (build speech k s w) = Ret sp -> Forall (fun e => bd 500 e /\ (0 <= FR e)%R) (elems (sp_data sp)).
  Proof.
    intros Hw SB FS E.
    assert (EX : exists h, hop_size w = Some h /\ 1 <= h /\ (w_size w < length (au_data s))%nat).
    { unfold build in E. destruct (prepared_bank speech k (au_sr s)). destruct (hop_size w) as [h|]; [|discriminate]. exists h. split; [reflexivity|].
      destruct (Nat.leb_spec (length (au_data s)) (w_size w)); [discriminate|]. destruct (Z.leb_spec h 0); [discriminate|]. lia. }
    destruct EX as (h & EH & Hh & HN). destruct (build_ret speech k s w h EH Hh HN) as (sp' & E' & WF & NR & NC & _ & IN & _ & CELLS).
    rewrite E in E'. injection E' as <-.
    assert (MF : length (fst (make_filters (au_sr s) (bk_bands k) (bk_min k) (builder_max_freq speech (au_sr s)))) = bk_bands k) by (unfold make_filters, center_freqs; cbn [fst]; rewrite !map_length, seq_length; reflexivity).
    apply Forall_forall. intros e He. destruct (In_nth _ _ (F_ofZ 0) He) as (j & Hj & <-). unfold wf in WF. rewrite WF in Hj.
    assert (Hr : (0 < nrows (sp_data sp))%nat) by (destruct (nrows (sp_data sp)); lia).
    assert (HD : (j / nrows (sp_data sp) < ncols (sp_data sp))%nat) by (apply Nat.div_lt_upper_bound; lia).
    assert (HM := Nat.mod_upper_bound j (nrows (sp_data sp)) ltac:(lia)).
    destruct (CELLS (j mod nrows (sp_data sp))%nat (j / nrows (sp_data sp))%nat (erb_channel 0 (F_ofZ 0)) ltac:(lia) ltac:(lia)) as (f & y & EF & EY & LY & EA).
    assert (EN : nth j (elems (sp_data sp)) (F_ofZ 0) = at_ (sp_data sp) (j mod nrows (sp_data sp)) (j / nrows (sp_data sp))).
    { unfold at_, mget. rewrite (Nat.div_mod j (nrows (sp_data sp))) at 1 by lia. rewrite (Nat.mul_comm (nrows _)). reflexivity. }
    rewrite EN, EA. specialize (IN (j / nrows (sp_data sp))%nat ltac:(lia)).
    set (fr := frame w (au_data s) (j / nrows (sp_data sp) * Z.to_nat h)) in *.
    assert (LF : length fr = w_size w) by (unfold fr, frame; rewrite firstn_length, skipn_length; lia).
    assert (FF : Forall (bd 100) fr).
    { apply Forall_forall. intros x Hx. rewrite Forall_forall in FS. apply FS. unfold fr, frame in Hx.
      rewrite <- (firstn_skipn (j / nrows (sp_data sp) * Z.to_nat h) (au_data s)). apply in_or_app. right. rewrite <- (firstn_skipn (w_size w)). apply in_or_app. left. exact Hx. }
    destruct (apply_hann_bd w fr f Hw LF FF EF) as [Ff Lf].
    assert (SF : stable (nth (j mod nrows (sp_data sp)) (rev (fst (make_filters (au_sr s) (bk_bands k) (bk_min k) (builder_max_freq speech (au_sr s))))) (erb_channel 0 (F_ofZ 0)))).
    { unfold stable_bank in SB. rewrite Forall_forall in SB. apply SB, in_rev, nth_In. rewrite rev_length, MF. lia. }
    destruct (band_bd _ f SF ltac:(lia) Ff) as (y' & g & EB & LB & FB). unfold band_output in EY. rewrite EB in EY. cbn [bind] in EY. injection EY as <-.
    apply rms_bd; [|lia|exact FB]. intros C. rewrite C in LY. cbn [length] in LY. lia.
  Qed.
End Bank.
