(** Decibels in binary64 (C116). *)
From Coq Require Import ZArith List Bool Reals Lra Lia Floats Arith.
From Flocq Require Import Core.Core IEEE754.BinarySingleNaN IEEE754.PrimFloat.
From Interval Require Import Tactic.
From Verif Require Import Base.Res Base.Num Base.NumR Base.NumF Base.Lists Base.Mat Model.Amatrix Model.MiscMath Model.Window Model.Erb Model.FilterBank Model.Spectrogram Model.Visqol Model.Manager
  Spec.StatSpec Spec.UndefinedSpec Spec.ManagerSpec Spec.LibmSpec Spec.StableSpec Spec.FilterAccSpec Spec.DbAccSpec
  Proofs.B64P Proofs.RealP Proofs.RoundP Proofs.RelP Proofs.BankP Proofs.ShapeP Proofs.PrepareP Proofs.FinitePrepP Proofs.AccurateRunP Proofs.AccurateCasesP Proofs.StableBankP Proofs.FilterBankAccP Proofs.DbSimP.
Import ListNotations.
Open Scope R_scope.

(** *** over the reals *)
Definition raised (x : R) : R := Rmax (-45) (level x).
Lemma raised_low x : Rabs x <= exp (- (9 / 2) * ln 10) -> raised x = -45.
Proof.
  intros H. unfold raised. apply Rmax_left. unfold level. pose proof ln10_pos. destruct (Req_EM_T x 0) as [->|N].
  - replace (2 ^ 52) with 4503599627370496 by lra. interval.
  - assert (0 < Rabs x) by (apply Rabs_pos_lt; exact N).
    assert (LN : ln (Rabs x) <= - (9 / 2) * ln 10) by (rewrite <- (ln_exp (- (9 / 2) * ln 10)); apply Rcomplements.ln_le; assumption).
    apply Rle_trans with (10 * (- (9 / 2) * ln 10 / ln 10)); [|right; field; lra]. apply Rmult_le_compat_l; [lra|]. unfold Rdiv. apply Rmult_le_compat_r; [left; apply Rinv_0_lt_compat; assumption|exact LN].
Qed.
Lemma raised_log x m : 0 < m -> exp (- (9 / 2) * ln 10) <= m -> m <= Rmax (Rabs x) (exp (- (9 / 2) * ln 10)) -> 10 * (ln m / ln 10) <= raised x.
Proof.
  intros P Q H. pose proof ln10_pos. unfold Rmax in H. destruct (Rle_dec (Rabs x) (exp (- (9 / 2) * ln 10))) as [C|C].
  - rewrite raised_low by exact C. assert (m = exp (- (9 / 2) * ln 10)) as -> by lra. rewrite ln_exp. right. field. lra.
  - apply Rle_trans with (level x); [|apply Rmax_r]. unfold level. pose proof (exp_pos (- (9 / 2) * ln 10)). destruct (Req_EM_T x 0) as [->|N]; [rewrite Rabs_R0 in C; lra|].
    apply Rmult_le_compat_l; [lra|]. unfold Rdiv. apply Rmult_le_compat_r; [left; apply Rinv_0_lt_compat; assumption|]. apply Rcomplements.ln_le; assumption.
Qed.
Lemma gap_pos d : 0 <= d -> 0 <= decibel_gap d.
Proof.
  intros H. unfold decibel_gap. pose proof ln10_pos. apply Rmult_le_pos; [lra|]. apply Rmult_le_pos; [|left; apply Rinv_0_lt_compat; assumption]. rewrite <- ln_1. apply Rcomplements.ln_le; lra.
Qed.
Lemma raised_up x y d : 0 <= d -> Rabs y <= Rabs x + d -> raised y <= raised x + decibel_gap d.
Proof.
  intros Hd H. pose proof ln10_pos as LP. pose proof (gap_pos d Hd) as GP.
  assert (L45 : -45 <= raised x) by apply Rmax_l.
  destruct (Rle_lt_dec (Rabs y) (exp (- (9 / 2) * ln 10))) as [C|C]; [rewrite (raised_low y C); lra|].
  set (q := exp (- (9 / 2) * ln 10)) in *. assert (Hq : 0 < q) by apply exp_pos. set (m := Rmax (Rabs x) q).
  assert (M1 : q <= m) by apply Rmax_r. assert (M2 : Rabs x <= m) by apply Rmax_l.
  pose proof (raised_log x m ltac:(lra) M1 (Rle_refl _)) as RL.
  assert (Q1 : 1 <= 31623 * q) by (unfold q; interval with (i_prec 60)).
  assert (Y : Rabs y <= m * (1 + 31623 * d)).
  { assert (d * 1 <= d * (31623 * q)) by (apply Rmult_le_compat_l; lra). assert (31623 * d * q <= 31623 * d * m) by (apply Rmult_le_compat_l; lra). lra. }
  assert (LY : level y <= 10 * (ln m / ln 10) + decibel_gap d).
  { unfold level, decibel_gap. destruct (Req_EM_T y 0) as [->|N]; [rewrite Rabs_R0 in C; lra|].
    rewrite <- Rmult_plus_distr_l. apply Rmult_le_compat_l; [lra|]. unfold Rdiv. rewrite <- Rmult_plus_distr_r. apply Rmult_le_compat_r; [left; apply Rinv_0_lt_compat; assumption|].
    rewrite <- ln_mult by lra. apply Rcomplements.ln_le; lra. }
  unfold raised at 1. apply Rmax_lub; lra.
Qed.
Lemma raised_lip x y d : Rabs (x - y) <= d -> Rabs (raised x - raised y) <= decibel_gap d.
Proof.
  intros H. assert (0 <= d) by (pose proof (Rabs_pos (x - y)); lra).
  pose proof (raised_up x y d H0) as U1. pose proof (raised_up y x d H0) as U2.
  pose proof (Rabs_triang_inv x y). pose proof (Rabs_triang_inv y x). rewrite (Rabs_minus_sym y x) in *.
  specialize (U1 ltac:(lra)). specialize (U2 ltac:(lra)). apply Rabs_le. lra.
Qed.

(** *** one entry *)
Section Entry.
  Context {L : Libm F} (A : accurate L).
  Definition lerr : R := 91 / 10000000000.
  Lemma db_near x : fin x -> rg (-4000) 4000 (convert_sample_to_db x) /\ Rabs (FR (convert_sample_to_db x) - level (FR x)) <= lerr.
  Proof.
    intros Fx. unfold convert_sample_to_db, level. cbn [nmul nofZ neqb nabs NumF].
    assert (FA : fin (PrimFloat.abs x) /\ FR (PrimFloat.abs x) = Rabs (FR x)) by (unfold fin, FR; rewrite abs_equiv; split; [rewrite is_finite_Babs; exact Fx|apply B2R_Babs]).
    assert (ZE : PrimFloat.eqb (PrimFloat.abs x) n0 = if Req_EM_T (FR x) 0 then true else false).
    { rewrite eqb_equiv. change (Prim2B (@n0 F NumF)) with (B754_zero false : binary_float prec emax). rewrite Beqb_correct; [|apply FA|reflexivity]. cbn [B2R]. change (B2R (Prim2B (PrimFloat.abs x))) with (FR (PrimFloat.abs x)). rewrite (proj2 FA).
      case Raux.Req_bool_spec; intros H; destruct (Req_EM_T (FR x) 0) as [E|E]; try reflexivity.
      - exfalso. apply E. apply Rabs_eq_R0. exact H.
      - exfalso. apply H. rewrite E. apply Rabs_R0. }
    rewrite ZE. set (y := if Req_EM_T (FR x) 0 then / 2 ^ 52 else Rabs (FR x)).
    assert (Y : exists v, (if (if Req_EM_T (FR x) 0 then true else false) then dbl_epsilon else PrimFloat.abs x) = v /\ fin v /\ FR v = y /\ 0 < y).
    { unfold y. destruct (Req_EM_T (FR x) 0) as [E|E].
      - exists dbl_epsilon. split; [reflexivity|]. split; [reflexivity|]. change (@dbl_epsilon F NumF) with 0x1p-52%float. split; [|apply Rinv_0_lt_compat; lra].
        assert (FR 0x1p-52 = bpow radix2 (-52)) as -> by (eapply FR_pow; reflexivity). cbn. lra.
      - exists (PrimFloat.abs x). split; [reflexivity|]. split; [apply FA|]. split; [apply FA|apply Rabs_pos_lt; exact E]. }
    destruct Y as (v & -> & Fv & Ev & Py). destruct (acc_log10 L A v Fv ltac:(lra)) as [Fl Hl]. rewrite Ev in Hl.
    assert (RG : rg (-400) 400 (mlog10 v)).
    { split; [exact Fl|]. pose proof (ln_fin v Fv ltac:(lra)) as B. rewrite Ev in B. assert (23 / 10 <= ln 10) by interval. assert (LL : Rabs (ln y / ln 10) <= 390).
      { unfold Rdiv. rewrite Rabs_mult, (Rabs_pos_eq (/ ln 10)) by (left; apply Rinv_0_lt_compat; lra). apply Rmult_le_reg_r with (ln 10); [lra|]. rewrite Rmult_assoc, Rinv_l, Rmult_1_r by lra. lra. }
      unfold dl in Hl. abs_all. lra. }
    pose proof (mul10_rg _ RG) as MG. split; [exact MG|].
    destruct (FR_ofZ 10 ltac:(lia)) as [E10 F10].
    assert (B : Rabs (FR (F_ofZ 10) * FR (mlog10 v)) <= 4000) by (rewrite E10; destruct RG as [_ RG]; apply Rabs_le; lra).
    assert (TB : tiny <= 4000) by (unfold tiny; apply Rle_trans with (bpow radix2 0); [apply bpow_le; lia|cbn; lra]).
    pose proof (rnd_err _ 4000 B TB) as E.
    assert (FM : Rabs (rnd (FR (F_ofZ 10) * FR (mlog10 v))) < fmax).
    { apply Rle_lt_trans with (Rabs (IZR 5000)); [|apply IZR_lt_fmax; lia]. rewrite (Rabs_pos_eq (IZR 5000)) by lra.
      assert (u * 4000 <= 1) by (unfold u; cbn; lra). apply Raux.Rabs_le_inv in E, B. apply Rabs_le. lra. }
    destruct (FR_mul (F_ofZ 10) (mlog10 v) F10 Fl FM) as [EQ _]. rewrite EQ. rewrite E10 in *.
    assert (UB : u * 4000 <= 1 / 1000000000000) by (unfold u; cbn; lra). unfold lerr. unfold dl in Hl. apply Raux.Rabs_le_inv in E, Hl. apply Rabs_le. lra.
  Qed.
  Lemma raised_near x : fin x -> rg (-45) 4000 (nmax kNoiseFloorAbsoluteDb (convert_sample_to_db x)) /\
    Rabs (FR (nmax kNoiseFloorAbsoluteDb (convert_sample_to_db x)) - raised (FR x)) <= lerr.
  Proof.
    intros Fx. destruct (db_near x Fx) as [RG E].
    assert (K : rg (-45) 4000 (F_ofZ (-45))) by (destruct (ofZ_rg (-45) ltac:(lia)) as [Fi H]; split; [exact Fi|lra]). destruct (FR_ofZ (-45) ltac:(lia)) as [E45 _].
    change (@kNoiseFloorAbsoluteDb F NumF) with (F_ofZ (-45)). unfold nmax. cbn [nltb NumF]. rewrite FR_ltb by (apply K || apply RG). rewrite E45. unfold raised.
    unfold lerr in *. apply Raux.Rabs_le_inv in E. case Raux.Rlt_bool_spec; intros C.
    - split; [destruct RG as [R1 R2]; split; [exact R1|lra]|]. apply Rabs_le. unfold Rmax. destruct (Rle_dec (-45) (level (FR x))); lra.
    - split; [exact K|]. rewrite E45. apply Rabs_le. unfold Rmax. destruct (Rle_dec (-45) (level (FR x))); lra.
  Qed.

  (** *** matrices *)
  Lemma entrywise_raised d M X : wf M -> wf X -> entrywise d M X -> raised_cl (decibel_gap d + lerr) M X.
  Proof.
    intros W1 W2 (S1 & S2 & H). split; [exact W1|]. split; [exact W2|]. split; [split; assumption|]. intros r c Hr Hc. destruct (H r c Hr Hc) as [Fx E].
    destruct (raised_near _ Fx) as [RG N]. split; [exact RG|]. pose proof (raised_lip _ _ _ E) as LP. fold (raised (at_ X r c)). apply Raux.Rabs_le_inv in LP, N. apply Rabs_le. lra.
  Qed.
  Lemma levels_near d M P X Y : wf M -> wf P -> wf X -> wf Y -> 0 <= d -> entrywise d M X -> entrywise d P Y ->
    (0 < nrows M)%nat -> (0 < nrows P)%nat -> (0 < ncols M)%nat -> (0 < ncols P)%nat ->
    exists M' P' X' Y', prepare_spectrograms M P = Ret (M', P') /\ prepare_spectrograms X Y = Ret (X', Y') /\
      entrywise (2 * decibel_gap d + 2 / 100000000) M' X' /\ entrywise (2 * decibel_gap d + 2 / 100000000) P' Y'.
  Proof.
    intros WM WP WX WY Hd HM HP R1 R2 C1 C2. pose proof (gap_pos d Hd) as GP.
    destruct (prepare_cl (decibel_gap d + lerr) M P X Y ltac:(unfold lerr; lra) (entrywise_raised d M X WM WX HM) (entrywise_raised d P Y WP WY HP) R1 R2 C1 C2) as (M' & P' & X' & Y' & E1 & E2 & G1 & G2).
    destruct (prepare_inv M P M' P' E1) as ((Q1 & Q2) & (Q3 & Q4)).
    destruct (prepare_inv X Y X' Y' E2) as ((Q5 & Q6) & (Q7 & Q8)). destruct HM as (S1 & S2 & _), HP as (S3 & S4 & _).
    exists M', P', X', Y'. split; [exact E1|]. split; [exact E2|].
    split; (split; [congruence|split; [congruence|]]); intros r c Hr Hc.
    - destruct (G1 r c ltac:(congruence) ltac:(congruence)) as [Fi G]. split; [exact Fi|]. unfold lerr, eps1 in G. lra.
    - destruct (G2 r c ltac:(congruence) ltac:(congruence)) as [Fi G]. split; [exact Fi|]. unfold lerr, eps1 in G. lra.
  Qed.

  (** pure rounding *)
  Lemma real_entrywise M : wf M -> Forall fin (elems M) -> wf (real_matrix M) /\ entrywise 0 M (real_matrix M).
  Proof.
    intros W HF. split; [apply mmap_wf; exact W|]. split; [reflexivity|]. split; [reflexivity|]. intros r c Hr Hc.
    assert (Fi : fin (at_ M r c)). { rewrite Forall_forall in HF. apply HF. unfold at_, mget. apply nth_In. unfold wf in W. rewrite W. nia. }
    split; [exact Fi|]. unfold real_matrix. unfold at_ at 2. rewrite (mget_mmap n0) by assumption. fold (at_ M r c). rewrite Rminus_diag_eq by reflexivity. rewrite Rabs_R0. lra.
  Qed.
  Lemma preparation_accurate (M P : mat F) : wf M -> wf P -> Forall fin (elems M) -> Forall fin (elems P) ->
    (0 < nrows M)%nat -> (0 < nrows P)%nat -> (0 < ncols M)%nat -> (0 < ncols P)%nat ->
    exists M' P' X' Y', prepare_spectrograms M P = Ret (M', P') /\ prepare_spectrograms (real_matrix M) (real_matrix P) = Ret (X', Y') /\
      entrywise (2 / 100000000) M' X' /\ entrywise (2 / 100000000) P' Y'.
  Proof.
    intros WM WP FM FP R1 R2 C1 C2. destruct (real_entrywise M WM FM) as [W1 E1]. destruct (real_entrywise P WP FP) as [W2 E2].
    destruct (levels_near 0 M P _ _ WM WP W1 W2 (Rle_refl 0) E1 E2 R1 R2 C1 C2) as (M' & P' & X' & Y' & H1 & H2 & H3 & H4).
    assert (Z : 2 * decibel_gap 0 + 2 / 100000000 = 2 / 100000000).
    { unfold decibel_gap. replace (1 + 31623 * 0) with 1 by lra. rewrite ln_1. unfold Rdiv at 1. lra. }
    rewrite Z in H3, H4. exists M', P', X', Y'. auto.
  Qed.

  (** *** the spectrograms of the program *)
  Lemma built_entrywise (m : manager F) (s : audio F) (w : window F) sp : reachable m -> (4000 <= au_sr s <= 48000)%Z -> (2 <= Z.of_nat (w_size w) <= 2 ^ 20)%Z ->
    Forall (within 1) (au_data s) -> snd (build (st_speech (mg_settings m)) (mg_bank m) s w) = Ret sp ->
    wf (sp_data sp) /\ wf (exact_levels m s w sp) /\ entrywise (1 / 100000) (sp_data sp) (exact_levels m s w sp).
  Proof.
    intros HR Hsr Hw HF E. split.
    - destruct (build (st_speech (mg_settings m)) (mg_bank m) s w) as [k' R1] eqn:EB. cbn [snd] in E. subst R1. destruct (build_inv _ _ _ _ _ _ EB) as (_ & _ & _ & _ & _ & h & Eh & H1 & Hl & _).
      destruct (build_ret (st_speech (mg_settings m)) (mg_bank m) s w h Eh H1 Hl) as (sp' & E' & W & _). rewrite EB in E'. cbn [snd] in E'. injection E' as <-. exact W.
    - split; [apply tab_wf|]. split; [reflexivity|]. split; [reflexivity|]. intros b t Hb Ht.
      destruct (spectrogram_accurate A m s w sp b t HR Hsr Hw HF E Hb Ht) as (h & f & Eh & Ef & Fi & X). split; [exact Fi|].
      unfold exact_levels. unfold at_ at 2. rewrite mget_tab by assumption. unfold exact_entry. rewrite Eh, Ef. exact X.
  Qed.
  Lemma gap_1e5 : 2 * decibel_gap (1 / 100000) + 2 / 100000000 <= 24 / 10.
  Proof. unfold decibel_gap. interval. Qed.
  Lemma entrywise_weak d e (M : mat F) X : d <= e -> entrywise d M X -> entrywise e M X.
  Proof. intros H (S1 & S2 & G). split; [exact S1|]. split; [exact S2|]. intros r c Hr Hc. destruct (G r c Hr Hc) as [Fi G']. split; [exact Fi|lra]. Qed.
  Lemma compared_levels (m : manager F) (s1 s2 : audio F) (w : window F) sp1 sp2 : reachable m -> (4000 <= au_sr s1 <= 48000)%Z -> (4000 <= au_sr s2 <= 48000)%Z -> (2 <= Z.of_nat (w_size w) <= 2 ^ 20)%Z ->
    Forall (within 1) (au_data s1) -> Forall (within 1) (au_data s2) ->
    snd (build (st_speech (mg_settings m)) (mg_bank m) s1 w) = Ret sp1 -> snd (build (st_speech (mg_settings m)) (mg_bank m) s2 w) = Ret sp2 ->
    exists M' P' X' Y', prepare_spectrograms (sp_data sp1) (sp_data sp2) = Ret (M', P') /\ prepare_spectrograms (exact_levels m s1 w sp1) (exact_levels m s2 w sp2) = Ret (X', Y') /\
      entrywise (24 / 10) M' X' /\ entrywise (24 / 10) P' Y'.
  Proof.
    intros HR H1 H2 Hw F1 F2 E1 E2. destruct (built_entrywise m s1 w sp1 HR H1 Hw F1 E1) as (W1 & V1 & N1). destruct (built_entrywise m s2 w sp2 HR H2 Hw F2 E2) as (W2 & V2 & N2).
    assert (D : forall s sp, snd (build (st_speech (mg_settings m)) (mg_bank m) s w) = Ret sp -> (0 < nrows (sp_data sp))%nat /\ (0 < ncols (sp_data sp))%nat).
    { intros s sp E. destruct (build (st_speech (mg_settings m)) (mg_bank m) s w) as [k' R1] eqn:EB. cbn [snd] in E. subst R1. destruct (build_inv _ _ _ _ _ _ EB) as (NR & NC & _).
      destruct (AggregateP.bank_invariant m HR) as [B1 _]. rewrite NR, B1. split; [|lia]. unfold num_bands. destruct (st_speech _); lia. }
    destruct (D s1 sp1 E1) as [D1 D2]. destruct (D s2 sp2 E2) as [D3 D4].
    destruct (levels_near (1 / 100000) _ _ _ _ W1 W2 V1 V2 ltac:(lra) N1 N2 D1 D3 D2 D4) as (M' & P' & X' & Y' & P1 & P2 & P3 & P4). exists M', P', X', Y'. split; [exact P1|]. split; [exact P2|].
    split; (eapply entrywise_weak; [apply gap_1e5|assumption]).
  Qed.
  (** an audible entry *)
  Lemma loud_decibels x v : fin x -> 1 / 100 <= v -> Rabs (FR x - v) <= 1 / 100000 -> Rabs (FR (convert_sample_to_db x) - level v) <= 5 / 1000.
  Proof.
    intros Fx Hv E. destruct (db_near x Fx) as [_ N]. apply Raux.Rabs_le_inv in E.
    assert (LX : level (FR x) = 10 * (ln (FR x) / ln 10)) by (unfold level; destruct (Req_EM_T (FR x) 0); [lra|]; rewrite Rabs_pos_eq by lra; reflexivity).
    assert (LV : level v = 10 * (ln v / ln 10)) by (unfold level; destruct (Req_EM_T v 0); [lra|]; rewrite Rabs_pos_eq by lra; reflexivity).
    assert (D : ln (FR x) - ln v = ln (FR x / v)). { unfold Rdiv. rewrite ln_mult by (try apply Rinv_0_lt_compat; lra). rewrite ln_Rinv by lra. lra. }
    assert (Q : 1 - 1 / 1000 <= FR x / v <= 1 + 1 / 1000).
    { split; (apply Rmult_le_reg_r with v; [lra|]); unfold Rdiv at 2; try (unfold Rdiv at 1); rewrite ?Rmult_assoc, ?Rinv_l, ?Rmult_1_r by lra; nra. }
    set (q := FR x / v) in *. clearbody q.
    assert (Rabs (10 * (ln q / ln 10)) <= 49 / 10000) by (interval).
    assert (EQ : level (FR x) - level v = 10 * (ln q / ln 10)) by (rewrite LX, LV, <- D; unfold Rdiv; ring).
    unfold lerr in N. rewrite <- EQ in H. apply Raux.Rabs_le_inv in N, H. apply Rabs_le. lra.
  Qed.
  Lemma loud_entries (M : mat F) X r c : wf M -> entrywise (1 / 100000) M X -> (r < nrows M)%nat -> (c < ncols M)%nat -> 1 / 100 <= at_ X r c ->
    Rabs (FR (at_ (to_db M) r c) - level (at_ X r c)) <= 5 / 1000.
  Proof.
    intros W (_ & _ & N) Hr Hc V. destruct (N r c Hr Hc) as [Fi E]. unfold to_db. unfold at_ at 1. rewrite (mget_mmap n0) by assumption. fold (at_ M r c). exact (loud_decibels _ _ Fi V E).
  Qed.
End Entry.

Lemma small_entrywise d : 0 <= d -> entrywise d (MkMat 1 2 [0.5; 0]%float) (MkMat 1 2 [1 / 2 + d; 0]).
Proof.
  intros Hd. split; [reflexivity|]. split; [reflexivity|]. cbn [nrows ncols]. intros r c Hr Hc. destruct r; [|lia].
  assert (E : FR 0.5 = / 2) by (assert (FR 0.5 = bpow radix2 (-1)) as -> by (eapply FR_pow; reflexivity); cbn; lra).
  destruct c as [|[|c]]; [| |lia].
  - split; [reflexivity|]. change (at_ (MkMat 1 2 [0.5; 0]%float) 0 0) with 0.5%float. change (at_ (MkMat 1 2 [1 / 2 + d; 0]) 0 0) with (1 / 2 + d). rewrite E. apply Rabs_le. lra.
  - split; [reflexivity|]. change (at_ (MkMat 1 2 [0.5; 0]%float) 0 1) with 0%float. change (at_ (MkMat 1 2 [1 / 2 + d; 0]) 0 1) with 0. change (FR 0) with 0. rewrite Rminus_diag_eq, Rabs_R0 by reflexivity. lra.
Qed.
Lemma hundred_thousandth : 0 <= 1 / 100000. Proof. lra. Qed.
Lemma half_audible : 1 / 100 <= at_ (MkMat 1 2 [1 / 2 + 1 / 100000; 0]) 0 0.
Proof. change (at_ (MkMat 1 2 [1 / 2 + 1 / 100000; 0]) 0 0) with (1 / 2 + 1 / 100000). lra. Qed.
