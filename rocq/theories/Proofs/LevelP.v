(** C90: recordings quiet enough are not told apart. *)
From Coq Require Import ZArith List Bool Reals Lra Lia.
From Coq Require Import ZifyBool ZifyNat.
From Verif Require Import Base.Res Base.Num Base.NumR Base.Lists Base.Mat Model.Amatrix Model.MiscMath Model.Fft Model.Window Model.Erb
  Model.FilterBank Model.Spectrogram Model.Nsim Model.Alignment Model.MiscAudio Model.Mappers
  Model.Visqol Model.Manager Spec.FftSpec Spec.StatSpec Spec.AudioSpec Spec.ManagerSpec Spec.TotalSpec Spec.IdentitySpec Spec.LevelSpec
  Proofs.RealP Proofs.FftP Proofs.DftP Proofs.ShapeP Proofs.AggregateP Proofs.WindowP Proofs.BankP Proofs.PrepareP Proofs.MiscAudioP Proofs.GammatoneP
  Proofs.MapperP Proofs.TotalP Proofs.IdentityP Proofs.IdentityRunP.
Import ListNotations.
Open Scope R_scope.

(** *** every band of a bank within one bound *)
Lemma bank_bound sr n (low high : R) : (0 < sr)%Z -> 0 <= low -> 0 <= high ->
  exists K, 0 < K /\ forall b d X sig y, (b < n)%nat -> (forall x, In x sig -> Rabs x <= X) -> 0 <= X ->
    band_output (nth b (rev (fst (make_filters (L := LibmR) sr n low high))) d) sig = Ret y -> forall v, In v y -> Rabs v <= K * X.
Proof.
  intros Hs Hl Hh. set (m := make_filters sr n low high).
  assert (G : forall l, (forall p, In p l -> In p (combine (fst m) (snd m))) -> exists K, 0 < K /\ forall c cf X sig y, In (c, cf) l ->
    (forall x, In x sig -> Rabs x <= X) -> 0 <= X -> band_output c sig = Ret y -> forall v, In v y -> Rabs v <= K * X).
  { induction l as [|[c cf] l IH]; intros HL.
    - exists 1. split; [lra|]. intros c cf X sig y [].
    - destruct IH as (K & K0 & HK); [intros p Hp; apply HL; now right|].
      destruct (bank_stable sr n low high c cf Hs Hl Hh (HL _ (or_introl eq_refl))) as (K1 & HK1).
      exists (Rmax K K1). split; [pose proof (Rmax_l K K1); lra|]. intros c' cf' X sig y [E|Hin] HX X0 HY v Hv.
      + injection E as <- <-. destruct (HK1 X sig HX X0) as (y' & f & E' & _ & B). unfold band_output in HY. rewrite E' in HY. cbn [bind] in HY. injection HY as <-.
        pose proof (B v Hv). pose proof (Rmax_r K K1). nra.
      + pose proof (HK c' cf' X sig y Hin HX X0 HY v Hv). pose proof (Rmax_l K K1). nra. }
  destruct (G (combine (fst m) (snd m)) (fun p H => H)) as (K & K0 & HK). exists K. split; [exact K0|].
  intros b d X sig y Hb. destruct (make_filters_length (T := R) (L := LibmR) sr n low high) as [L1 L2]. fold m in L1, L2.
  assert (Hin : In (nth b (rev (fst m)) d) (fst m)) by (rewrite in_rev; apply nth_In; rewrite rev_length, L1; exact Hb).
  destruct (In_nth _ _ d Hin) as (i & Hi & Ei). apply (HK _ (nth i (snd m) 0)). rewrite <- Ei. rewrite <- combine_nth by congruence.
  apply nth_In. rewrite combine_length. lia.
Qed.

Lemma rms_bound (y : list R) Y : 0 <= Y -> (forall v, In v y -> Rabs v <= Y) -> 0 <= row_rms y <= Y.
Proof.
  intros H0 H. split; [apply row_rms_nonneg|]. rewrite row_rms_R. rewrite <- (sqrt_square Y) by exact H0. apply sqrt_le_1_alt.
  destruct y as [|v y]; [cbn; unfold Rdiv; rewrite Rmult_0_l; nra|]. set (l := v :: y) in *.
  assert (P : 0 < INR (length l)) by (apply lt_0_INR; cbn; lia).
  apply Rmult_le_reg_r with (INR (length l)); [exact P|]. unfold Rdiv. rewrite Rmult_assoc, Rinv_l, Rmult_1_r by lra.
  clear P. induction l as [|x l IH]; [cbn; lra|]. cbn [map rsum length]. rewrite S_INR.
  specialize (IH (fun v Hv => H v (or_intror Hv))). pose proof (H x (or_introl eq_refl)) as Hx.
  assert (x * x <= Y * Y). { replace (x * x) with (Rabs x * Rabs x) by (rewrite <- Rabs_mult; apply Rabs_pos_eq; nra). pose proof (Rabs_pos x). nra. } lra.
Qed.

Lemma hann_bound (w : window R) sig out X : length sig = w_size w -> apply_hann w sig = Ret out -> (forall x, In x sig -> Rabs x <= X) -> forall x, In x out -> Rabs x <= X.
Proof.
  intros L E H x Hx. destruct (apply_hann_spec w sig L) as (o & E' & LO & V). rewrite E in E'. injection E' as <-.
  destruct (In_nth _ _ 0 Hx) as (i & Hi & <-). rewrite LO in Hi. pose proof (proj2 (V i Hi)). pose proof (H (nth i sig 0) (nth_In _ _ Hi)). lra.
Qed.

(** every cell of a spectrogram is within a multiple of the largest sample *)
Lemma cells_bound (speech : bool) n (low : R) sr : (0 < sr)%Z -> 0 <= low -> exists K, 0 < K /\ forall (k : bank R) (s : audio R) w h S X,
  au_sr s = sr -> bk_bands k = n -> bk_min k = low -> hop_size w = Some h -> (1 <= h)%Z -> (w_size w < length (au_data s))%nat -> within X s -> 0 <= X ->
  snd (build speech k s w) = Ret S -> forall b c, (b < nrows (sp_data S))%nat -> (c < ncols (sp_data S))%nat -> 0 <= at_ (sp_data S) b c <= K * X.
Proof.
  intros Hs Hl. assert (Hh : 0 <= @builder_max_freq R NumR speech sr).
  { unfold builder_max_freq. destruct speech; cbn [nofZ ndiv NumR]; [lra|]. pose proof (IZR_lt _ _ Hs). lra. }
  destruct (bank_bound sr n low _ Hs Hl Hh) as (K & K0 & HK). exists K. split; [exact K0|].
  intros k s w h S X E1 E2 E3 EH H1 HW HX X0 ES b c Hb Hc.
  destruct (build_ret speech k s w h EH H1 HW) as (S' & ES' & _ & N & C & _ & IN & _ & V). rewrite ES in ES'. injection ES' as <-.
  rewrite N in Hb. rewrite C in Hc. destruct (V b c (erb_channel sr 0) Hb Hc) as (f & y & F1 & F2 & F3 & F4). rewrite F4. apply rms_bound; [nra|].
  rewrite E1, E2, E3 in F2. apply (HK b (erb_channel sr 0) X f y); [lia| |exact X0|exact F2].
  apply (hann_bound w (frame w (au_data s) (c * Z.to_nat h))); [apply frame_length; apply IN; exact Hc|exact F1|].
  intros x Hx. apply HX. unfold frame in Hx. apply firstn_in in Hx. rewrite <- (firstn_skipn (c * Z.to_nat h) (au_data s)). apply in_or_app. now right.
Qed.

(** *** below -45 dB everything is the floor *)
Lemma audible_pos : 0 < audible. Proof. apply exp_pos. Qed.
Lemma level_quiet x : 0 <= x <= audible -> level x <= -45.
Proof.
  intros [H0 H1]. pose proof ln10_pos as P. unfold level.
  assert (Q : forall y, 0 < y -> y <= audible -> 10 * (ln y / ln 10) <= -45).
  { intros y Y0 Y1. assert (ln y <= - 4.5 * ln 10). { rewrite <- (ln_exp (-4.5 * ln 10)). destruct Y1 as [Y1|Y1]; [left; apply ln_increasing; [exact Y0|exact Y1]|right; now rewrite Y1]. }
    apply Rmult_le_reg_r with (ln 10); [exact P|]. unfold Rdiv. rewrite Rmult_assoc, (Rmult_assoc (ln y)), Rinv_l by lra. lra. }
  destruct (Req_EM_T x 0) as [E|E].
  - apply Q; [lra|]. unfold audible. rewrite <- (exp_ln (/ 2 ^ 52)) by lra. left. apply exp_increasing. rewrite ln_Rinv, ln_pow by lra.
    assert (ln 10 < 4 * ln 2). { replace (4 * ln 2) with (INR 4 * ln 2) by (cbn; lra). rewrite <- ln_pow by lra. apply ln_increasing; lra. }
    assert (0 < ln 2) by (rewrite <- ln_1; apply ln_increasing; lra). replace (INR 52) with 52 by (cbn; lra). lra.
  - rewrite Rabs_pos_eq by exact H0. apply Q; lra.
Qed.
Lemma prepare_quiet (A B A' B' : mat R) : wf A -> wf B -> (0 < nrows A)%nat -> (0 < nrows B)%nat -> (0 < ncols A)%nat -> (0 < ncols B)%nat ->
  (forall b c, (b < nrows A)%nat -> (c < ncols A)%nat -> 0 <= at_ A b c <= audible) ->
  (forall b c, (b < nrows B)%nat -> (c < ncols B)%nat -> 0 <= at_ B b c <= audible) ->
  prepare_spectrograms A B = Ret (A', B') ->
  (forall b c, (b < nrows A)%nat -> (c < ncols A)%nat -> at_ A' b c = 0) /\ (forall b c, (b < nrows B)%nat -> (c < ncols B)%nat -> at_ B' b c = 0).
Proof.
  intros WA WB RA RB CA CB QA QB E. destruct (prepare_spec A B WA WB RA RB CA CB) as (X & Y & fl & low & E' & _ & _ & _ & _ & FL & FL' & VX & VY & _ & _ & Z0).
  rewrite E in E'. injection E' as <- <-.
  assert (M : forall x, 0 <= x <= audible -> Rmax (-45) (level x) = -45) by (intros x Hx; apply Rmax_left, level_quiet, Hx).
  assert (F : forall c, fl c <= -45).
  { intros c. destruct (Nat.lt_ge_cases c (Nat.min (ncols A) (ncols B))) as [H|H]; [|rewrite FL' by exact H; lra].
    destruct (FL c H) as (pk & -> & _ & _ & r & [[H1 ->]|[H1 ->]]); rewrite M; try lra; [apply QA|apply QB]; (exact H1 || lia). }
  assert (VX' : forall b c, (b < nrows A)%nat -> (c < ncols A)%nat -> at_ A' b c = -45 - low) by (intros b c Hb Hc; rewrite VX, M, Rmax_right by auto; reflexivity).
  assert (VY' : forall b c, (b < nrows B)%nat -> (c < ncols B)%nat -> at_ B' b c = -45 - low) by (intros b c Hb Hc; rewrite VY, M, Rmax_right by auto; reflexivity).
  assert (L0 : -45 - low = 0) by (destruct Z0 as (r & c & [(H1 & H2 & H3)|(H1 & H2 & H3)]); [rewrite VX' in H3 by assumption|rewrite VY' in H3 by assumption]; exact H3).
  split; intros b c Hb Hc; [rewrite VX' by assumption|rewrite VY' by assumption]; exact L0.
Qed.

(** *** the level-matched degraded recording is as quiet *)
Lemma sample_energy l x : In x l -> x * x <= energy l.
Proof.
  rewrite energy_rsum. induction l as [|y l IH]; intros H; [destruct H|]. cbn [map rsum].
  assert (0 <= rsum (map (fun x => x * x) l)) by (rewrite <- energy_rsum; apply energy_nonneg).
  destruct H as [->|H]; [lra|]. specialize (IH H). nra.
Qed.
Lemma energy_within eps l : 0 <= eps -> (forall x, In x l -> Rabs x <= eps) -> energy l <= INR (length l) * (eps * eps).
Proof.
  intros H0. rewrite energy_rsum. induction l as [|x l IH]; intros H; [cbn; lra|]. cbn [map rsum length]. rewrite S_INR.
  specialize (IH (fun v Hv => H v (or_intror Hv))). pose proof (H x (or_introl eq_refl)) as Hx.
  assert (x * x <= eps * eps). { replace (x * x) with (Rabs x * Rabs x) by (rewrite <- Rabs_mult; apply Rabs_pos_eq; nra). pose proof (Rabs_pos x). nra. } lra.
Qed.
Lemma scaled_within eps (N : nat) (ref deg : audio R) : 0 <= eps -> within eps ref -> 0 < energy (au_data ref) -> (length (au_data deg) <= N)%nat -> (1 <= N)%nat ->
  within (eps * INR N) (scale_to_match_spl ref deg).
Proof.
  intros H0 HR PR HN N1 x Hx. assert (1 <= INR N) by (change 1 with (INR 1); apply le_INR; exact N1). destruct (Rle_lt_dec (energy (au_data deg)) 0) as [E|E].
  - unfold scale_to_match_spl in Hx. cbn [au_data] in Hx. apply in_map_iff in Hx. destruct Hx as (v & <- & Hv).
    pose proof (sample_energy _ _ Hv). assert (v = 0) by nra. subst v. cbn [nmul NumR]. rewrite Rmult_0_l, Rabs_R0. nra.
  - destruct (level_matched ref deg PR E) as (f & F0 & F1 & _ & _ & F2 & _).
    pose proof (sample_energy _ _ Hx) as SE. pose proof (energy_within eps _ H0 HR) as EW. pose proof (energy_length_pos _ PR) as LR. pose proof (energy_length_pos _ E) as LD.
    assert (Q : energy (au_data ref) / INR (length (au_data ref)) <= eps * eps).
    { apply Rmult_le_reg_r with (INR (length (au_data ref))); [exact LR|]. unfold Rdiv. rewrite Rmult_assoc, Rinv_l, Rmult_1_r by lra. lra. }
    rewrite <- F2 in Q. set (e := energy (au_data (scale_to_match_spl ref deg))) in *.
    assert (Q2 : e <= eps * eps * INR (length (au_data deg))).
    { apply Rmult_le_reg_r with (/ INR (length (au_data deg))); [now apply Rinv_0_lt_compat|]. unfold Rdiv in Q. rewrite Rmult_assoc, Rinv_r, Rmult_1_r by lra. exact Q. }
    apply le_INR in HN. assert (Q3 : x * x <= (eps * INR N) * (eps * INR N)).
    { assert (0 <= eps * eps) by nra. assert (eps * eps * INR (length (au_data deg)) <= eps * eps * INR N) by (apply Rmult_le_compat_l; assumption).
      assert (eps * eps * INR N <= eps * eps * (INR N * INR N)) by (apply Rmult_le_compat_l; nra). nra. }
    apply Rsqr_le_abs_0 in Q3. rewrite (Rabs_pos_eq (eps * INR N)) in Q3 by nra. exact Q3.
Qed.
