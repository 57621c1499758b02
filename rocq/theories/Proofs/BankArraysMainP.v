(** The array-level spectrogram builder over the reals (C89). *)
From Coq Require Import ZArith List Bool Reals Lra Lia.
From Verif Require Import Base.Res Base.Num Base.NumR Base.Cplx Base.Lists Base.Mat Model.Amatrix Model.MiscMath
  Model.Window Model.SignalFilter Model.Erb Model.Spectrogram Model.FilterBank Model.BankArrays Spec.ArgSpec
  Proofs.ConvP Proofs.BankP Proofs.GammatoneP Proofs.BankArraysP Proofs.BankArraysBuildP Proofs.BankArraysRP.
Import ListNotations.
Open Scope R_scope.

Section Main.
  Variable arg : R * R -> R.
  Hypothesis HA : is_arg arg.
  Lemma max_freq_pos speech sr : (0 < sr)%Z -> 0 < builder_max_freq (T := R) speech sr.
  Proof. intros H. unfold builder_max_freq. destruct speech; cbn [ndiv nofZ NumR]; [lra|]. pose proof (IZR_lt _ _ H). lra. Qed.
  (** the bank's history does not matter *)
  Lemma vbuild_same speech (k k' : vbank R) (s : audio R) w : (0 < au_sr s)%Z -> 0 < vb_min k ->
    vb_bands k = vb_bands k' -> vb_min k = vb_min k' ->
    vbuild (L := LibmR) arg speech k s w = vbuild (L := LibmR) arg speech k' s w.
  Proof.
    intros Hs Hm E1 E2. unfold vbuild. rewrite <- E1, <- E2.
    pose proof (arrays_values arg HA (au_sr s) (vb_bands k) (vb_min k) _ Hs Hm (max_freq_pos speech _ Hs)) as HM. cbv zeta in HM. rewrite HM. cbn [bind].
    set (m := make_filters _ _ _ _) in *.
    destruct (m_of_cols (cols_of (fst m))) as [M| | |] eqn:EM; try (rewrite (of_cols _ (length (fst m))) in EM by (discriminate || apply cols_lengths); discriminate).
    cbn [bind]. rewrite (vset_ret k (fst m) M EM), (vset_ret k' (fst m) M EM). cbn [bind]. unfold vreset. cbn [vb_bands vb_min vb_coef]. rewrite <- E1, <- E2. reflexivity.
  Qed.
  Lemma vbuild_build speech (k : vbank R) (s : audio R) w : (0 < au_sr s)%Z -> 0 < vb_min k -> (0 < w_size w)%nat ->
    let b := build (L := LibmR) speech (bank_init (vb_bands k) (vb_min k)) s w in
    vbuild (L := LibmR) arg speech k s w = (arrays_of (fst b), snd b).
  Proof.
    intros Hs Hm Hw b. rewrite (vbuild_same speech k (arrays_of (bank_init (vb_bands k) (vb_min k))) s w Hs Hm eq_refl eq_refl).
    apply vbuild_run; [exact Hw|]. apply arrays_values; [exact HA|exact Hs|exact Hm|exact (max_freq_pos speech _ Hs)].
  Qed.
  Lemma vbuild_spectrogram speech (k : vbank R) (s : audio R) w h : (0 < au_sr s)%Z -> 0 < vb_min k ->
    hop_size w = Some h -> (1 <= h)%Z -> (w_size w < length (au_data s))%nat ->
    let cols := (1 + (length (au_data s) - w_size w) / Z.to_nat h)%nat in
    exists k' S, vbuild (L := LibmR) arg speech k s w = (k', Ret S) /\
      nrows (sp_data S) = vb_bands k /\ ncols (sp_data S) = cols /\
      sp_cfb S = rev (center_freqs (L := LibmR) (vb_min k) (capped_high (au_sr s) (builder_max_freq speech (au_sr s))) (vb_bands k)) /\
      forall b c, (b < vb_bands k)%nat -> (c < cols)%nat -> exists f y st,
        apply_hann w (firstn (w_size w) (skipn (c * Z.to_nat h) (au_data s))) = Ret f /\
        band_filter (erb_channel (L := LibmR) (au_sr s) (nth b (sp_cfb S) 0)) zero_cond f = Ret (y, st) /\
        at_ (sp_data S) b c = row_rms y.
  Proof.
    intros Hs Hm Hh H1 Hn cols.
    assert (Hw : (0 < w_size w)%nat).
    { destruct (Nat.eq_dec (w_size w) 0) as [E|]; [|lia]. exfalso. unfold hop_size in Hh. rewrite E in Hh.
      change (Some (Rtrunc (0 * w_overlap w)) = Some h) in Hh. rewrite Rmult_0_l in Hh. pose proof (Rtrunc_IZR 0) as Z0.
      rewrite Z0 in Hh. assert (0%Z = h) by congruence. lia. }
    rewrite (vbuild_build speech k s w Hs Hm Hw).
    destruct (build_ret (L := LibmR) speech (bank_init (vb_bands k) (vb_min k)) s w h Hh H1 Hn) as (S & ES & _ & R1 & R2 & R3 & _ & _ & HC).
    eexists. exists S. rewrite ES. split; [reflexivity|]. cbn [bk_bands bk_min bank_init] in *. split; [exact R1|]. split; [exact R2|]. split; [exact R3|].
    intros b c Hb Hc. destruct (HC b c (erb_channel (L := LibmR) (au_sr s) 0) Hb Hc) as (f & y & Ef & Ey & _ & EC).
    unfold make_filters in Ey, R3. cbn [fst snd] in Ey, R3. rewrite <- map_rev, <- R3, map_nth in Ey.
    unfold band_output in Ey. destruct (band_filter _ zero_cond f) as [[y' st]| | |] eqn:EB; try discriminate. cbn in Ey. injection Ey as <-.
    exists f, y', st. auto.
  Qed.
  Lemma vbuild_short speech (k : vbank R) (s : audio R) w h : (0 < au_sr s)%Z -> 0 < vb_min k -> (0 < w_size w)%nat ->
    hop_size w = Some h -> (length (au_data s) <= w_size w)%nat -> snd (vbuild (L := LibmR) arg speech k s w) = Err InvalidArgument.
  Proof. intros Hs Hm Hw Hh Hl. rewrite (vbuild_build speech k s w Hs Hm Hw). cbn [snd]. exact (build_short speech _ s w h Hh Hl). Qed.
End Main.

(** an angle *)
Definition plain_arg (z : R * R) : R :=
  let '(x, y) := z in let a := acos (x / sqrt (x * x + y * y)) in if Rle_dec 0 y then a else - a.
Lemma plain_arg_ok : is_arg plain_arg.
Proof.
  intros x y H. unfold plain_arg. set (r := sqrt (x * x + y * y)).
  assert (P : 0 < x * x + y * y) by nra. assert (Pr : 0 < r) by (apply sqrt_lt_R0; exact P).
  assert (R2 : r * r = x * x + y * y) by (apply sqrt_sqrt; lra).
  set (c := x / r). assert (Ec : c * r = x) by (unfold c; field; lra).
  assert (Bc : -1 <= c <= 1).
  { assert (c * c <= 1) by (apply Rmult_le_reg_r with (r * r); [nra|]; nra). nra. }
  assert (Sc : sin (acos c) = sqrt (1 - Rsqr c)) by (apply sin_acos; exact Bc).
  assert (Ss : r * sqrt (1 - Rsqr c) = Rabs y).
  { rewrite <- (sqrt_Rsqr_abs y). rewrite <- (sqrt_square r) at 1 by lra. rewrite <- sqrt_mult_alt by nra. f_equal. unfold Rsqr. nra. }
  destruct (Rle_dec 0 y) as [Hy|Hy].
  - rewrite cos_acos by exact Bc. rewrite Sc, Ss. rewrite Rabs_right by lra. split; nra.
  - rewrite cos_neg, sin_neg, cos_acos by exact Bc. rewrite Sc. split; [nra|].
    replace (r * - sqrt (1 - Rsqr c)) with (- (r * sqrt (1 - Rsqr c))) by ring. rewrite Ss, Rabs_left by lra. ring.
Qed.
