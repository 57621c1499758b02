(** The loudness of the degraded signal has no influence (C81). *)
From Coq Require Import ZArith List Bool Reals Lra Lia Arith.
From Verif Require Import Base.Res Base.Num Base.NumR Base.Lists Base.Mat Base.Cplx Model.Amatrix Model.MiscMath Model.Window
  Model.FilterBank Model.Spectrogram Model.Nsim Model.Fft Model.Alignment Model.Selector Model.MiscAudio Model.Mappers Model.Wav Model.Visqol Model.Manager
  Spec.AudioSpec Spec.FftSpec Spec.LoudSpec Proofs.FftP Proofs.MiscAudioP.
Import ListNotations.
Open Scope R_scope.

Definition rmap {A B} (f : A -> B) (x : res A) : res B := do a <- x; Ret (f a).
Definition cs (c : R) (z : cplx R) : cplx R := (c * cre z, c * cim z).

Section C.
  Variable c : R.
  Hypothesis Hc : 0 < c.
  Notation sc := (map (Rmult c)).

  Lemma sc_zeros n : sc (repeat 0 n) = repeat 0 n.
  Proof. induction n as [|n IH]; [reflexivity|]. cbn. rewrite IH. f_equal. lra. Qed.
  Lemma sc_upd l i v : sc (upd l i v) = upd (sc l) i (c * v).
  Proof. revert i. induction l as [|x l IH]; intros [|i]; cbn; [reflexivity..|]. now rewrite IH. Qed.
  Lemma sc_sum l : forall a, fold_left Rplus (sc l) (c * a) = c * fold_left Rplus l a.
  Proof. induction l as [|x l IH]; intros a; [reflexivity|]. cbn. rewrite <- IH. f_equal. lra. Qed.
  Lemma sc_mean l : vec_mean (sc l) = c * vec_mean l.
  Proof.
    unfold vec_mean, nsum. cbn [nadd ndiv NumR]. rewrite map_length. change (n0 : R) with 0.
    replace 0 with (c * 0) at 1 by lra. rewrite sc_sum. unfold Rdiv. lra.
  Qed.
  Lemma pairs_sc : forall l, pairs (sc l) = map (cs c) (pairs l).
  Proof. fix IH 1. intros [|a [|b l]]; [reflexivity..|]. cbn [map pairs]. rewrite IH. reflexivity. Qed.
  Lemma unpairs_sc l : unpairs (map (cs c) l) = sc (unpairs l).
  Proof. induction l as [|[a b] l IH]; [reflexivity|]. cbn. now rewrite IH. Qed.
  Lemma unpack_sc l : unpack_spectrum (sc l) = rmap (map (cs c)) (unpack_spectrum l).
  Proof.
    unfold unpack_spectrum. rewrite pairs_sc. destruct (pairs l) as [|[a b] t]; [reflexivity|].
    cbn [map cs cre cim fst snd rmap bind]. apply (f_equal (@Ret _)). rewrite map_app. cbn [map]. change (n0 : R) with 0.
    assert (Z : forall x, cs c (x, 0) = (c * x, 0)) by (intros x; unfold cs; cbn; f_equal; lra).
    rewrite !Z. rewrite <- map_rev, !map_map.
    rewrite (map_ext (fun x : cplx R => (cre (cs c x), nmul (cim (cs c x)) (nofZ (-1)))) (fun x => cs c (cre x, nmul (cim x) (nofZ (-1))))); [reflexivity|].
    intros [p q]. unfold cs. cbn. f_equal. lra.
  Qed.

  Variable pf : pffft R.
  Hypothesis Hpf : homogeneous pf.

  Lemma f32_sc l : map (pf_f32 pf) (sc l) = sc (map (pf_f32 pf) l).
  Proof. rewrite !map_map. apply map_ext. intros x. destruct (Hpf c Hc) as (_ & _ & H). apply H. Qed.
  Lemma forward_sc fm l : forward1d pf fm (sc l) = rmap (map (cs c)) (forward1d pf fm l).
  Proof.
    unfold forward1d. rewrite map_length. destruct (_ || _); [reflexivity|].
    rewrite firstn_map, f32_sc. change (n0 : R) with 0. rewrite <- (sc_zeros (fm_size fm - fm_samples fm)) at 1. rewrite <- map_app.
    destruct (Hpf c Hc) as (H & _ & _). rewrite H. apply unpack_sc.
  Qed.
  Lemma pack_sc n s : pack_spectrum n (map (cs c) s) = rmap sc (pack_spectrum n s).
  Proof.
    unfold pack_spectrum. rewrite nth_error_map. destruct (nth_error s _) as [z|]; [|reflexivity].
    cbn [option_map rmap bind]. rewrite firstn_map, unpairs_sc, sc_upd. reflexivity.
  Qed.
  Lemma inverse_sc fm s : inverse1d pf fm (map (cs c) s) = rmap (map (cs c)) (inverse1d pf fm s).
  Proof.
    unfold inverse1d. rewrite pack_sc. destruct (pack_spectrum _ s) as [p| | |]; [|reflexivity..]. cbn [rmap bind].
    rewrite f32_sc. destruct (Hpf c Hc) as (_ & H & _). rewrite H, firstn_map, !simd_spec, !map_map. apply (f_equal (@Ret _)). apply map_ext.
    intros x. unfold cs. cbn. f_equal; [unfold Rdiv|change (n0 : R) with 0]; lra.
  Qed.
  Lemma hilbert_sc l : hilbert pf (sc l) = rmap (map (cs c)) (hilbert pf l).
  Proof.
    unfold hilbert. rewrite map_length, forward_sc. destruct (forward1d _ _ l) as [f| | |]; [|reflexivity..]. cbn [rmap bind].
    rewrite map_length. set (h := hilbert_scaling _ _). rewrite <- inverse_sc. f_equal. rewrite map_map. clearbody h. revert h.
    induction f as [|z f IH]; intros [|x h]; [reflexivity..|]. cbn [map combine fst snd]. rewrite IH. f_equal.
    unfold cscale, cs. cbn. f_equal; lra.
  Qed.
  Lemma env_sc l : calc_upper_env pf (sc l) = rmap sc (calc_upper_env pf l).
  Proof.
    unfold calc_upper_env. rewrite sc_mean.
    replace (map (fun x => nsub x (c * vec_mean l)) (sc l)) with (sc (map (fun x => nsub x (vec_mean l)) l)).
    - rewrite hilbert_sc. destruct (hilbert _ _) as [h| | |]; [|reflexivity..]. cbn [rmap bind]. apply (f_equal (@Ret _)). rewrite !map_map. apply map_ext.
      intros z. unfold cs. cbn. rewrite Rabs_mult, (Rabs_right c) by lra. lra.
    - rewrite !map_map. apply map_ext. intros x. cbn. lra.
  Qed.

  (** *** the lag *)
  Lemma argmax_from_sc l : forall b bi i, argmax_from (c * b) bi i (sc l) = argmax_from b bi i l.
  Proof.
    induction l as [|x l IH]; intros b bi i; [reflexivity|]. cbn [map argmax_from].
    replace (nltb (c * b) (c * x)) with (nltb b x); [destruct (nltb b x); apply IH|].
    cbn. destruct (Rltb_spec b x), (Rltb_spec (c * b) (c * x)); try reflexivity; exfalso; nra.
  Qed.
  Lemma argmax_sc l : argmax (sc l) = argmax l.
  Proof. destruct l; [reflexivity|]. apply argmax_from_sc. Qed.
  Lemma points_sc fm l n : forward1d_points pf fm (sc l) n = rmap (map (cs c)) (forward1d_points pf fm l n).
  Proof.
    unfold forward1d_points. rewrite map_length, <- forward_sc. f_equal. rewrite map_app, firstn_map. change (n0 : R) with 0. now rewrite sc_zeros.
  Qed.
  Lemma product_sc fm s1 s2 n : fft_pointwise_product pf fm s1 (sc s2) n = rmap (map (cs c)) (fft_pointwise_product pf fm s1 s2 n).
  Proof.
    unfold fft_pointwise_product. rewrite points_sc. destruct (forward1d_points pf fm s2 n) as [f2| | |]; [|reflexivity..]. cbn [rmap bind].
    destruct (forward1d_points pf fm s1 n) as [f1| | |]; [|reflexivity..]. cbn [bind]. rewrite !map_length.
    destruct (Nat.eqb _ _); [|reflexivity]. cbn [bind]. apply (f_equal (@Ret _)). rewrite map_map. revert f2.
    induction f1 as [|z f1 IH]; intros [|y f2]; [reflexivity..|]. cbn [map combine fst snd]. rewrite IH. f_equal.
    unfold cmul, cconj, cs. cbn. f_equal; lra.
  Qed.
  Lemma pad_sc n l : pad_to n (sc l) = sc (pad_to n l).
  Proof. unfold pad_to. rewrite map_app, map_length. change (n0 : R) with 0. now rewrite sc_zeros. Qed.
  Lemma lag_sc s1 s2 : find_lowest_lag_index pf s1 (sc s2) = find_lowest_lag_index pf s1 s2.
  Proof.
    unfold find_lowest_lag_index, inverse_fft_pointwise_product. rewrite map_length, pad_sc, product_sc.
    destruct (fft_pointwise_product _ _ _ _ _) as [p| | |]; [|reflexivity..]. cbn [rmap bind].
    unfold inverse1d_conj_sym. rewrite inverse_sc. destruct (inverse1d _ _ p) as [v| | |]; [|reflexivity..]. cbn [rmap bind].
    rewrite !map_length. replace (map cre (map (cs c) v)) with (sc (map cre v)) by (rewrite !map_map; reflexivity).
    destruct (_ || _); [reflexivity|]. rewrite skipn_map, firstn_map, <- map_app, argmax_sc. reflexivity.
  Qed.

  (** *** alignment and level *)
  Lemma rows_sc l a b : v_rows (sc l) a b = rmap sc (v_rows l a b).
  Proof. unfold v_rows. rewrite map_length. destruct (_ && _); [|reflexivity]. cbn [rmap bind]. now rewrite skipn_map, firstn_map. Qed.
  Lemma align_sc (ref deg : audio R) :
    globally_align pf ref (louder c deg) = rmap (fun p => (louder c (fst p), snd p)) (globally_align pf ref deg).
  Proof.
    unfold globally_align, louder. cbn [au_data au_sr]. destruct (calc_upper_env pf (au_data ref)) as [re| | |]; [|reflexivity..]. cbn [bind].
    rewrite env_sc. destruct (calc_upper_env pf (au_data deg)) as [de| | |]; [|reflexivity..]. cbn [rmap bind]. rewrite lag_sc.
    destruct (find_lowest_lag_index pf re de) as [g| | |]; [|reflexivity..]. cbn [bind].
    unfold apply_lag. cbn [au_data au_sr]. destruct (_ || _); [reflexivity|]. destruct (_ <? 0)%Z.
    - rewrite map_length, rows_sc. destruct (v_rows _ _ _) as [d| | |]; reflexivity.
    - cbn [bind rmap au_data au_sr]. change (n0 : R) with 0. rewrite <- (sc_zeros (Z.to_nat g)) at 1. rewrite <- map_app. reflexivity.
  Qed.
  Lemma no_energy l : energy l <= 0 -> sc l = l.
  Proof.
    unfold energy. induction l as [|x l IH]; [reflexivity|]. cbn.
    assert (P : 0 <= fold_right Rplus 0 (map (fun x => x * x) l)).
    { clear. induction l as [|y l IH]; cbn; [lra|]. nra. }
    intros H. rewrite IH by nra. f_equal. assert (x * x = 0) by nra. assert (x = 0) by nra. subst. lra.
  Qed.
  Lemma level_sc (ref deg : audio R) : scale_to_match_spl ref (louder c deg) = scale_to_match_spl ref deg.
  Proof.
    destruct (Rle_lt_dec (energy (au_data deg)) 0) as [E|E].
    - unfold louder. rewrite no_energy by exact E. now destruct deg.
    - unfold scale_to_match_spl. rewrite !scale_factor_R. unfold louder. cbn [au_data au_sr]. f_equal.
      replace (sc (au_data deg)) with (map (fun x => x * c) (au_data deg)) by (apply map_ext; intros; lra).
      rewrite (spl_scale c (au_data deg) Hc E). rewrite map_map. apply map_ext. intros x. cbn.
      pose proof ln10 as L10.
      replace ((spl (au_data ref) - (20 * (ln c / ln 10) + spl (au_data deg))) / 20 * ln 10)
        with ((spl (au_data ref) - spl (au_data deg)) / 20 * ln 10 + - ln c) by (field; lra).
      rewrite exp_plus, exp_Ropp, exp_ln by exact Hc. field. lra.
  Qed.
  Lemma run_sc (w : world R) (m : manager R) (ref deg : audio R) : w_fft w = pf ->
    let a := run w m ref (louder c deg) in let b := run w m ref deg in fst (fst a) = fst (fst b) /\ snd a = snd b.
  Proof.
    intros E. cbv zeta. unfold run. rewrite E. destruct (negb (mg_init m)); [split; reflexivity|].
    replace (validate ref (louder c deg)) with (validate ref deg) by reflexivity. destruct (validate ref deg); [split; reflexivity|].
    assert (G : forall d lag, match make_window (au_sr ref) with
      | Ret win => let '(k, deg0, r) := calculate_similarity measure_patch_similarity pf (mg_settings m) win ref (louder c d) (mg_bank m) in
                   (MkManager (mg_init m) (mg_settings m) (mg_no_global m) k, deg0, do x <- r; populate x lag)
      | Err e => (m, louder c d, Err e) | Throw => (m, louder c d, Throw) | Ub => (m, louder c d, Ub) end =
      match make_window (au_sr ref) with
      | Ret win => let '(k, deg0, r) := calculate_similarity measure_patch_similarity pf (mg_settings m) win ref d (mg_bank m) in
                   (MkManager (mg_init m) (mg_settings m) (mg_no_global m) k, deg0, do x <- r; populate x lag)
      | Err e => (m, louder c d, Err e) | Throw => (m, louder c d, Throw) | Ub => (m, louder c d, Ub) end).
    { intros d lag. destruct (make_window _); [|reflexivity..]. unfold calculate_similarity. rewrite level_sc. reflexivity. }
    destruct (mg_no_global m).
    - rewrite (G deg n0). destruct (make_window _); [|split; reflexivity..].
      destruct (calculate_similarity _ _ _ _ _ _ _) as [[k d] r]. split; reflexivity.
    - rewrite align_sc. destruct (globally_align pf ref deg) as [[d lag]| | |]; [|split; reflexivity..]. cbn [rmap bind fst snd].
      rewrite (G d lag). destruct (make_window _); [|split; reflexivity..].
      destruct (calculate_similarity _ _ _ _ _ _ _) as [[k d'] r]. split; reflexivity.
  Qed.
End C.

Lemma ideal_homogeneous : homogeneous ideal_fft.
Proof.
  assert (S0 : forall c n f, c * sum n f = sum n (fun i => c * f i)).
  { intros c n f. induction n as [|n IH]; cbn; [lra|]. rewrite <- IH. lra. }
  assert (SE : forall n f g, (forall i, f i = g i) -> sum n f = sum n g).
  { intros n f g H. induction n as [|n IH]; cbn; [reflexivity|]. now rewrite IH, H. }
  assert (N0 : forall c l i, smp (map (Rmult c) l) i = c * smp l i).
  { intros c l i. unfold smp. replace 0 with (c * 0) at 1 by lra. apply map_nth. }
  assert (DR : forall c M l k, dft_re M (smp (map (Rmult c) l)) k = c * dft_re M (smp l) k).
  { intros c M l k. unfold dft_re. rewrite S0. apply SE. intros i. rewrite N0. lra. }
  assert (DI : forall c M l k, dft_im M (smp (map (Rmult c) l)) k = c * dft_im M (smp l) k).
  { intros c M l k. unfold dft_im. replace (c * - sum M (fun n => smp l n * sin (angle M k n))) with (- (c * sum M (fun n => smp l n * sin (angle M k n)))) by lra.
    rewrite S0. f_equal. apply SE. intros i. rewrite N0. lra. }
  intros c Hc. cbn [ideal_fft pf_fwd pf_bwd pf_f32]. split; [|split]; [| |reflexivity].
  - intros l. unfold packed_dft. rewrite map_length, map_map. apply map_ext. intros j.
    destruct (Nat.eqb j 1); [apply DR|]. destruct (Nat.even j); [apply DR|apply DI].
  - intros l. unfold inverse_packed. rewrite map_length, map_map. apply map_ext. intros j.
    rewrite !N0. rewrite !Rmult_plus_distr_l. f_equal; [lra|]. rewrite S0. apply SE. intros i. cbv zeta. rewrite !N0. lra.
Qed.
