(** C90: a frame with sound in it has energy in every band, a silent one in none. *)
From Coq Require Import ZArith List Bool Reals Lra Lia.
From Coq Require Import ZifyBool ZifyNat.
From Verif Require Import Base.Res Base.Num Base.NumR Base.Lists Base.Mat Model.Amatrix Model.MiscMath Model.Window Model.SignalFilter Model.Erb
  Model.FilterBank Model.Spectrogram Spec.StatSpec Spec.AudioSpec
  Proofs.RealP Proofs.ShapeP Proofs.WindowP Proofs.BankP Proofs.MiscAudioP Proofs.GammatoneP Proofs.LevelP.
Import ListNotations.
Open Scope R_scope.

Definition silent_list (l : list R) : Prop := forall x, In x l -> x = 0.
Lemma cond_zero b a n : filter_cond b a 0 0 (repeat 0 n) = repeat 0 n.
Proof.
  unfold filter_cond. rewrite repeat_length. apply (list_ext _ _ 0); [now rewrite map_length, seq_length, repeat_length|].
  intros i Hi. rewrite map_length, seq_length in Hi. rewrite nth_map_seq by exact Hi. change (@n0 R NumR) with 0. rewrite !nth_repeat. destruct (Nat.ltb _ _); [|reflexivity].
  cbn [nadd nsub nmul NumR]. ring.
Qed.
Lemma loop_zero b a n sig : nth 0 b 0 <> 0 -> silent_list (fst (filter_loop b a sig (repeat 0 n))) -> silent_list sig.
Proof.
  intros HB. induction sig as [|x t IH]; intros H; [intros y Hy; destruct Hy|]. cbn [filter_loop] in H. change (@n0 R NumR) with 0 in H. rewrite nth_repeat in H.
  set (y := nadd (nmul (nth 0 b 0) x) 0) in H.
  assert (Y : y = 0). { destruct (filter_loop b a t (filter_cond b a x y (repeat 0 n))) as [ys ff]. cbn [fst] in H. apply H. now left. }
  assert (X : x = 0). { unfold y in Y. cbn [nadd nmul NumR] in Y. destruct (Rmult_integral (nth 0 b 0) x) as [E|E]; [lra|contradiction|exact E]. }
  rewrite Y, X, cond_zero in H. intros z [<-|Hz]; [exact X|]. revert z Hz. apply IH. destruct (filter_loop b a t (repeat 0 n)) as [ys ff]. cbn [fst] in H |- *. intros z Hz. apply H. now right.
Qed.
Lemma filter_zero b0 b1 b2 a0 a1 a2 sig y f : b0 <> 0 -> signal_filter [b0; b1; b2] [a0; a1; a2] sig [0; 0] = Ret (y, f) -> silent_list y -> silent_list sig.
Proof.
  intros HB H HY. unfold signal_filter in H. cbn [length Nat.ltb Nat.leb Nat.eqb orb Nat.sub] in H.
  change ([0; 0] ++ repeat n0 1) with (repeat 0 3) in H.
  pose proof (loop_zero [b0; b1; b2] [a0; a1; a2] 3 sig HB) as L. destruct (filter_loop _ _ sig _) as [ys f']. injection H as <- _. apply L. exact HY.
Qed.
Lemma band_zero (sr : Z) (cf : R) sig y : (0 < sr)%Z -> 0 <= cf -> band_output (erb_channel (L := LibmR) sr cf) sig = Ret y -> silent_list y -> silent_list sig.
Proof.
  intros Hs Hc H HY. pose proof (gain_nonzero sr cf Hs Hc) as G. pose proof (coef_A0 sr cf) as A0.
  assert (P : e_A0 (erb_channel (L := LibmR) sr cf) <> 0). { rewrite A0. pose proof (IZR_lt _ _ Hs). apply Rgt_not_eq. unfold Rgt. cbn. apply Rdiv_lt_0_compat; lra. }
  unfold band_output, band_filter, zero_cond in H. change (@n0 R NumR) with 0 in H.
  apply bind_ret in H. destruct H as ([y' cc] & H & E). injection E as ->.
  apply bind_ret in H. destruct H as ([y1 g1] & H1 & H). apply bind_ret in H. destruct H as ([y2 g2] & H2 & H).
  apply bind_ret in H. destruct H as ([y3 g3] & H3 & H). apply bind_ret in H. destruct H as ([y4 g4] & H4 & H). injection H as -> _.
  apply (filter_zero _ _ _ _ _ _ _ _ _ P) in H4; [|exact HY]. apply (filter_zero _ _ _ _ _ _ _ _ _ P) in H3; [|exact H4]. apply (filter_zero _ _ _ _ _ _ _ _ _ P) in H2; [|exact H3].
  apply filter_zero in H1; [exact H1| |exact H2]. cbn [ndiv NumR]. intros E. apply Rmult_integral in E. destruct E as [E|E]; [contradiction|]. now apply Rinv_neq_0_compat in E.
Qed.
Lemma rms_zero (y : list R) : row_rms y = 0 -> silent_list y.
Proof.
  rewrite row_rms_R. intros H x Hx. assert (P : 0 < INR (length y)) by (apply lt_0_INR; destruct y; [destruct Hx|cbn; lia]).
  assert (Q : forall l : list R, 0 <= rsum (map (fun x => x * x) l)) by (induction l as [|v l IH]; cbn; nra).
  apply sqrt_eq_0 in H; [|apply Rmult_le_pos; [apply Q|left; now apply Rinv_0_lt_compat]].
  assert (E : rsum (map (fun x => x * x) y) = 0). { apply (f_equal (fun z => z * INR (length y))) in H. unfold Rdiv in H. rewrite Rmult_assoc, Rinv_l, Rmult_1_r, Rmult_0_l in H by lra. exact H. }
  clear H P. induction y as [|v y IH]; [destruct Hx|]. cbn [map rsum] in E. pose proof (Q y). assert (0 <= v * v) by nra.
  destruct Hx as [->|Hx]; [nra|]. apply IH; [exact Hx|lra].
Qed.
Lemma hann_inside n i : (1 <= i)%nat -> (i + 2 <= n)%nat -> 0 < hann n i.
Proof.
  intros H1 H2. rewrite hann_R. set (x := 2 * PI * INR i / (INR n - 1)).
  assert (N0 : 1 <= INR i) by (change 1 with (INR 1); apply le_INR; exact H1). assert (N1 : INR i + 2 <= INR n) by (pose proof (le_INR _ _ H2) as Q; rewrite plus_INR in Q; change (INR 2) with 2 in Q; exact Q).
  pose proof PI_RGT_0 as HP. assert (E : x = 2 * (PI * INR i / (INR n - 1))) by (unfold x; field; lra). rewrite E, cos_2a_sin.
  assert (0 < sin (PI * INR i / (INR n - 1))).
  { apply sin_gt_0; [apply Rdiv_lt_0_compat; nra|]. apply Rmult_lt_reg_r with (INR n - 1); [lra|]. unfold Rdiv. rewrite Rmult_assoc, Rinv_l by lra. nra. }
  nra.
Qed.

(** the entries of a spectrogram *)
Lemma cell_positive (speech : bool) (k : bank R) (s : audio R) w h S b c i : (0 < au_sr s)%Z -> 0 <= bk_min k -> hop_size w = Some h -> (1 <= h)%Z -> (w_size w < length (au_data s))%nat ->
  snd (build speech k s w) = Ret S -> (b < nrows (sp_data S))%nat -> (c < ncols (sp_data S))%nat ->
  (1 <= i)%nat -> (i + 2 <= w_size w)%nat -> nth (c * Z.to_nat h + i) (au_data s) 0 <> 0 -> 0 < at_ (sp_data S) b c.
Proof.
  intros Hs Hl EH H1 HW ES Hb Hc I1 I2 NZ. destruct (build_ret speech k s w h EH H1 HW) as (S' & ES' & _ & N & C & _ & IN & _ & V). rewrite ES in ES'. injection ES' as <-.
  rewrite N in Hb. rewrite C in Hc. destruct (V b c (erb_channel (au_sr s) 0) Hb Hc) as (f & y & F1 & F2 & F3 & F4). rewrite F4.
  destruct (Rle_lt_or_eq_dec 0 (row_rms y) (row_rms_nonneg y)) as [P|P]; [exact P|]. exfalso. symmetry in P. apply rms_zero in P.
  assert (Hh : 0 <= @builder_max_freq R NumR speech (au_sr s)).
  { unfold builder_max_freq. destruct speech; cbn [nofZ ndiv NumR]; [lra|]. pose proof (IZR_lt _ _ Hs). lra. }
  assert (LF : length (frame w (au_data s) (c * Z.to_nat h)) = w_size w) by (apply frame_length; apply IN; exact Hc).
  destruct (apply_hann_spec w _ LF) as (f' & F1' & LF' & VF). rewrite F1 in F1'. injection F1' as <-.
  set (m := make_filters (L := LibmR) (au_sr s) (bk_bands k) (bk_min k) (builder_max_freq speech (au_sr s))) in *.
  destruct (make_filters_length (T := R) (L := LibmR) (au_sr s) (bk_bands k) (bk_min k) (builder_max_freq speech (au_sr s))) as [L1 L2]. fold m in L1, L2.
  rewrite rev_nth in F2 by lia. set (j := (length (fst m) - Datatypes.S b)%nat) in *.
  assert (M : In (nth j (fst m) (erb_channel (au_sr s) 0), nth j (snd m) 0) (combine (fst m) (snd m))) by (apply bank_member; unfold j; lia).
  destruct (made_filter _ _ _ _ _ _ Hs Hl Hh M) as [E Ec]. rewrite E in F2.
  pose proof (band_zero _ _ _ _ Hs Ec F2 P) as Z. destruct (VF i ltac:(lia)) as [Z1 _].
  assert (Z2 : nth i f 0 = 0) by (apply Z, nth_In; lia). rewrite Z1 in Z2. pose proof (hann_inside (w_size w) i I1 I2) as HP.
  apply Rmult_integral in Z2. destruct Z2 as [Z2|Z2]; [lra|]. apply NZ. unfold frame in Z2. rewrite nth_firstn in Z2 by lia. rewrite nth_skipn in Z2. exact Z2.
Qed.
Lemma cell_silent (speech : bool) (k : bank R) (s : audio R) w h S b c : (0 < au_sr s)%Z -> 0 <= bk_min k -> hop_size w = Some h -> (1 <= h)%Z -> (w_size w < length (au_data s))%nat ->
  snd (build speech k s w) = Ret S -> (b < nrows (sp_data S))%nat -> (c < ncols (sp_data S))%nat ->
  (forall i, (i < w_size w)%nat -> nth (c * Z.to_nat h + i) (au_data s) 0 = 0) -> at_ (sp_data S) b c = 0.
Proof.
  intros Hs Hl EH H1 HW ES Hb Hc HZ. destruct (build_ret speech k s w h EH H1 HW) as (S' & ES' & _ & N & C & _ & IN & _ & V). rewrite ES in ES'. injection ES' as <-.
  rewrite N in Hb. rewrite C in Hc. destruct (V b c (erb_channel (au_sr s) 0) Hb Hc) as (f & y & F1 & F2 & F3 & F4). rewrite F4.
  assert (Hh : 0 <= @builder_max_freq R NumR speech (au_sr s)).
  { unfold builder_max_freq. destruct speech; cbn [nofZ ndiv NumR]; [lra|]. pose proof (IZR_lt _ _ Hs). lra. }
  assert (LF : length (frame w (au_data s) (c * Z.to_nat h)) = w_size w) by (apply frame_length; apply IN; exact Hc).
  destruct (bank_bound (au_sr s) (bk_bands k) (bk_min k) _ Hs Hl Hh) as (K & K0 & HK).
  assert (B : forall v, In v y -> Rabs v <= K * 0).
  { apply (HK b (erb_channel (au_sr s) 0) 0 f y Hb); [|lra|exact F2]. apply (hann_bound w _ f 0 LF F1). intros x Hx. destruct (In_nth _ _ 0 Hx) as (i & Hi & <-).
    unfold frame. rewrite nth_firstn by lia. rewrite nth_skipn, HZ by lia. rewrite Rabs_R0. lra. }
  rewrite Rmult_0_r in B. pose proof (rms_bound y 0 ltac:(lra) B). lra.
Qed.
