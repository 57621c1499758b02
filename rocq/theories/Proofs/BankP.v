(** Proofs about the filter bank and the spectrogram builder (C05, C38, C39). *)
From Coq Require Import ZArith List Bool Reals Lra Lia Arith.
From Verif Require Import Base.Res Base.Num Base.NumR Base.Cplx Base.Lists Base.Mat Model.Amatrix
  Model.MiscMath Model.Window Model.SignalFilter Model.Erb Model.Spectrogram Model.FilterBank
  Proofs.RealP Proofs.FilterP Proofs.WindowP.
Import ListNotations.

Section Generic.
  Context {T : Type} {N : Num T} {L : Libm T}.

  (** output of one band started from zero conditions *)
  Definition band_output (c : erb_coeffs T) (sig : list T) : res (list T) :=
    do '(y, _) <- band_filter c zero_cond sig; Ret y.

  Lemma signal_filter_3 (b0 b1 b2 a0 a1 a2 : T) sig ic :
    (length ic <= 3)%nat -> exists y f,
    signal_filter [b0; b1; b2] [a0; a1; a2] sig ic = Ret (y, f) /\ length y = length sig /\
    length f = 2%nat.
  Proof.
    intros H. rewrite signal_filter_unfold by (cbn [length]; lia).
    eexists _, _. split; [reflexivity|].
    destruct (filter_loop_lengths [b0; b1; b2] [a0; a1; a2] sig (pad (length [a0; a1; a2]) ic)) as [A B].
    split; [exact A|]. rewrite pad_length in B by exact H. rewrite firstn_length_le; cbn [length] in *; lia.
  Qed.

  Definition cond_ok (f : list T * list T * list T * list T) : Prop :=
    let '(f1, f2, f3, f4) := f in
    (length f1 <= 3 /\ length f2 <= 3 /\ length f3 <= 3 /\ length f4 <= 3)%nat.
  Lemma zero_cond_ok : cond_ok zero_cond.
  Proof. cbn. lia. Qed.

  Lemma band_filter_ret c f sig : cond_ok f ->
    exists y f', band_filter c f sig = Ret (y, f') /\ length y = length sig /\ cond_ok f'.
  Proof.
    destruct f as [[[f1 f2] f3] f4]. intros (H1 & H2 & H3 & H4). unfold band_filter.
    destruct (signal_filter_3 (ndiv (e_A0 c) (e_gain c)) (ndiv (e_A11 c) (e_gain c))
      (ndiv (e_A2 c) (e_gain c)) (e_B0 c) (e_B1 c) (e_B2 c) sig f1 H1) as (y1 & g1 & E1 & L1 & G1).
    rewrite E1. cbn [bind].
    destruct (signal_filter_3 (e_A0 c) (e_A12 c) (e_A2 c) (e_B0 c) (e_B1 c) (e_B2 c) y1 f2 H2)
      as (y2 & g2 & E2 & L2 & G2).
    rewrite E2. cbn [bind].
    destruct (signal_filter_3 (e_A0 c) (e_A13 c) (e_A2 c) (e_B0 c) (e_B1 c) (e_B2 c) y2 f3 H3)
      as (y3 & g3 & E3 & L3 & G3).
    rewrite E3. cbn [bind].
    destruct (signal_filter_3 (e_A0 c) (e_A14 c) (e_A2 c) (e_B0 c) (e_B1 c) (e_B2 c) y3 f4 H4)
      as (y4 & g4 & E4 & L4 & G4).
    rewrite E4. cbn [bind].
    eexists _, _. split; [reflexivity|]. split; [congruence|]. cbn. lia.
  Qed.

  Lemma bands_filter_ret sig : forall n cs fs,
    (n <= length cs)%nat -> length fs = n -> Forall (fun f => f = zero_cond) fs ->
    exists ys fs', bands_filter cs fs n sig = Ret (ys, fs') /\ length ys = n /\ length fs' = n /\
      forall b d, (b < n)%nat -> band_output (nth b cs d) sig = Ret (nth b ys []) /\
        length (nth b ys []) = length sig.
  Proof.
    induction n as [|n IH]; intros cs fs Hc Hf HF.
    - destruct fs; [|discriminate]. eexists _, _. split; [destruct cs; reflexivity|].
      split; [reflexivity|]. split; [reflexivity|]. intros; lia.
    - destruct cs as [|c cs]; [cbn [length] in Hc; lia|].
      destruct fs as [|f fs]; [discriminate|]. inversion HF as [|? ? Hz HF' E1]; subst.
      cbn [length] in Hc. injection Hf as Hf.
      destruct (band_filter_ret c zero_cond sig zero_cond_ok) as (y & f' & E & Ly & _).
      destruct (IH cs fs ltac:(lia) Hf HF') as (ys & fs' & E' & L1 & L2 & HB).
      cbn [bands_filter]. rewrite E. cbn [bind]. rewrite E'. cbn [bind].
      eexists _, _. split; [reflexivity|]. split; [cbn; lia|]. split; [cbn; lia|].
      intros [|b] d Hb; cbn [nth].
      + unfold band_output. rewrite E. split; [reflexivity|exact Ly].
      + apply HB; lia.
  Qed.

  Definition bank_ok (k : bank T) : Prop := length (bk_coef k) = bk_bands k.

  Lemma apply_filter_ret (k : bank T) sig : bank_ok k ->
    exists ys k', apply_filter (reset_conditions k) sig = Ret (ys, k') /\
      length ys = bk_bands k /\
      bk_bands k' = bk_bands k /\ bk_min k' = bk_min k /\ bk_coef k' = bk_coef k /\
      forall b d, (b < bk_bands k)%nat -> band_output (nth b (bk_coef k) d) sig = Ret (nth b ys []) /\
        length (nth b ys []) = length sig.
  Proof.
    intros H. unfold apply_filter, reset_conditions. cbn [bk_coef bk_cond bk_bands bk_min].
    destruct (bands_filter_ret sig (bk_bands k) (bk_coef k) (repeat zero_cond (bk_bands k)))
      as (ys & fs & E & L1 & L2 & HB).
    - rewrite H; lia.
    - apply repeat_length.
    - apply Forall_forall. intros x Hx. apply repeat_spec in Hx. exact Hx.
    - rewrite E. cbn [bind]. eexists _, _. split; [reflexivity|]. cbn. auto.
  Qed.

  (** apply_filter after a reset depends on the bank's size, minimum and coefficients only *)
  Lemma reset_depends (k k' : bank T) :
    bk_bands k = bk_bands k' -> bk_min k = bk_min k' -> bk_coef k = bk_coef k' ->
    reset_conditions k = reset_conditions k'.
  Proof. unfold reset_conditions. intros -> -> ->. reflexivity. Qed.

  Lemma apply_hann_ret (w : window T) sig : length sig = w_size w ->
    exists out, apply_hann w sig = Ret out /\ length out = w_size w.
  Proof.
    intros H. unfold apply_hann.
    replace (Nat.ltb (length sig) (w_size w)) with false by (symmetry; apply Nat.ltb_ge; lia).
    eexists. split; [reflexivity|]. rewrite map_length, seq_length. exact H.
  Qed.

  (** the frame starting at sample [start] *)
  Definition frame (w : window T) (sig : list T) (start : nat) : list T :=
    firstn (w_size w) (skipn start sig).
  Lemma frame_length w sig start : (start + w_size w <= length sig)%nat ->
    length (frame w sig start) = w_size w.
  Proof. intros H. unfold frame. rewrite firstn_length_le; [reflexivity|]. rewrite skipn_length. lia. Qed.

  Lemma build_frames_ret (w : window T) hop sig : forall is k,
    bank_ok k -> Forall (fun i => (i * hop + w_size w <= length sig)%nat) is ->
    exists cols k', build_frames w hop sig is k = Ret (cols, k') /\
      length cols = length is /\
      bk_bands k' = bk_bands k /\ bk_min k' = bk_min k /\ bk_coef k' = bk_coef k /\
      forall j, (j < length is)%nat ->
        length (nth j cols []) = bk_bands k /\
        forall b d, (b < bk_bands k)%nat -> exists f y,
          apply_hann w (frame w sig (nth j is 0%nat * hop)) = Ret f /\
          band_output (nth b (bk_coef k) d) f = Ret y /\ length y = w_size w /\
          nth b (nth j cols []) n0 = row_rms y.
  Proof.
    induction is as [|i is IH]; intros k Hk HF.
    - eexists _, _. split; [reflexivity|]. repeat (split; [reflexivity|]). cbn. intros; lia.
    - inversion HF as [|? ? Hi HF']; subst. cbn [build_frames].
      replace (Nat.ltb (length sig) (i * hop + w_size w)) with false by (symmetry; apply Nat.ltb_ge; lia).
      destruct (apply_hann_ret w (frame w sig (i * hop)) (frame_length _ _ _ Hi)) as (f & Ef & Lf).
      change (firstn (w_size w) (skipn (i * hop) sig)) with (frame w sig (i * hop)).
      rewrite Ef. cbn [bind].
      destruct (apply_filter_ret k f Hk) as (ys & k1 & E1 & L1 & K1 & K2 & K3 & HB).
      rewrite E1. cbn [bind].
      destruct (IH k1 ltac:(unfold bank_ok in *; congruence) HF') as (cols & k2 & E2 & L2 & M1 & M2 & M3 & HC).
      rewrite E2. cbn [bind]. eexists _, _. split; [reflexivity|].
      split; [cbn [length]; lia|]. split; [congruence|]. split; [congruence|]. split; [congruence|].
      intros [|j] Hj; cbn [nth].
      + split; [rewrite map_length; exact L1|]. intros b d Hb.
        destruct (HB b d Hb) as [HB1 HB2].
        exists f, (nth b ys []). split; [exact Ef|]. split; [exact HB1|]. split; [congruence|].
        rewrite nth_indep with (d' := row_rms []) by (rewrite map_length; lia).
        rewrite map_nth. reflexivity.
      + cbn [length] in Hj. destruct (HC j ltac:(lia)) as [HC1 HC2]. split; [congruence|].
        intros b d Hb. rewrite K3 in HC2. apply HC2. congruence.
  Qed.

  Lemma build_frames_depends (w : window T) hop sig is k k' :
    bk_bands k = bk_bands k' -> bk_min k = bk_min k' -> bk_coef k = bk_coef k' ->
    (do '(c, _) <- build_frames w hop sig is k; Ret c) =
    (do '(c, _) <- build_frames w hop sig is k'; Ret c).
  Proof.
    intros A B C. destruct is as [|i is]; [reflexivity|]. cbn [build_frames].
    rewrite (reset_depends k k' A B C). reflexivity.
  Qed.

  Lemma make_filters_length sr n (lo hi : T) :
    length (fst (make_filters sr n lo hi)) = n /\ length (snd (make_filters sr n lo hi)) = n.
  Proof.
    unfold make_filters, center_freqs. cbn [fst snd]. rewrite !map_length, seq_length. auto.
  Qed.

  Lemma prepared_bank_spec speech (k : bank T) sr :
    let '(k1, cfb) := prepared_bank speech k sr in
    bank_ok k1 /\ bk_bands k1 = bk_bands k /\ bk_min k1 = bk_min k /\ length cfb = bk_bands k /\
    bk_coef k1 = rev (fst (make_filters sr (bk_bands k) (bk_min k) (builder_max_freq speech sr))) /\
    cfb = rev (snd (make_filters sr (bk_bands k) (bk_min k) (builder_max_freq speech sr))).
  Proof.
    unfold prepared_bank.
    pose proof (make_filters_length sr (bk_bands k) (bk_min k) (builder_max_freq speech sr)) as [A B].
    destruct (make_filters _ _ _ _) as [cs cfs]. cbn [fst snd] in *.
    unfold bank_ok, reset_conditions, set_coefficients; cbn.
    rewrite !rev_length. repeat split; assumption.
  Qed.

  (** the whole builder *)
  Lemma concat_length_const {A} (ll : list (list A)) n :
    Forall (fun l => length l = n) ll -> length (concat ll) = (length ll * n)%nat.
  Proof. induction 1 as [|l ll H _ IH]; [reflexivity|]. cbn [concat length]. rewrite app_length, IH, H. lia. Qed.
  Lemma nth_concat_const {A} (ll : list (list A)) n c r d :
    Forall (fun l => length l = n) ll -> (c < length ll)%nat -> (r < n)%nat ->
    nth (c * n + r) (concat ll) d = nth r (nth c ll []) d.
  Proof.
    intros HF. revert c; induction HF as [|l ll H HF IH]; intros c Hc Hr; [cbn in Hc; lia|].
    destruct c as [|c]; cbn [concat nth Nat.mul Nat.add].
    - apply app_nth1; lia.
    - rewrite app_nth2 by lia. replace (n + c * n + r - length l)%nat with (c * n + r)%nat by lia.
      apply IH; [cbn [length] in Hc; lia|assumption].
  Qed.

  Lemma build_short speech (k : bank T) s w h :
    hop_size w = Some h -> (length (au_data s) <= w_size w)%nat ->
    snd (build speech k s w) = Err InvalidArgument.
  Proof.
    intros E H. unfold build. destruct (prepared_bank speech k (au_sr s)) as [k1 cfb]. rewrite E.
    replace (Nat.leb (length (au_data s)) (w_size w)) with true by (symmetry; apply Nat.leb_le; lia).
    reflexivity.
  Qed.

  Lemma build_zero_hop speech (k : bank T) s w :
    hop_size w = Some 0%Z -> (w_size w < length (au_data s))%nat ->
    snd (build speech k s w) = Ub.
  Proof.
    intros E H. unfold build. destruct (prepared_bank speech k (au_sr s)) as [k1 cfb]. rewrite E.
    replace (Nat.leb (length (au_data s)) (w_size w)) with false by (symmetry; apply Nat.leb_gt; lia).
    reflexivity.
  Qed.

  Lemma build_ret speech (k : bank T) s w h :
    hop_size w = Some h -> (1 <= h)%Z -> (w_size w < length (au_data s))%nat ->
    let hop := Z.to_nat h in
    let n := length (au_data s) in
    let cols := (1 + (n - w_size w) / hop)%nat in
    let filters := make_filters (au_sr s) (bk_bands k) (bk_min k) (builder_max_freq speech (au_sr s)) in
    exists S, snd (build speech k s w) = Ret S /\
      wf (sp_data S) /\ nrows (sp_data S) = bk_bands k /\ ncols (sp_data S) = cols /\
      sp_cfb S = rev (snd filters) /\
      (forall c, (c < cols)%nat -> (c * hop + w_size w <= n)%nat) /\
      (n < cols * hop + w_size w)%nat /\
      forall b c d, (b < bk_bands k)%nat -> (c < cols)%nat -> exists f y,
        apply_hann w (frame w (au_data s) (c * hop)) = Ret f /\
        band_output (nth b (rev (fst filters)) d) f = Ret y /\ length y = w_size w /\
        at_ (sp_data S) b c = row_rms y.
  Proof.
    intros E Hh Hn hop n cols filters. unfold build.
    pose proof (prepared_bank_spec speech k (au_sr s)) as PB.
    destruct (prepared_bank speech k (au_sr s)) as [k1 cfb].
    destruct PB as (P1 & P2 & P3 & P4 & P5 & P6). fold filters in P5, P6. rewrite E. fold n.
    replace (Nat.leb n (w_size w)) with false by (symmetry; apply Nat.leb_gt; exact Hn).
    replace (h <=? 0)%Z with false by (symmetry; apply Z.leb_gt; lia).
    fold hop. fold cols.
    assert (Hhop : (1 <= hop)%nat) by (unfold hop; lia).
    assert (Hin : forall c, (c < cols)%nat -> (c * hop + w_size w <= n)%nat).
    { intros c Hc. unfold cols in Hc.
      pose proof (Nat.div_mod (n - w_size w) hop ltac:(lia)) as D. fold n in Hn.
      generalize dependent ((n - w_size w) / hop)%nat.
      generalize ((n - w_size w) mod hop)%nat. intros m q Hq D. nia. }
    destruct (build_frames_ret w hop (au_data s) (seq 0 cols) k1 P1) as (cs & k2 & EB & LB & K1 & K2 & K3 & HC).
    { apply Forall_forall. intros c Hc. apply in_seq in Hc. apply Hin. lia. }
    rewrite EB. rewrite seq_length in LB, HC.
    assert (HF : Forall (fun l => length l = bk_bands k) cs).
    { apply Forall_forall. intros l Hl. destruct (In_nth cs l [] Hl) as (j & Hj & <-).
      rewrite <- P2. apply HC. lia. }
    eexists. split; [reflexivity|]. cbn [sp_data sp_cfb nrows ncols].
    split.
    { unfold wf. cbn [elems nrows ncols]. rewrite (concat_length_const _ (bk_bands k)) by exact HF.
      rewrite LB. lia. }
    split; [reflexivity|]. split; [reflexivity|]. split; [exact P6|]. split; [exact Hin|].
    split.
    { unfold cols. pose proof (Nat.div_mod (n - w_size w) hop ltac:(lia)) as D.
      pose proof (Nat.mod_upper_bound (n - w_size w) hop ltac:(lia)). fold n in Hn.
      generalize dependent ((n - w_size w) / hop)%nat.
      generalize dependent ((n - w_size w) mod hop)%nat. intros m Hm q D. nia. }
    intros b c d Hb Hc. destruct (HC c Hc) as [_ HC2].
    destruct (HC2 b d ltac:(lia)) as (f & y & A1 & A2 & A3 & A4).
    rewrite seq_nth in A1 by lia. rewrite P5 in A2. exists f, y.
    split; [exact A1|]. split; [exact A2|]. split; [exact A3|].
    unfold at_, mget. cbn [nrows elems]. rewrite nth_concat_const; [exact A4|exact HF|lia|exact Hb].
  Qed.

  (** the result does not depend on conditions and coefficients left in the bank *)
  Lemma build_depends speech (k k' : bank T) s w :
    bk_bands k = bk_bands k' -> bk_min k = bk_min k' ->
    snd (build speech k s w) = snd (build speech k' s w) /\
    bk_bands (fst (build speech k s w)) = bk_bands k /\ bk_min (fst (build speech k s w)) = bk_min k.
  Proof.
    intros A B.
    assert (EP : prepared_bank speech k (au_sr s) = prepared_bank speech k' (au_sr s)).
    { unfold prepared_bank, reset_conditions, set_coefficients. rewrite A, B.
      destruct (make_filters _ _ _ _). reflexivity. }
    unfold build. rewrite EP.
    pose proof (prepared_bank_spec speech k' (au_sr s)) as PB.
    destruct (prepared_bank speech k' (au_sr s)) as [k1 cfb].
    destruct PB as (P1 & P2 & P3 & P4 & P5 & P6).
    destruct (hop_size w) as [h|]; [|cbn; rewrite A, B; auto].
    destruct (Nat.leb (length (au_data s)) (w_size w)); [cbn; rewrite A, B; auto|].
    destruct (h <=? 0)%Z; [cbn; rewrite A, B; auto|].
    destruct (build_frames w (Z.to_nat h) (au_data s) _ k1) as [[cols k2]| | |] eqn:E;
      cbn [fst snd]; rewrite ?A, ?B; auto.
    split; [reflexivity|].
    set (is := seq 0 (1 + (length (au_data s) - w_size w) / Z.to_nat h)) in *. clearbody is.
    assert (G : forall is k cols k2, bank_ok k -> build_frames w (Z.to_nat h) (au_data s) is k = Ret (cols, k2) ->
       bk_bands k2 = bk_bands k /\ bk_min k2 = bk_min k).
    { clear. induction is as [|i is IH]; intros k cols k2 Hk E; cbn [build_frames] in E.
      - injection E as <- <-. auto.
      - destruct (Nat.ltb _ _); [discriminate|].
        destruct (apply_hann w _) as [f| | |]; try discriminate. cbn [bind] in E.
        destruct (apply_filter_ret k f Hk) as (ys & k' & E1 & _ & K1 & K2 & K3 & _).
        rewrite E1 in E. cbn [bind] in E.
        destruct (build_frames w (Z.to_nat h) (au_data s) is k') as [[c2 k3]| | |] eqn:E2; try discriminate.
        cbn [bind] in E. injection E as <- <-.
        destruct (IH k' c2 k3 ltac:(unfold bank_ok in *; congruence) E2). split; congruence. }
    destruct (G is k1 cols k2 P1 E). split; congruence.
  Qed.
End Generic.

Open Scope R_scope.
Lemma row_rms_nonneg (y : list R) : 0 <= row_rms y.
Proof. apply sqrt_pos. Qed.
Lemma row_rms_R (y : list R) : row_rms y = sqrt (rsum (map (fun x => x * x) y) / INR (length y)).
Proof. unfold row_rms, vmean. rewrite nsum_rsum, nofnat_INR, map_length. reflexivity. Qed.
