(** The array-level spectrogram builder computes what the band-by-band model says (C89): frames. *)
From Coq Require Import ZArith List Bool Lia Arith ZifyBool ZifyNat.
From Verif Require Import Base.Res Base.Num Base.Cplx Base.Lists Base.Mat Model.Amatrix Model.MiscMath
  Model.Window Model.SignalFilter Model.Erb Model.Spectrogram Model.FilterBank Model.BankArrays Proofs.ConvP Proofs.BankP Proofs.BankArraysP.
Import ListNotations.

Section Generic.
  Context {T : Type} {N : Num T} {L : Libm T}.
  Lemma apply_arrays (k : bank T) sig ys k' : bank_ok k -> apply_filter (reset_conditions k) sig = Ret (ys, k') ->
    vapply (vreset (arrays_of k)) sig = Ret (tab (bk_bands k) (length sig) (fun r c => nth c (nth r ys []) n0), arrays_of k') /\
    length ys = bk_bands k /\ forall b, (b < bk_bands k)%nat -> length (nth b ys []) = length sig.
  Proof.
    intros Hk HE. destruct (apply_filter_ret k sig Hk) as (ys2 & k2 & E2 & L1 & _ & _ & _ & HB). rewrite HE in E2. injection E2 as <- <-.
    assert (Hy : forall b, (b < bk_bands k)%nat -> length (nth b ys []) = length sig) by (intros b Hb; exact (proj2 (HB b ez Hb))).
    split; [|split; [exact L1|exact Hy]].
    rewrite vreset_arrays. unfold apply_filter, reset_conditions in *. cbn [bk_coef bk_cond bk_bands bk_min] in *.
    destruct (bands_filter (bk_coef k) (repeat zero_cond (bk_bands k)) (bk_bands k) sig) as [[ys' fs]| | |] eqn:EB; try discriminate.
    cbn [bind] in HE. injection HE as <- <-.
    apply apply_run; [exact Hk|apply repeat_length|exact EB|exact Hy].
  Qed.
  Lemma frames_run (w : window T) hop sig nc : (0 < w_size w)%nat -> forall n m k P cols k',
    bank_ok k -> (m + n <= nc)%nat -> build_frames w hop sig (seq m n) k = Ret (cols, k') ->
    vframes w hop sig (tab (bk_bands k) nc P, arrays_of k) (seq m n) =
    Ret (tab (bk_bands k) nc (fun r c => if Nat.ltb c m then P r c else if Nat.ltb c (m + n) then nth r (nth (c - m) cols []) n0 else P r c), arrays_of k').
  Proof.
    intros Hw. induction n as [|n IH]; intros m k P cols k' Hk Hm HE.
    - cbn [seq build_frames vframes] in *. injection HE as <- <-. f_equal. f_equal. apply (tab_ext n0). intros r c Hr Hc.
      destruct (Nat.ltb_spec c m); [reflexivity|]. replace (c <? m + 0)%nat with false by lia. reflexivity.
    - cbn [seq build_frames vframes] in *. unfold vframe.
      destruct (Nat.ltb_spec (length sig) (m * hop + w_size w)) as [Hlt|Hge]; [discriminate|].
      destruct (apply_hann_ret w (frame w sig (m * hop)) (frame_length _ _ _ Hge)) as (f & Ef & Lf). unfold frame in Ef. rewrite Ef in *. cbn [bind] in *.
      destruct (apply_filter (reset_conditions k) f) as [[ys k1]| | |] eqn:EA; try discriminate. cbn [bind] in HE.
      destruct (apply_arrays k f ys k1 Hk EA) as (EV & L1 & HY). rewrite EV. cbn [bind].
      destruct (apply_filter_ret k f Hk) as (ys2 & k2 & E2 & _ & K1 & K2 & K3 & _). rewrite EA in E2. injection E2 as <- <-.
      destruct (build_frames w hop sig (seq (S m) n) k1) as [[cols1 k3]| | |] eqn:EF; try discriminate. cbn [bind] in HE. injection HE as <- <-.
      destruct (rows_rms (bk_bands k) ys (length f) L1 ltac:(lia) HY) as (R1 & R2). rewrite R1, R2. cbn [Nat.eqb negb].
      rewrite set_col_tab; [|cbn [ncols tab]; lia|rewrite map_length; cbn [nrows tab]; exact L1]. cbn [bind nrows ncols tab].
      rewrite <- K1. erewrite IH; [|unfold bank_ok in *; congruence|lia|exact EF]. f_equal. f_equal. apply (tab_ext n0). intros r c Hr Hc. rewrite K1 in Hr.
      unfold at_. change (MkMat (bk_bands k1) nc ?e) with (MkMat (bk_bands k1) nc e).
      destruct (Nat.ltb_spec c (S m)) as [H1|H1].
      + destruct (Nat.eqb_spec c m) as [->|H2].
        * replace (m <? m)%nat with false by lia. replace (m <? m + S n)%nat with true by lia. rewrite Nat.sub_diag. reflexivity.
        * replace (c <? m)%nat with true by lia. rewrite (mget_tab n0) by lia. reflexivity.
      + replace (c <? m)%nat with false by lia. replace (c <? m + S n)%nat with (c <? S m + n)%nat by lia. destruct (Nat.ltb_spec c (S m + n)) as [H2|H2].
        * replace (c - m)%nat with (S (c - S m)) by lia. reflexivity.
        * replace (c =? m)%nat with false by lia. rewrite (mget_tab n0) by lia. reflexivity.
  Qed.
  (** in-range frames *)
  Lemma frames_in_range n w hop i : (w < n)%nat -> (0 < hop)%nat -> (i < 1 + (n - w) / hop)%nat -> (i * hop + w <= n)%nat.
  Proof. intros Hw Hh Hi. assert (i <= (n - w) / hop)%nat by lia. pose proof (Nat.mul_div_le (n - w) hop ltac:(lia)). nia. Qed.

  Variable carg : cplx T -> T.
  Lemma vbuild_run speech (k : bank T) (s : audio T) (w : window T) : (0 < w_size w)%nat ->
    (let m := make_filters (au_sr s) (bk_bands k) (bk_min k) (builder_max_freq speech (au_sr s)) in
     make_filters_arrays carg (au_sr s) (bk_bands k) (bk_min k) (builder_max_freq speech (au_sr s)) = Ret (cols_of (fst m), snd m)) ->
    vbuild carg speech (arrays_of k) s w = (arrays_of (fst (build speech k s w)), snd (build speech k s w)).
  Proof.
    intros Hw HM. cbv zeta in HM. unfold vbuild. cbn [vb_bands vb_min arrays_of]. rewrite HM. cbn [bind].
    set (m := make_filters _ _ _ _) in *.
    destruct (m_of_cols (cols_of (fst m))) as [M| | |] eqn:EM; try (rewrite (of_cols _ (length (fst m))) in EM by (discriminate || apply cols_lengths); discriminate).
    cbn [bind]. fold (arrays_of k). rewrite (vset_ret (arrays_of k) (fst m) M EM). cbn [bind].
    pose proof (prepared_bank_spec speech k (au_sr s)) as HP. unfold build. destruct (prepared_bank speech k (au_sr s)) as [k1 cfb] eqn:EP.
    destruct HP as (B1 & B2 & B3 & B4 & B5 & B6). fold m in B5, B6.
    assert (EK : vreset (MkVBank (vb_bands (arrays_of k)) (vb_min (arrays_of k)) (vb_c1 (arrays_of k)) (vb_c2 (arrays_of k)) (vb_c3 (arrays_of k)) (vb_c4 (arrays_of k)) (cols_of (rev (fst m)))) = arrays_of k1).
    { assert (K : k1 = reset_conditions (set_coefficients k (rev (fst m)))) by (unfold prepared_bank in EP; fold m in EP; destruct m as [cs cfs]; injection EP as <- _; reflexivity).
      rewrite K, <- vreset_arrays. reflexivity. }
    rewrite EK. rewrite <- B6. clear EK EM M.
    destruct (hop_size w) as [hop|]; [|reflexivity].
    destruct (Nat.leb_spec (length (au_data s)) (w_size w)) as [H1|H1]; [reflexivity|].
    destruct (Z.leb_spec hop 0) as [H2|H2]; [reflexivity|].
    set (nc := (1 + (length (au_data s) - w_size w) / Z.to_nat hop)%nat).
    destruct (build_frames_ret w (Z.to_nat hop) (au_data s) (seq 0 nc) k1 B1) as (cols & k2 & EF & L1 & _ & _ & _ & HC).
    { apply Forall_forall. intros i Hi. apply in_seq in Hi. apply frames_in_range; lia. }
    rewrite seq_length in L1.
    unfold m_new, m_filled. change (vb_bands (arrays_of k1)) with (bk_bands k1).
    rewrite (frames_run w (Z.to_nat hop) (au_data s) nc Hw nc 0 k1 (fun _ _ => n0) cols k2 B1 ltac:(lia) EF). rewrite EF. cbn [fst snd].
    f_equal. f_equal. f_equal. rewrite B2. apply (mat_ext n0); [apply tab_wf| |reflexivity|reflexivity|].
    - unfold wf. cbn [elems nrows ncols]. rewrite (concat_length_const cols (bk_bands k)); [rewrite L1; lia|].
      apply Forall_forall. intros l Hl. destruct (In_nth _ _ [] Hl) as (j & Hj & <-). rewrite <- B2. apply HC. rewrite seq_length. lia.
    - cbn [nrows ncols tab]. intros r c Hr Hcc. rewrite (mget_tab n0) by assumption. change (c <? 0)%nat with false. change (0 + nc)%nat with nc. cbv iota.
      replace (c <? nc)%nat with true by lia. rewrite Nat.sub_0_r. unfold mget. cbn [nrows elems].
      rewrite (nth_concat_const cols (bk_bands k)); [reflexivity| |lia|exact Hr].
      apply Forall_forall. intros l Hl. destruct (In_nth _ _ [] Hl) as (j & Hj & <-). rewrite <- B2. apply HC. rewrite seq_length. lia.
  Qed.
End Generic.
