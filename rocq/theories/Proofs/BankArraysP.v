(** The array-level filter bank computes what the band-by-band model says (C89): structure. *)
From Coq Require Import ZArith List Bool Lia Arith ZifyBool ZifyNat.
From Verif Require Import Base.Res Base.Num Base.Cplx Base.Lists Base.Mat Model.Amatrix Model.MiscMath
  Model.Window Model.SignalFilter Model.Erb Model.Spectrogram Model.FilterBank Model.BankArrays Proofs.ConvP Proofs.BankP.
Import ListNotations.

Section Generic.
  Context {T : Type} {N : Num T} {L : Libm T}.

  (** *** loops over arrays *)
  Lemma fill_ret {A} (f : nat -> res A) (g : nat -> A) : forall is, (forall i, In i is -> f i = Ret (g i)) -> fill f is = Ret (map g is).
  Proof.
    induction is as [|i is IH]; intros H; [reflexivity|]. cbn [fill]. rewrite (H i) by (left; reflexivity). cbn [bind].
    rewrite IH by (intros j Hj; apply H; right; exact Hj). reflexivity.
  Qed.
  Lemma map_seq_nth {A B} (g : A -> B) (l : list A) d : map (fun i => g (nth i l d)) (seq 0 (length l)) = map g l.
  Proof.
    apply nth_ext with (d := g d) (d' := g d); [now rewrite !map_length, seq_length|]. intros i Hi. rewrite map_length, seq_length in Hi.
    rewrite nth_map_seq by exact Hi. rewrite map_nth. reflexivity.
  Qed.
  Lemma rd_nth {A} (l : list A) i d : (i < length l)%nat -> rd l i = Ret (nth i l d).
  Proof. intros H. unfold rd. rewrite (nth_error_nth' l d H). reflexivity. Qed.
  Lemma wr_ret {A} (l : list A) i x : (i < length l)%nat -> wr l i x = Ret (upd l i x).
  Proof. intros H. unfold wr. apply Nat.ltb_lt in H. rewrite H. reflexivity. Qed.
  Lemma for_each_1 {A B C} (g : A -> B) (F : B -> C) (l : list A) h n : n = length l -> h = (fun x => F (g x)) ->
    for_each n (fun i => do a <- rd (map g l) i; Ret (F a)) = Ret (map h l).
  Proof.
    intros -> ->. unfold for_each. destruct l as [|d l]; [reflexivity|]. set (l' := d :: l).
    rewrite (fill_ret _ (fun i => F (g (nth i l' d)))).
    - rewrite (map_seq_nth (fun x => F (g x)) l' d). reflexivity.
    - intros i Hi. apply in_seq in Hi. rewrite (rd_nth _ i (g d)) by (rewrite map_length; lia). cbn [bind]. rewrite map_nth. reflexivity.
  Qed.
  Lemma va1_map {A} (f : cplx T -> cplx T) (g : A -> cplx T) l h : h = (fun x => f (g x)) -> va1 f (map g l) = Ret (map h l).
  Proof. intros E. unfold va1. apply for_each_1; [apply map_length|exact E]. Qed.
  Lemma va2_map {A} (f : cplx T -> cplx T -> cplx T) (g k : A -> cplx T) l h : h = (fun x => f (g x) (k x)) -> va2 f (map g l) (map k l) = Ret (map h l).
  Proof.
    intros ->. unfold va2, for_each. rewrite map_length. destruct l as [|d l]; [reflexivity|]. set (l' := d :: l).
    rewrite (fill_ret _ (fun i => f (g (nth i l' d)) (k (nth i l' d)))).
    - rewrite (map_seq_nth (fun x => f (g x) (k x)) l' d). reflexivity.
    - intros i Hi. apply in_seq in Hi. rewrite (rd_nth _ i (g d)), (rd_nth _ i (k d)) by (rewrite map_length; lia). cbn [bind]. rewrite !map_nth. reflexivity.
  Qed.
  Lemma for_each_2 {A} (F : cplx T -> cplx T -> cplx T) (g k : A -> cplx T) l h n : n = length l -> h = (fun x => F (g x) (k x)) ->
    for_each n (fun i => do c <- rd (map g l) i; do e <- rd (map k l) i; Ret (F c e)) = Ret (map h l).
  Proof. intros ->. intros E. pose proof (va2_map F g k l h E) as H. unfold va2 in H. rewrite map_length in H. exact H. Qed.
  Lemma va_real_map {A} (g : A -> cplx T) l h : h = (fun x => cre (g x)) -> va_real (map g l) = Ret (map h l).
  Proof. intros E. unfold va_real. apply for_each_1; [apply map_length|exact E]. Qed.
  Lemma va_abs_map {A} (g : A -> cplx T) l h : h = (fun x => cabs (g x)) -> va_abs (map g l) = Ret (map h l).
  Proof. intros E. unfold va_abs. apply for_each_1; [apply map_length|exact E]. Qed.

  (** *** the coefficients as ten arrays *)
  Definition cols_of (cs : list (erb_coeffs T)) : list (list T) :=
    [map e_A0 cs; map e_A11 cs; map e_A12 cs; map e_A13 cs; map e_A14 cs; map e_A2 cs; map e_B0 cs; map e_B1 cs; map e_B2 cs; map e_gain cs].
  Definition arrays_of (k : bank T) : vbank T :=
    MkVBank (bk_bands k) (bk_min k) (map (fun c => fst (fst (fst c))) (bk_cond k)) (map (fun c => snd (fst (fst c))) (bk_cond k))
            (map (fun c => snd (fst c)) (bk_cond k)) (map snd (bk_cond k)) (cols_of (bk_coef k)).
  Definition coef_arrays (ls : list (list T)) n : Prop := Forall (fun l => length l = n) ls.

  Lemma cols_lengths cs : Forall (fun l => length l = length cs) (cols_of cs).
  Proof. unfold cols_of. repeat constructor; apply map_length. Qed.
  Lemma of_cols (ls : list (list T)) n : ls <> [] -> Forall (fun l => length l = n) ls -> m_of_cols ls = Ret (MkMat n (length ls) (concat ls)).
  Proof.
    intros H HF. destruct ls as [|l ls]; [congruence|]. unfold m_of_cols. inversion HF as [|? ? H1 H2]; subst.
    replace (forallb _ _) with true; [reflexivity|]. symmetry. apply forallb_forall. intros x Hx. apply Nat.eqb_eq.
    exact (proj1 (Forall_forall _ _) HF x Hx).
  Qed.
  Lemma flip_column (ls : list (list T)) n j : Forall (fun l => length l = n) ls -> (j < length ls)%nat ->
    column_array (m_flipud (MkMat n (length ls) (concat ls))) (Z.of_nat j) = Ret (rev (nth j ls [])).
  Proof.
    intros HF Hj. unfold column_array, m_cols. cbn [ncols nrows m_flipud tab].
    replace ((Z.of_nat j <=? Z.of_nat j)%Z && (Z.of_nat j <? Z.of_nat (length ls))%Z && (0 <=? Z.of_nat j)%Z) with true by lia. cbn [bind].
    unfold m_to_vector. cbn [ncols tab]. rewrite Z.sub_diag, Z.add_0_l. change (Z.to_nat 1) with 1%nat. cbn [Nat.ltb Nat.leb].
    assert (Ln : length (nth j ls []) = n) by (apply (proj1 (Forall_forall _ _) HF), nth_In, Hj).
    f_equal. apply nth_ext with (d := n0) (d' := n0).
    - unfold col_list. cbn [nrows tab]. rewrite map_length, seq_length, rev_length. symmetry. exact Ln.
    - intros i Hi. unfold col_list in *. cbn [nrows tab] in *. rewrite map_length, seq_length in Hi. rewrite nth_map_seq by exact Hi.
      unfold at_. rewrite mget_tab by lia. unfold at_. rewrite Nat2Z.id, Nat.add_0_r. unfold m_flipud. cbn [nrows ncols]. rewrite mget_tab by (cbn [ncols nrows]; lia). unfold at_, mget. cbn [nrows elems ncols].
      rewrite rev_nth by lia. rewrite Ln. rewrite nth_concat_const by (assumption || lia). f_equal. lia.
  Qed.
  Lemma vset_ret (k : vbank T) cs M : m_of_cols (cols_of cs) = Ret M ->
    vset k (m_flipud M) = Ret (MkVBank (vb_bands k) (vb_min k) (vb_c1 k) (vb_c2 k) (vb_c3 k) (vb_c4 k) (cols_of (rev cs))).
  Proof.
    rewrite (of_cols (cols_of cs) (length cs)) by (discriminate || apply cols_lengths). intros E. injection E as <-. unfold vset.
    rewrite (fill_ret _ (fun j => rev (nth j (cols_of cs) []))).
    - cbn [bind]. f_equal. f_equal. unfold cols_of. cbn [seq map nth]. rewrite !map_rev. reflexivity.
    - intros i Hi. apply in_seq in Hi. change 10%nat with (length (cols_of cs)). apply flip_column; [apply cols_lengths|cbn [cols_of length]; lia].
  Qed.

  (** *** all channels *)
  Definition zc : list T * list T * list T * list T := ([], [], [], []).
  Definition ez : erb_coeffs T := MkErb n0 n0 n0 n0 n0 n0 n0 n0 n0 n0.
  Lemma bands_nth sig : forall n cs conds ys fs, length cs = n -> length conds = n -> bands_filter cs conds n sig = Ret (ys, fs) ->
    length ys = n /\ length fs = n /\ forall b, (b < n)%nat -> band_filter (nth b cs ez) (nth b conds zc) sig = Ret (nth b ys [], nth b fs zc).
  Proof.
    induction n as [|n IH]; intros cs conds ys fs Hc Hf E.
    - destruct cs; [|discriminate]. destruct conds; [|discriminate]. cbn in E. injection E as <- <-. split; [reflexivity|]. split; [reflexivity|]. intros; lia.
    - destruct cs as [|c cs]; [discriminate|]. destruct conds as [|f conds]; [discriminate|]. cbn [bands_filter] in E.
      destruct (band_filter c f sig) as [[y f']| | |] eqn:E1; try discriminate. cbn [bind] in E.
      destruct (bands_filter cs conds n sig) as [[ys' fs']| | |] eqn:E2; try discriminate. cbn [bind] in E. injection E as <- <-.
      injection Hc as Hc. injection Hf as Hf. destruct (IH cs conds ys' fs' Hc Hf E2) as (A & B & C). cbn [length]. split; [lia|]. split; [lia|].
      intros [|b] Hb; cbn [nth]; [exact E1|apply C; lia].
  Qed.
  (** conditions after [m] channels *)
  Definition mid {A} (m : nat) (new old : list A) : list A := firstn m new ++ skipn m old.
  Lemma mid_length {A} m (new old : list A) : length new = length old -> (m <= length old)%nat -> length (mid m new old) = length old.
  Proof. intros H Hm. unfold mid. rewrite app_length, firstn_length, skipn_length. lia. Qed.
  Lemma mid_nth {A} m (new old : list A) d : length new = length old -> (m < length old)%nat -> nth m (mid m new old) d = nth m old d.
  Proof. intros H Hm. unfold mid. rewrite app_nth2 by (rewrite firstn_length; lia). rewrite firstn_length, nth_skipn. f_equal. lia. Qed.
  Lemma mid_upd {A} m (new old : list A) d : length new = length old -> (m < length old)%nat -> upd (mid m new old) m (nth m new d) = mid (S m) new old.
  Proof.
    revert m old. induction new as [|a new IH]; intros [|m] [|b old] H Hm; cbn [length] in *; try lia; [reflexivity|].
    cbn [mid firstn skipn app upd nth]. unfold mid in IH. cbn [firstn skipn app]. f_equal. apply IH; lia.
  Qed.
  Lemma mid_all {A} (new old : list A) : length new = length old -> mid (length old) new old = new.
  Proof. intros H. unfold mid. rewrite skipn_all, app_nil_r. apply firstn_all2. lia. Qed.

  Section Chans.
    Variables (bands : nat) (mn : T) (cs : list (erb_coeffs T)) (conds fs : list (list T * list T * list T * list T)) (ys : list (list T)) (sig : list T).
    Hypotheses (Hc : length cs = bands) (Hf : length conds = bands) (E : bands_filter cs conds bands sig = Ret (ys, fs))
               (Hy : forall b, (b < bands)%nat -> length (nth b ys []) = length sig).
    Let rows m := tab bands (length sig) (fun r c => if Nat.ltb r m then nth c (nth r ys []) n0 else n0).
    Let st m : mat T * vbank T := (rows m, arrays_of (MkBank bands mn (mid m fs conds) cs)).
    Lemma rd_col {A B} (g : A -> B) (l : list A) i d : (i < length l)%nat -> rd (map g l) i = Ret (g (nth i l d)).
    Proof. intros H. rewrite (rd_nth _ i (g d)) by (rewrite map_length; exact H). rewrite map_nth. reflexivity. Qed.
    Lemma rd_coef j ch g : (ch < bands)%nat -> nth_error (cols_of cs) j = Some (map g cs) -> (do a <- rd (cols_of cs) j; rd a ch) = Ret (g (nth ch cs ez)).
    Proof. intros H Ej. unfold rd at 1. rewrite Ej. cbn [bind]. apply rd_col. lia. Qed.
    Lemma map_upd {A B} (g : A -> B) : forall (l : list A) i x, upd (map g l) i (g x) = map g (upd l i x).
    Proof. induction l as [|a l IH]; intros [|i] x; cbn [map upd]; try reflexivity. now rewrite IH. Qed.
    Lemma chan_step ch : (ch < bands)%nat -> vchan sig (st ch) ch = Ret (st (S ch)).
    Proof.
      intros Hch. destruct (bands_nth sig bands cs conds ys fs Hc Hf E) as (L1 & L2 & HB). specialize (HB ch Hch).
      assert (Lf : length fs = length conds) by congruence.
      unfold vchan, st, arrays_of. cbn [bk_bands bk_min bk_cond bk_coef vb_coef vb_c1 vb_c2 vb_c3 vb_c4 vb_bands vb_min].
      rewrite (rd_coef 0 ch e_A0 Hch eq_refl), (rd_coef 1 ch e_A11 Hch eq_refl), (rd_coef 2 ch e_A12 Hch eq_refl), (rd_coef 3 ch e_A13 Hch eq_refl),
        (rd_coef 4 ch e_A14 Hch eq_refl), (rd_coef 5 ch e_A2 Hch eq_refl), (rd_coef 6 ch e_B0 Hch eq_refl), (rd_coef 7 ch e_B1 Hch eq_refl),
        (rd_coef 8 ch e_B2 Hch eq_refl), (rd_coef 9 ch e_gain Hch eq_refl). cbn [bind].
      assert (Lm : length (mid ch fs conds) = bands) by (rewrite mid_length by lia; exact Hf).
      rewrite !(rd_col _ (mid ch fs conds) ch zc) by lia. rewrite (mid_nth ch fs conds zc Lf) by lia.
      unfold band_filter in HB. destruct (nth ch conds zc) as [[[i1 i2] i3] i4]. cbn [fst snd].
      set (q := nth ch cs ez) in *. cbv zeta in HB. cbn [bind].
      destruct (signal_filter _ _ sig i1) as [[y1 f1]| | |]; try discriminate. cbn [bind] in HB |- *.
      rewrite wr_ret by (rewrite map_length; lia). cbn [bind].
      destruct (signal_filter _ _ y1 i2) as [[y2 f2]| | |]; try discriminate. cbn [bind] in HB |- *.
      rewrite wr_ret by (rewrite map_length; lia). cbn [bind].
      destruct (signal_filter _ _ y2 i3) as [[y3 f3]| | |]; try discriminate. cbn [bind] in HB |- *.
      rewrite wr_ret by (rewrite map_length; lia). cbn [bind].
      destruct (signal_filter _ _ y3 i4) as [[y4 f4]| | |]; try discriminate. cbn [bind] in HB |- *.
      rewrite wr_ret by (rewrite map_length; lia). cbn [bind].
      assert (HB1 : y4 = nth ch ys []) by congruence. assert (HB2 : nth ch fs zc = (f1, f2, f3, f4)) by congruence. clear HB.
      rewrite set_row_tab; [|unfold rows; cbn [nrows tab]; lia|unfold rows; cbn [ncols tab]; rewrite HB1; apply Hy, Hch]. cbn [bind].
      f_equal. f_equal.
      - unfold rows. cbn [nrows ncols tab]. apply (tab_ext n0). intros r c Hr Hcc. unfold at_. 
        destruct (Nat.eqb_spec r ch) as [->|Hne].
        + rewrite HB1. replace (ch <? S ch)%nat with true by lia. reflexivity.
        + rewrite (mget_tab n0) by assumption. replace (r <? S ch)%nat with (r <? ch)%nat by lia. reflexivity.
      - rewrite <- (mid_upd ch fs conds zc Lf) by lia. rewrite HB2. rewrite <- !(map_upd _ _ _ (f1, f2, f3, f4)). reflexivity.
    Qed.
    Lemma chans_run : forall n m, (m + n = bands)%nat -> vchans sig (st m) (seq m n) = Ret (st bands).
    Proof.
      induction n as [|n IH]; intros m Hm; cbn [seq vchans]; [replace m with bands by lia; reflexivity|].
      rewrite chan_step by lia. cbn [bind]. apply IH. lia.
    Qed.
    Lemma apply_run : vapply (arrays_of (MkBank bands mn conds cs)) sig =
      Ret (tab bands (length sig) (fun r c => nth c (nth r ys []) n0), arrays_of (MkBank bands mn fs cs)).
    Proof.
      unfold vapply. cbn [vb_bands arrays_of bk_bands]. fold (arrays_of (MkBank bands mn conds cs)).
      destruct (bands_nth sig bands cs conds ys fs Hc Hf E) as (L1 & L2 & _).
      replace (m_new bands (length sig), arrays_of (MkBank bands mn conds cs)) with (st 0).
      - rewrite chans_run by lia. unfold st, rows. f_equal. f_equal.
        + apply (tab_ext n0). intros r c Hr _. replace (r <? bands)%nat with true by lia. reflexivity.
        + replace (mid bands fs conds) with fs; [reflexivity|]. symmetry. rewrite <- Hf. apply mid_all. congruence.
      - unfold st, rows, m_new, m_filled. f_equal.
    Qed.
  End Chans.

  (** *** frames *)
  Lemma vreset_arrays (k : bank T) : vreset (arrays_of k) = arrays_of (reset_conditions k).
  Proof.
    unfold vreset, arrays_of, reset_conditions. cbn [vb_bands vb_min vb_coef bk_bands bk_min bk_coef bk_cond].
    assert (R : forall (g : list T * list T * list T * list T -> list T) n, g zero_cond = [n0; n0] -> map g (repeat zero_cond n) = repeat [n0; n0] n).
    { intros g n H. induction n as [|n IH]; [reflexivity|]. cbn [repeat map]. now rewrite IH, H. }
    rewrite !R by reflexivity. reflexivity.
  Qed.
  Lemma rows_rms bands (ys : list (list T)) n : length ys = bands -> (0 < n)%nat -> (forall b, (b < bands)%nat -> length (nth b ys []) = n) ->
    let R := mmap nsqrt (m_mean_rows (mmap nsq (tab bands n (fun r c => nth c (nth r ys []) n0)))) in
    ncols R = 1%nat /\ elems R = map row_rms ys.
  Proof.
    intros Ly Hn Hy R. unfold R, m_mean_rows. cbn [ncols nrows mmap tab]. replace (n =? 0)%nat with false by lia. split; [reflexivity|].
    cbn [mmap elems tab seq flat_map]. rewrite app_nil_r, map_map. apply nth_ext with (d := n0) (d' := row_rms []).
    - rewrite !map_length, seq_length. congruence.
    - intros i Hi. rewrite map_length, seq_length in Hi. rewrite nth_map_seq by exact Hi. rewrite map_nth. unfold row_rms. f_equal. f_equal.
      unfold row_list. cbn [ncols mmap tab]. apply nth_ext with (d := n0) (d' := nsq n0).
      + rewrite !map_length, seq_length. symmetry. apply Hy. exact Hi.
      + intros c Hcc. rewrite map_length, seq_length in Hcc. rewrite nth_map_seq by exact Hcc. unfold at_. fold (mmap (nsq (T := T)) (tab bands n (fun r c => nth c (nth r ys []) n0))).
        rewrite (mget_mmap n0 n0) by (apply tab_wf || cbn [nrows ncols tab]; lia). rewrite (mget_tab n0) by assumption. rewrite map_nth. reflexivity.
  Qed.
End Generic.
