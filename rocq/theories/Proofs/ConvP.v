(** Proofs about the padded convolution (C43). *)
From Coq Require Import ZArith List Bool Reals Lra Lia Arith.
From Verif Require Import Base.Res Base.Num Base.NumR Base.Lists Base.Mat Model.Amatrix Model.Nsim
  Spec.SmoothSpec Proofs.RealP.
Import ListNotations.

Lemma sequence_ret {A B} (f : A -> res B) (g : A -> B) l :
  (forall x, In x l -> f x = Ret (g x)) -> sequence (map f l) = Ret (map g l).
Proof.
  induction l as [|x l IH]; intros H; [reflexivity|]. cbn [map sequence].
  rewrite (H x) by (left; reflexivity). cbn [bind]. rewrite IH by (intros y Hy; apply H; right; assumption).
  reflexivity.
Qed.

Lemma sequence_app {A} (l m : list (res A)) :
  sequence (l ++ m) = do a <- sequence l; do b <- sequence m; Ret (a ++ b).
Proof.
  induction l as [|x l IH]; cbn [app sequence bind].
  - destruct (sequence m); reflexivity.
  - destruct x; cbn [bind]; try reflexivity. rewrite IH.
    destruct (sequence l); cbn [bind]; try reflexivity. destruct (sequence m); reflexivity.
Qed.

Lemma sequence_tab {B} (f : nat -> nat -> res B) (g : nat -> nat -> B) nr nc :
  (forall r c, (r < nr)%nat -> (c < nc)%nat -> f r c = Ret (g r c)) ->
  sequence (flat_map (fun c => map (fun r => f r c) (seq 0 nr)) (seq 0 nc)) =
  Ret (elems (tab nr nc g)).
Proof.
  intros H. unfold tab. cbn [elems].
  assert (G : forall l, (forall c, In c l -> (c < nc)%nat) ->
    sequence (flat_map (fun c => map (fun r => f r c) (seq 0 nr)) l) =
    Ret (flat_map (fun c => map (fun r => g r c) (seq 0 nr)) l)).
  { induction l as [|c l IH]; intros Hl; [reflexivity|]. cbn [flat_map].
    rewrite sequence_app, (sequence_ret _ (fun r => g r c)).
    - cbn [bind]. rewrite IH by (intros; apply Hl; right; assumption). reflexivity.
    - intros r Hr. apply in_seq in Hr. apply H; [lia|]. apply Hl. left; reflexivity. }
  apply G. intros c Hc. apply in_seq in Hc. lia.
Qed.

Section Generic.
  Context {T : Type} {N : Num T}.

  Lemma at_tab nr nc (f : nat -> nat -> T) r c : (r < nr)%nat -> (c < nc)%nat -> at_ (tab nr nc f) r c = f r c.
  Proof. apply mget_tab. Qed.

  Lemma set_row_tab (M : mat T) r v : (r < nrows M)%nat -> length v = ncols M ->
    m_set_row M (Z.of_nat r) v =
    Ret (tab (nrows M) (ncols M) (fun i c => if Nat.eqb i r then nth c v n0 else at_ M i c)).
  Proof.
    intros H1 H2. unfold m_set_row. rewrite Nat2Z.id.
    replace ((0 <=? Z.of_nat r)%Z && (Z.of_nat r <? Z.of_nat (nrows M))%Z && Nat.eqb (length v) (ncols M)) with true
      by (symmetry; rewrite !andb_true_iff, Z.leb_le, Z.ltb_lt, Nat.eqb_eq; lia).
    reflexivity.
  Qed.
  Lemma set_col_tab (M : mat T) c v : (c < ncols M)%nat -> length v = nrows M ->
    m_set_col M (Z.of_nat c) v =
    Ret (tab (nrows M) (ncols M) (fun r j => if Nat.eqb j c then nth r v n0 else at_ M r j)).
  Proof.
    intros H1 H2. unfold m_set_col. rewrite Nat2Z.id.
    replace ((0 <=? Z.of_nat c)%Z && (Z.of_nat c <? Z.of_nat (ncols M))%Z && Nat.eqb (length v) (nrows M)) with true
      by (symmetry; rewrite !andb_true_iff, Z.leb_le, Z.ltb_lt, Nat.eqb_eq; lia).
    reflexivity.
  Qed.
  Lemma row_ret (M : mat T) r : (r < nrows M)%nat -> m_row M (Z.of_nat r) = Ret (row_list M r).
  Proof.
    intros H. unfold m_row. rewrite Nat2Z.id.
    replace ((0 <=? Z.of_nat r)%Z && (Z.of_nat r <? Z.of_nat (nrows M))%Z) with true
      by (symmetry; rewrite !andb_true_iff, Z.leb_le, Z.ltb_lt; lia).
    reflexivity.
  Qed.
  Lemma col_ret (M : mat T) c : (c < ncols M)%nat -> m_col M (Z.of_nat c) = Ret (col_list M c).
  Proof.
    intros H. unfold m_col. rewrite Nat2Z.id.
    replace ((0 <=? Z.of_nat c)%Z && (Z.of_nat c <? Z.of_nat (ncols M))%Z) with true
      by (symmetry; rewrite !andb_true_iff, Z.leb_le, Z.ltb_lt; lia).
    reflexivity.
  Qed.
  Lemma nth_row_list (M : mat T) r c : (c < ncols M)%nat -> nth c (row_list M r) n0 = at_ M r c.
  Proof. intros H. unfold row_list. rewrite nth_map_seq by assumption. reflexivity. Qed.
  Lemma nth_col_list (M : mat T) r c : (r < nrows M)%nat -> nth r (col_list M c) n0 = at_ M r c.
  Proof. intros H. unfold col_list. rewrite nth_map_seq by assumption. reflexivity. Qed.
  Lemma row_list_length (M : mat T) r : length (row_list M r) = ncols M.
  Proof. unfold row_list. rewrite map_length, seq_length. reflexivity. Qed.
  Lemma col_list_length (M : mat T) c : length (col_list M c) = nrows M.
  Proof. unfold col_list. rewrite map_length, seq_length. reflexivity. Qed.

  (** the boundary replicates the outermost rows and columns *)
  Lemma add_boundary_spec (M : mat T) : (0 < nrows M)%nat -> (0 < ncols M)%nat ->
    add_boundary M =
    Ret (tab (nrows M + 2) (ncols M + 2)
             (fun r c => at_ M (clamped (nrows M) 0 r) (clamped (ncols M) 0 c))).
  Proof.
    intros HR HC. unfold add_boundary. set (nr := nrows M) in *. set (nc := ncols M) in *.
    set (P0 := copy_within_padding M).
    assert (D0 : nrows P0 = (nr + 2)%nat /\ ncols P0 = (nc + 2)%nat) by (split; reflexivity).
    assert (G0 : forall r c, (r < nr + 2)%nat -> (c < nc + 2)%nat -> at_ P0 r c =
      if Nat.leb 1 r && Nat.leb r nr && Nat.leb 1 c && Nat.leb c nc then at_ M (r - 1) (c - 1) else n0).
    { intros r c Hr Hc. unfold P0, copy_within_padding. rewrite at_tab by assumption. reflexivity. }
    clearbody P0. destruct D0 as [R0 C0].
    change 1%Z with (Z.of_nat 1) at 1. rewrite row_ret by lia. cbn [bind].
    change 0%Z with (Z.of_nat 0) at 1. rewrite set_row_tab by (rewrite ?row_list_length; lia). cbn [bind].
    set (P1 := tab (nrows P0) (ncols P0) _).
    assert (D1 : nrows P1 = (nr + 2)%nat /\ ncols P1 = (nc + 2)%nat) by (rewrite <- R0, <- C0; split; reflexivity).
    assert (G1 : forall r c, (r < nr + 2)%nat -> (c < nc + 2)%nat ->
      at_ P1 r c = at_ P0 (if Nat.eqb r 0 then 1 else r)%nat c).
    { intros r c Hr Hc. unfold P1. rewrite at_tab by lia. destruct (Nat.eqb r 0); [|reflexivity].
      apply nth_row_list. lia. }
    clearbody P1. destruct D1 as [R1 C1].
    rewrite R1. replace (Z.of_nat (nr + 2) - 2)%Z with (Z.of_nat nr) by lia.
    rewrite row_ret by lia. cbn [bind]. 
    replace (Z.of_nat (nr + 2) - 1)%Z with (Z.of_nat (nr + 1)) by lia.
    rewrite set_row_tab by (rewrite ?row_list_length; lia). cbn [bind].
    set (P2 := tab (nrows P1) (ncols P1) _).
    assert (D2 : nrows P2 = (nr + 2)%nat /\ ncols P2 = (nc + 2)%nat) by (rewrite <- R1, <- C1; split; reflexivity).
    assert (G2 : forall r c, (r < nr + 2)%nat -> (c < nc + 2)%nat ->
      at_ P2 r c = at_ P1 (if Nat.eqb r (nr + 1) then nr else r)%nat c).
    { intros r c Hr Hc. unfold P2. rewrite at_tab by lia. destruct (Nat.eqb r (nr + 1)); [|reflexivity].
      apply nth_row_list. lia. }
    clearbody P2. destruct D2 as [R2 C2].
    change 1%Z with (Z.of_nat 1) at 1. rewrite col_ret by lia. cbn [bind].
    change 0%Z with (Z.of_nat 0) at 1. rewrite set_col_tab by (rewrite ?col_list_length; lia). cbn [bind].
    set (P3 := tab (nrows P2) (ncols P2) _).
    assert (D3 : nrows P3 = (nr + 2)%nat /\ ncols P3 = (nc + 2)%nat) by (rewrite <- R2, <- C2; split; reflexivity).
    assert (G3 : forall r c, (r < nr + 2)%nat -> (c < nc + 2)%nat ->
      at_ P3 r c = at_ P2 r (if Nat.eqb c 0 then 1 else c)%nat).
    { intros r c Hr Hc. unfold P3. rewrite at_tab by lia. destruct (Nat.eqb c 0); [|reflexivity].
      apply nth_col_list. lia. }
    clearbody P3. destruct D3 as [R3 C3].
    rewrite C3. replace (Z.of_nat (nc + 2) - 2)%Z with (Z.of_nat nc) by lia.
    rewrite col_ret by lia. cbn [bind]. 
    replace (Z.of_nat (nc + 2) - 1)%Z with (Z.of_nat (nc + 1)) by lia.
    rewrite set_col_tab by (rewrite ?col_list_length; lia).
    f_equal. rewrite R3, C3. apply (tab_ext n0). intros r c Hr Hc.
    assert (E4 : (if Nat.eqb c (nc + 1) then nth r (col_list P3 nc) n0 else at_ P3 r c)
                 = at_ P3 r (if Nat.eqb c (nc + 1) then nc else c)%nat).
    { destruct (Nat.eqb c (nc + 1)); [|reflexivity]. apply nth_col_list. lia. }
    rewrite E4. clear E4.
    unfold clamped. rewrite !Nat.add_0_l.
    set (c' := (if Nat.eqb c (nc + 1) then nc else c)%nat).
    assert (c' <= nc)%nat by (unfold c'; destruct (Nat.eqb_spec c (nc + 1)); lia).
    rewrite G3 by lia. set (c'' := (if Nat.eqb c' 0 then 1 else c')%nat).
    assert (1 <= c'' <= nc)%nat by (unfold c''; destruct (Nat.eqb_spec c' 0); lia).
    rewrite G2 by lia. set (r' := (if Nat.eqb r (nr + 1) then nr else r)%nat).
    assert (r' <= nr)%nat by (unfold r'; destruct (Nat.eqb_spec r (nr + 1)); lia).
    rewrite G1 by lia. set (r'' := (if Nat.eqb r' 0 then 1 else r')%nat).
    assert (1 <= r'' <= nr)%nat by (unfold r''; destruct (Nat.eqb_spec r' 0); lia).
    rewrite G0 by lia.
    replace (Nat.leb 1 r'') with true by (symmetry; apply Nat.leb_le; lia).
    replace (Nat.leb r'' nr) with true by (symmetry; apply Nat.leb_le; lia).
    replace (Nat.leb 1 c'') with true by (symmetry; apply Nat.leb_le; lia).
    replace (Nat.leb c'' nc) with true by (symmetry; apply Nat.leb_le; lia).
    cbn [andb]. f_equal.
    - unfold r'', r'. destruct (Nat.eqb_spec r (nr + 1)), (Nat.eqb_spec nr 0), (Nat.eqb_spec r 0); lia.
    - unfold c'', c'. destruct (Nat.eqb_spec c (nc + 1)), (Nat.eqb_spec nc 0), (Nat.eqb_spec c 0); lia.
  Qed.

  Lemma lin_mut_ret (P : mat T) r c : wf P -> (r < nrows P)%nat -> (c < ncols P)%nat ->
    m_lin_mut P (c * nrows P + r) = Ret (at_ P r c).
  Proof.
    intros W Hr Hc. unfold m_lin_mut, at_, mget.
    rewrite (nth_error_nth' (elems P) n0); [reflexivity|]. rewrite W. nia.
  Qed.
  Lemma lin_ret (P : mat T) r c : wf P -> (r < nrows P)%nat -> (c < ncols P)%nat ->
    m_lin P (c * nrows P + r) = Ret (at_ P r c).
  Proof.
    intros W Hr Hc. unfold m_lin, at_, mget.
    rewrite (nth_error_nth' (elems P) n0); [reflexivity|]. rewrite W. nia.
  Qed.

  (** one output element as a left fold over the nine neighbours, in the code's order *)
  Definition conv_elem (F M : mat T) (r c : nat) : T :=
    fold_left (fun s p => nadd s (nmul (at_ M (clamped (nrows M) r (snd p)) (clamped (ncols M) c (fst p)))
                                       (at_ F (2 - snd p) (2 - fst p))))
              (filter_positions 3 3) n0.

  Lemma conv2d_spec (F M : mat T) :
    wf F -> nrows F = 3%nat -> ncols F = 3%nat -> (0 < nrows M)%nat -> (0 < ncols M)%nat ->
    conv2d F M = Ret (tab (nrows M) (ncols M) (conv_elem F M)).
  Proof.
    intros WF HR HC HMr HMc. unfold conv2d. rewrite add_boundary_spec by assumption. cbn [bind].
    set (P := tab (nrows M + 2) (ncols M + 2) _).
    assert (GP : forall r c, (r < nrows M + 2)%nat -> (c < ncols M + 2)%nat ->
      at_ P r c = at_ M (clamped (nrows M) 0 r) (clamped (ncols M) 0 c)).
    { intros r c Hr Hc. unfold P. rewrite at_tab by assumption. reflexivity. }
    assert (WP : wf P) by apply tab_wf.
    assert (RP : nrows P = (nrows M + 2)%nat) by reflexivity.
    assert (CP : ncols P = (ncols M + 2)%nat) by reflexivity.
    clearbody P. rewrite RP, CP, HR, HC.
    replace (nrows M + 2 + 1 - 3)%nat with (nrows M) by lia.
    replace (ncols M + 2 + 1 - 3)%nat with (ncols M) by lia.
    rewrite (sequence_tab _ (conv_elem F M)); [reflexivity|].
    intros r c Hr Hc. unfold conv_at. rewrite HR, HC, RP.
    assert (St : forall (l : list (nat * nat)) s,
      (forall p, In p l -> (fst p < 3)%nat /\ (snd p < 3)%nat) ->
      fold_left (fun acc (pos : nat * nat) => let '(f_col, f_row) := pos in
         do s <- acc;
         do a <- m_lin_mut P ((f_col + c) * (nrows M + 2) + f_row + r);
         do b <- m_lin F (3 * 3 - 1 - (f_col * 3 + f_row));
         Ret (nadd s (nmul a b))) l (Ret s) =
      Ret (fold_left (fun s p => nadd s (nmul (at_ M (clamped (nrows M) r (snd p)) (clamped (ncols M) c (fst p)))
                                       (at_ F (2 - snd p) (2 - fst p)))) l s)).
    { induction l as [|[fc fr] l IH]; intros s Hl; [reflexivity|]. cbn [fold_left bind].
      destruct (Hl (fc, fr) (or_introl eq_refl)) as [H1 H2]. cbn [fst snd] in H1, H2.
      replace ((fc + c) * (nrows M + 2) + fr + r)%nat with ((fc + c) * nrows P + (fr + r))%nat by lia.
      rewrite lin_mut_ret by (try assumption; lia). cbn [bind].
      replace (3 * 3 - 1 - (fc * 3 + fr))%nat with ((2 - fc) * nrows F + (2 - fr))%nat by lia.
      rewrite lin_ret by (try assumption; lia). cbn [bind fst snd].
      rewrite IH by (intros; apply Hl; right; assumption). f_equal. f_equal. f_equal. f_equal.
      rewrite GP by lia. f_equal; unfold clamped; f_equal; lia. }
    apply St. intros [fc fr] Hp. cbn in Hp. cbn [fst snd].
    repeat (destruct Hp as [Hp|Hp]; [injection Hp as <- <-; lia|]). contradiction.
  Qed.
End Generic.

Open Scope R_scope.

Lemma nsim_window_wf : wf (nsim_window : mat R). Proof. reflexivity. Qed.

Lemma conv_elem_smooth (M : mat R) r c :
  conv_elem nsim_window M r c = smooth (nrows M) (ncols M) (at_ M) r c.
Proof.
  unfold conv_elem, smooth. cbn [filter_positions flat_map seq map app fold_left fst snd list_prod fold_right].
  unfold at_ at 2 4 6 8 10 12 14 16 18. unfold mget, nsim_window.
  cbn [nth Nat.mul Nat.add Nat.sub nrows elems fst snd].
  unfold ndec, weight. cbn [ndiv nofZ nadd nmul NumR].
  change (@n0 R NumR) with 0. change (10 ^ 16)%Z with 10000000000000000%Z.
  change (10 ^ 15)%Z with 1000000000000000%Z. cbn [fst snd]. lra.
Qed.

Lemma conv2d_smooth (M : mat R) : (0 < nrows M)%nat -> (0 < ncols M)%nat ->
  conv2d nsim_window M = Ret (tab (nrows M) (ncols M) (smooth (nrows M) (ncols M) (at_ M))).
Proof.
  intros H1 H2. rewrite conv2d_spec by (try exact nsim_window_wf; try reflexivity; assumption).
  f_equal. apply (tab_ext 0). intros. apply conv_elem_smooth.
Qed.

(** the nine weights *)
Lemma weight_pos k l : 0 < weight k l.
Proof. unfold weight. destruct k as [|[|k]], l as [|[|l]]; lra. Qed.
Lemma weights_sum : fold_right Rplus 0 (map (fun p => weight (fst p) (snd p)) (list_prod (seq 0 3) (seq 0 3))) = 1.
Proof. cbn. lra. Qed.

(** generic weighted sums over the nine positions *)
Definition wsum (f : nat * nat -> R) : R :=
  fold_right Rplus 0 (map (fun p => weight (fst p) (snd p) * f p) (list_prod (seq 0 3) (seq 0 3))).
Lemma smooth_wsum nr nc x r c :
  smooth nr nc x r c = wsum (fun p => x (clamped nr r (fst p)) (clamped nc c (snd p))).
Proof. reflexivity. Qed.
Lemma wsum_rsum f : wsum f = rsum (map (fun p => weight (fst p) (snd p) * f p) (list_prod (seq 0 3) (seq 0 3))).
Proof. unfold wsum. induction (map _ _) as [|x l IH]; [reflexivity|]. cbn. rewrite IH. reflexivity. Qed.
Lemma wsum_const a : wsum (fun _ => a) = a.
Proof. unfold wsum. cbn. lra. Qed.
Lemma wsum_plus f g : wsum (fun p => f p + g p) = wsum f + wsum g.
Proof. unfold wsum. cbn. ring. Qed.
Lemma wsum_scale a f : wsum (fun p => a * f p) = a * wsum f.
Proof. unfold wsum. cbn. ring. Qed.
Lemma wsum_ext f g : (forall p, f p = g p) -> wsum f = wsum g.
Proof. intros H. unfold wsum. f_equal. apply map_ext. intros p. rewrite H. reflexivity. Qed.
Lemma wsum_mono f g : (forall p, f p <= g p) -> wsum f <= wsum g.
Proof.
  intros H. rewrite !wsum_rsum. apply rsum_le. intros p _. apply Rmult_le_compat_l; [left; apply weight_pos|auto].
Qed.
Lemma wsum_nonneg f : (forall p, 0 <= f p) -> 0 <= wsum f.
Proof. intros H. rewrite <- (wsum_const 0). apply wsum_mono. exact H. Qed.

Lemma smooth_laws (nr nc : nat) (x y : nat -> nat -> R) (a b : R) (r c : nat) :
  ((forall i j, x i j <= y i j) -> smooth nr nc x r c <= smooth nr nc y r c) /\
  smooth nr nc (fun i j => a * x i j + b * y i j) r c = a * smooth nr nc x r c + b * smooth nr nc y r c /\
  smooth nr nc (fun _ _ => a) r c = a.
Proof.
  rewrite !smooth_wsum. split; [|split].
  - intros H. apply wsum_mono. auto.
  - rewrite wsum_plus, !wsum_scale. reflexivity.
  - apply wsum_const.
Qed.
