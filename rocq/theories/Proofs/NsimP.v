(** Proofs about the neurogram similarity (C42). *)
From Coq Require Import ZArith List Bool Reals Lra Lia Arith.
From Verif Require Import Base.Res Base.Num Base.NumR Base.Lists Base.Mat Model.Amatrix Model.Nsim
  Spec.SmoothSpec Proofs.RealP Proofs.ConvP.
Import ListNotations.

Section Generic.
  Context {T : Type} {N : Num T}.

  Lemma zip_ret (f : T -> T -> T) (A B : mat T) : nrows A = nrows B -> ncols A = ncols B ->
    m_zip f A B = Ret (tab (nrows A) (ncols A) (fun r c => f (at_ A r c) (at_ B r c))).
  Proof. intros H1 H2. unfold m_zip, same_size. rewrite H1, H2, !Nat.eqb_refl. reflexivity. Qed.
  Lemma zip_tab (f : T -> T -> T) nr nc g h :
    m_zip f (tab nr nc g) (tab nr nc h) = Ret (tab nr nc (fun r c => f (g r c) (h r c))).
  Proof.
    rewrite zip_ret by reflexivity. f_equal. cbn [nrows ncols tab]. apply (tab_ext n0).
    intros r c Hr Hc. rewrite !at_tab by assumption. reflexivity.
  Qed.
  Lemma mmap_tab {U} (f : T -> U) (d : U) nr nc g : mmap f (tab nr nc g) = tab nr nc (fun r c => f (g r c)).
  Proof.
    apply (mat_ext d).
    - apply mmap_wf, tab_wf.
    - apply tab_wf.
    - reflexivity.
    - reflexivity.
    - cbn [nrows ncols mmap tab]. intros r c Hr Hc.
      rewrite (mget_mmap n0) by (auto using tab_wf). rewrite !mget_tab by assumption. reflexivity.
  Qed.
  Lemma pmul_ret (A B : mat T) : nrows A = nrows B -> ncols A = ncols B ->
    m_pmul A B = Ret (tab (nrows A) (ncols A) (fun r c => nmul (at_ A r c) (at_ B r c))).
  Proof. apply zip_ret. Qed.

  (** intensity and structure similarity of one entry, neurogram_similiarity_index_measure.cc:50-69 *)
  Definition nsim_entry (mr md cr2 cd2 crd : T) : T :=
    let mrd := nmul mr md in
    let sr := nsub cr2 (nmul mr mr) in
    let sd := nsub cd2 (nmul md md) in
    nmul (ndiv (nadd (nmul mrd (nofZ 2)) nsim_c1) (nadd (nadd (nmul mr mr) (nmul md md)) nsim_c1))
         (ndiv (nadd (nsub crd mrd) nsim_c3) (structure_denominator (nmul sr sd))).

  Definition sq_tab (A B : mat T) : mat T :=
    tab (nrows A) (ncols A) (fun r c => nmul (at_ A r c) (at_ B r c)).

  Lemma nsim_map_spec (A B : mat T) :
    (0 < nrows A)%nat -> (0 < ncols A)%nat -> nrows A = nrows B -> ncols A = ncols B ->
    let W := conv_elem nsim_window in
    nsim_map A B = Ret (tab (nrows A) (ncols A) (fun r c =>
      nsim_entry (W A r c) (W B r c) (W (sq_tab A A) r c) (W (sq_tab B B) r c) (W (sq_tab A B) r c))).
  Proof.
    intros HR HC ER EC W. unfold nsim_map.
    assert (CW : forall M : mat T, nrows M = nrows A -> ncols M = ncols A ->
      conv2d nsim_window M = Ret (tab (nrows A) (ncols A) (conv_elem nsim_window M))).
    { intros M E1 E2. rewrite conv2d_spec by (try reflexivity; lia). rewrite E1, E2. reflexivity. }
    rewrite (CW A) by reflexivity. cbn [bind]. rewrite (CW B) by congruence. cbn [bind].
    unfold m_pmul, m_sub, m_add, m_pdiv, m_adds, m_muls.
    rewrite !zip_tab. cbn [bind].
    rewrite !zip_ret by congruence. cbn [bind].
    change (tab (nrows A) (ncols A) (fun r c => nmul (at_ A r c) (at_ A r c))) with (sq_tab A A).
    change (tab (nrows B) (ncols B) (fun r c => nmul (at_ B r c) (at_ B r c))) with (sq_tab B B).
    change (tab (nrows A) (ncols A) (fun r c => nmul (at_ A r c) (at_ B r c))) with (sq_tab A B).
    rewrite (CW (sq_tab A A)) by reflexivity. cbn [bind].
    rewrite (CW (sq_tab B B)) by (symmetry; assumption). cbn [bind].
    rewrite (CW (sq_tab A B)) by reflexivity. cbn [bind].
    repeat (progress (rewrite ?zip_tab, ?(mmap_tab _ n0); cbn [bind])). reflexivity.
  Qed.

  (** swapping the patches, for any arithmetic with commutative + and * *)
  Hypothesis add_comm : forall a b : T, nadd a b = nadd b a.
  Hypothesis mul_comm : forall a b : T, nmul a b = nmul b a.

  Lemma nsim_entry_sym mr md cr2 cd2 crd : nsim_entry mr md cr2 cd2 crd = nsim_entry md mr cd2 cr2 crd.
  Proof.
    unfold nsim_entry. rewrite (mul_comm mr md), (add_comm (nmul mr mr) (nmul md md)).
    rewrite (mul_comm (nsub cr2 _) (nsub cd2 _)). reflexivity.
  Qed.

  Lemma sq_tab_sym (A B : mat T) : nrows A = nrows B -> ncols A = ncols B -> sq_tab A B = sq_tab B A.
  Proof. intros E1 E2. unfold sq_tab. rewrite E1, E2. apply (tab_ext n0). intros. apply mul_comm. Qed.

  Lemma nsim_map_sym (A B : mat T) :
    (0 < nrows A)%nat -> (0 < ncols A)%nat -> nrows A = nrows B -> ncols A = ncols B ->
    nsim_map A B = nsim_map B A.
  Proof.
    intros HR HC ER EC. rewrite !nsim_map_spec by lia. rewrite ER, EC. f_equal. apply (tab_ext n0).
    intros r c Hr Hc. rewrite nsim_entry_sym, (sq_tab_sym A B) by assumption. reflexivity.
  Qed.

  Lemma measure_sym (A B : mat T) pa pb :
    (0 < nrows A)%nat -> (0 < ncols A)%nat -> nrows A = nrows B -> ncols A = ncols B ->
    measure_patch_similarity A B = Ret pa -> measure_patch_similarity B A = Ret pb ->
    ps_sim pa = ps_sim pb /\ ps_means pa = ps_means pb /\ ps_stddevs pa = ps_stddevs pb.
  Proof.
    intros HR HC ER EC. unfold measure_patch_similarity. rewrite (nsim_map_sym A B HR HC ER EC).
    destruct (nsim_map B A) as [S| | |]; try discriminate. cbn [bind].
    intros E1 E2. injection E1 as <-. injection E2 as <-. cbn. auto.
  Qed.

End Generic.

Open Scope R_scope.

(** Cauchy-Schwarz and Jensen for the nine weights *)
Lemma wvar_nonneg f : 0 <= wsum (fun p => f p * f p) - wsum f * wsum f.
Proof.
  set (m := wsum f).
  assert (E : wsum (fun p => (f p - m) * (f p - m)) = wsum (fun p => f p * f p) - m * m).
  { rewrite (wsum_ext _ (fun p => f p * f p + ((-2 * m) * f p + m * m))) by (intros; ring).
    rewrite !wsum_plus, wsum_scale, wsum_const. fold m. ring. }
  rewrite <- E. apply wsum_nonneg. intros p. apply Rle_0_sqr.
Qed.

Lemma wcov_bound f g :
  Rabs (wsum (fun p => f p * g p) - wsum f * wsum g) <=
  sqrt ((wsum (fun p => f p * f p) - wsum f * wsum f) * (wsum (fun p => g p * g p) - wsum g * wsum g)).
Proof.
  set (m := wsum f). set (k := wsum g).
  set (u := fun p => f p - m). set (v := fun p => g p - k).
  assert (Euu : wsum (fun p => u p * u p) = wsum (fun p => f p * f p) - m * m).
  { unfold u. rewrite (wsum_ext _ (fun p => f p * f p + ((-2 * m) * f p + m * m))) by (intros; ring).
    rewrite !wsum_plus, wsum_scale, wsum_const. fold m. ring. }
  assert (Evv : wsum (fun p => v p * v p) = wsum (fun p => g p * g p) - k * k).
  { unfold v. rewrite (wsum_ext _ (fun p => g p * g p + ((-2 * k) * g p + k * k))) by (intros; ring).
    rewrite !wsum_plus, wsum_scale, wsum_const. fold k. ring. }
  assert (Euv : wsum (fun p => u p * v p) = wsum (fun p => f p * g p) - m * k).
  { unfold u, v.
    rewrite (wsum_ext _ (fun p => f p * g p + ((- k) * f p + ((- m) * g p + m * k)))) by (intros; ring).
    rewrite !wsum_plus, !wsum_scale, wsum_const. fold m. fold k. ring. }
  rewrite <- Euu, <- Evv, <- Euv.
  set (P := wsum (fun p => u p * u p)). set (Q := wsum (fun p => v p * v p)).
  set (C := wsum (fun p => u p * v p)).
  assert (HP : 0 <= P) by (apply wsum_nonneg; intros; apply Rle_0_sqr).
  assert (HQ : 0 <= Q) by (apply wsum_nonneg; intros; apply Rle_0_sqr).
  assert (HPQ : C * C <= P * Q).
  { assert (G : forall a b, 0 <= a * a * P + 2 * a * b * C + b * b * Q).
    { intros a b. 
      replace (a * a * P + 2 * a * b * C + b * b * Q)
        with (wsum (fun p => (a * u p + b * v p) * (a * u p + b * v p))).
      - apply wsum_nonneg. intros; apply Rle_0_sqr.
      - rewrite (wsum_ext _ (fun p => (a * a) * (u p * u p) + ((2 * a * b) * (u p * v p) + (b * b) * (v p * v p))))
          by (intros; ring).
        rewrite !wsum_plus, !wsum_scale. unfold P, Q, C. ring. }
    clearbody P Q C.
    destruct (Req_dec Q 0) as [Q0|Q0].
    - pose proof (G 1 1) as G1. pose proof (G 1 (-1)) as G2. subst Q.
      destruct (Req_dec P 0) as [P0|P0].
      + subst P. assert (C = 0) by lra. subst C. lra.
      + assert (HC : 0 <= (C * C) * (- P)) by (pose proof (G C (- P)) as G3; nra).
        pose proof (Rle_0_sqr C) as HS. unfold Rsqr in HS. nra.
    - pose proof (G Q (- C)) as G1.
      assert (G2 : 0 <= Q * (Q * P - C * C)) by nra.
      apply Rnot_lt_le. intros HH. assert (0 < Q) by lra.
      assert (Q * (Q * P - C * C) < Q * 0) by (apply Rmult_lt_compat_l; lra). lra. }
  rewrite <- (sqrt_Rsqr_abs C). apply sqrt_le_1; [apply Rle_0_sqr|nra|exact HPQ].
Qed.

(** the two stabilising constants *)
Lemma c1_val : @nsim_c1 R _ = 0.0001.
Proof. unfold nsim_c1, nsq, ndec, n1. cbn [nmul ndiv nofZ NumR]. change (10 ^ 2)%Z with 100%Z. lra. Qed.
Lemma c3_val : @nsim_c3 R _ = 0.00045.
Proof. unfold nsim_c3, nsq, ndec, n1. cbn [nmul ndiv nofZ NumR]. change (10 ^ 2)%Z with 100%Z. lra. Qed.

Lemma structure_denominator_R d : 0 <= d -> structure_denominator d = sqrt d + 0.00045.
Proof.
  intros H. unfold structure_denominator. cbn [nltb NumR]. change (@n0 R NumR) with 0.
  destruct (Rltb_spec d 0); [lra|]. rewrite c3_val. reflexivity.
Qed.

Lemma entry_bound f g :
  Rabs (nsim_entry (wsum f) (wsum g) (wsum (fun p => f p * f p)) (wsum (fun p => g p * g p))
                   (wsum (fun p => f p * g p))) <= 1.
Proof.
  unfold nsim_entry. set (a := wsum f). set (b := wsum g).
  cbn [nadd nsub nmul ndiv nofZ NumR]. rewrite c1_val, c3_val.
  pose proof (wvar_nonneg f) as Vf. pose proof (wvar_nonneg g) as Vg. pose proof (wcov_bound f g) as C.
  fold a b in Vf, Vg, C.
  set (P := wsum (fun p => f p * f p) - a * a) in *. set (Q := wsum (fun p => g p * g p) - b * b) in *.
  set (X := wsum (fun p => f p * g p) - a * b) in *. clearbody P Q X a b.
  rewrite structure_denominator_R by (apply Rmult_le_pos; assumption).
  pose proof (sqrt_pos (P * Q)). set (s := sqrt (P * Q)) in *. clearbody s.
  rewrite Rabs_mult. rewrite <- (Rmult_1_r 1). 
  apply Rmult_le_compat; try apply Rabs_pos.
  - unfold Rdiv. rewrite Rabs_mult, Rabs_inv. rewrite (Rabs_pos_eq (a * a + b * b + 0.0001)) by nra.
    apply Rmult_le_reg_r with (a * a + b * b + 0.0001); [nra|].
    rewrite Rmult_assoc, Rinv_l by nra. rewrite Rmult_1_r, Rmult_1_l.
    pose proof (Rle_0_sqr (a + b)) as H1. pose proof (Rle_0_sqr (a - b)) as H2. unfold Rsqr in H1, H2.
    apply Rabs_le. split; nra.
  - unfold Rdiv. rewrite Rabs_mult, Rabs_inv. rewrite (Rabs_pos_eq (s + 0.00045)) by lra.
    apply Rmult_le_reg_r with (s + 0.00045); [lra|].
    rewrite Rmult_assoc, Rinv_l by lra. rewrite Rmult_1_r, Rmult_1_l.
    assert (C1 : X <= s) by (pose proof (Rle_abs X); lra).
    assert (C2 : - s <= X) by (pose proof (Rle_abs (- X)) as HH; rewrite Rabs_Ropp in HH; lra).
    apply Rabs_le. split; lra.
Qed.

Lemma entry_self f :
  nsim_entry (wsum f) (wsum f) (wsum (fun p => f p * f p)) (wsum (fun p => f p * f p))
             (wsum (fun p => f p * f p)) = 1.
Proof.
  unfold nsim_entry. set (a := wsum f).
  cbn [nadd nsub nmul ndiv nofZ NumR]. rewrite c1_val, c3_val.
  pose proof (wvar_nonneg f) as Vf. fold a in Vf.
  set (P := wsum (fun p => f p * f p) - a * a) in *. clearbody P a.
  rewrite structure_denominator_R by (apply Rmult_le_pos; assumption).
  rewrite (sqrt_square P) by assumption. field. nra.
Qed.

(** entries of the map in terms of weighted sums *)
Lemma conv_elem_wsum (M : mat R) r c :
  conv_elem nsim_window M r c = wsum (fun p => at_ M (clamped (nrows M) r (fst p)) (clamped (ncols M) c (snd p))).
Proof. rewrite conv_elem_smooth. reflexivity. Qed.
Lemma clamped_lt n i k : (0 < n)%nat -> (clamped n i k < n)%nat.
Proof. unfold clamped. lia. Qed.

Lemma nsim_map_R (A B : mat R) :
  (0 < nrows A)%nat -> (0 < ncols A)%nat -> nrows A = nrows B -> ncols A = ncols B ->
  exists S, nsim_map A B = Ret S /\ wf S /\ nrows S = nrows A /\ ncols S = ncols A /\
  forall r c, (r < nrows A)%nat -> (c < ncols A)%nat ->
    let f := fun p => at_ A (clamped (nrows A) r (fst p)) (clamped (ncols A) c (snd p)) in
    let g := fun p => at_ B (clamped (nrows A) r (fst p)) (clamped (ncols A) c (snd p)) in
    at_ S r c = nsim_entry (wsum f) (wsum g) (wsum (fun p => f p * f p)) (wsum (fun p => g p * g p))
                           (wsum (fun p => f p * g p)).
Proof.
  intros HR HC ER EC. rewrite nsim_map_spec by assumption. eexists. split; [reflexivity|].
  split; [apply tab_wf|]. split; [reflexivity|]. split; [reflexivity|].
  intros r c Hr Hc f g. rewrite at_tab by assumption. rewrite !conv_elem_wsum.
  unfold sq_tab. cbn [nrows ncols tab]. rewrite <- ER, <- EC.
  assert (G : forall X Y : mat R,
    wsum (fun p => at_ (tab (nrows A) (ncols A) (fun r0 c1 => nmul (at_ X r0 c1) (at_ Y r0 c1)))
                       (clamped (nrows A) r (fst p)) (clamped (ncols A) c (snd p))) =
    wsum (fun p => at_ X (clamped (nrows A) r (fst p)) (clamped (ncols A) c (snd p)) *
                   at_ Y (clamped (nrows A) r (fst p)) (clamped (ncols A) c (snd p)))).
  { intros X Y. apply wsum_ext. intros p. rewrite at_tab by (apply clamped_lt; assumption). reflexivity. }
  rewrite !G. reflexivity.
Qed.

(** row means and deviations *)
Lemma row_list_const (S : mat R) r v : (forall c, (c < ncols S)%nat -> at_ S r c = v) ->
  row_list S r = repeat v (ncols S).
Proof.
  intros H. apply (list_ext _ _ 0).
  - rewrite row_list_length, repeat_length. reflexivity.
  - intros i Hi. rewrite row_list_length in Hi. change 0 with (@n0 R NumR) at 1. rewrite nth_row_list by assumption.
    rewrite nth_indep with (d' := v) by (rewrite repeat_length; assumption).
    rewrite nth_repeat. auto.
Qed.
Lemma rsum_repeat v n : rsum (repeat v n) = INR n * v.
Proof. induction n as [|n IH]; [cbn; lra|]. cbn [repeat rsum]. rewrite IH, S_INR. lra. Qed.
Lemma vmean_R (l : list R) : vmean l = rsum l / INR (length l).
Proof. unfold vmean. rewrite nsum_rsum, nofnat_INR. reflexivity. Qed.
Lemma vmean_repeat v n : (0 < n)%nat -> vmean (repeat v n) = v.
Proof.
  intros H. rewrite vmean_R, rsum_repeat, repeat_length.
  assert (0 < INR n) by (apply lt_0_INR; assumption). field. lra.
Qed.
Lemma vvar_repeat v n : vvar (repeat v n) = 0.
Proof.
  destruct n as [|[|n]]; try reflexivity.
  assert (E : map (fun x => nsub (vmean (repeat v (S (S n)))) x) (repeat v (S (S n))) = repeat 0 (S (S n))).
  { rewrite vmean_repeat by lia. generalize (S (S n)). induction n0 as [|k IH]; [reflexivity|].
    cbn [repeat map]. rewrite IH. f_equal. cbn. lra. }
  unfold vvar. change (repeat v (S (S n))) with (v :: v :: repeat v n) at 1.
  cbv beta iota zeta. rewrite E.
  assert (E2 : forall k, map nsq (repeat 0 k) = repeat 0 k).
  { induction k as [|k IH]; [reflexivity|]. cbn [repeat map]. rewrite IH. f_equal. unfold nsq. cbn. lra. }
  rewrite E2, !nsum_rsum, rsum_repeat. cbn [nsub nmul ndiv NumR]. rewrite !Rmult_0_r.
  unfold Rdiv. rewrite !Rmult_0_l, Rminus_0_r, Rmult_0_l. reflexivity.
Qed.

Lemma rsum_bound l lo hi : (forall x, In x l -> lo <= x <= hi) -> INR (length l) * lo <= rsum l <= INR (length l) * hi.
Proof.
  induction l as [|x l IH]; intros H; [cbn; lra|]. cbn [length rsum]. rewrite S_INR.
  assert (lo <= x <= hi) by (apply H; left; reflexivity).
  assert (INR (length l) * lo <= rsum l <= INR (length l) * hi) by (apply IH; intros; apply H; right; assumption).
  lra.
Qed.
Lemma vmean_bound l lo hi : (0 < length l)%nat -> (forall x, In x l -> lo <= x <= hi) -> lo <= vmean l <= hi.
Proof.
  intros Hl H. rewrite vmean_R. destruct (rsum_bound l lo hi H) as [A B].
  assert (0 < INR (length l)) by (apply lt_0_INR; assumption).
  split.
  - apply Rmult_le_reg_r with (INR (length l)); [assumption|]. unfold Rdiv. rewrite Rmult_assoc, Rinv_l by lra. lra.
  - apply Rmult_le_reg_r with (INR (length l)); [assumption|]. unfold Rdiv. rewrite Rmult_assoc, Rinv_l by lra. lra.
Qed.

Lemma elems_column (g : nat -> R) n : elems (tab n 1 (fun r _ => g r)) = map g (seq 0 n).
Proof. unfold tab. cbn [elems seq flat_map]. apply app_nil_r. Qed.

(** the similarity record in terms of the map *)
Lemma measure_R (A B S : mat R) : nsim_map A B = Ret S -> (0 < ncols S)%nat ->
  exists p, measure_patch_similarity A B = Ret p /\
    wf (ps_means p) /\ nrows (ps_means p) = nrows S /\ ncols (ps_means p) = 1%nat /\
    wf (ps_stddevs p) /\ nrows (ps_stddevs p) = nrows S /\ ncols (ps_stddevs p) = 1%nat /\
    (forall r, (r < nrows S)%nat -> at_ (ps_means p) r 0 = vmean (row_list S r)) /\
    (forall r, (r < nrows S)%nat -> at_ (ps_stddevs p) r 0 = sqrt (vvar (row_list S r))) /\
    ps_sim p = vmean (map (fun r => vmean (row_list S r)) (seq 0 (nrows S))).
Proof.
  intros E HC. unfold measure_patch_similarity. rewrite E. cbn [bind].
  eexists. split; [reflexivity|]. cbn [ps_means ps_stddevs ps_sim].
  unfold m_mean_rows, m_stddev_rows. replace (Nat.eqb (ncols S) 0) with false by (symmetry; apply Nat.eqb_neq; lia).
  split; [apply tab_wf|]. split; [reflexivity|]. split; [reflexivity|].
  split; [apply tab_wf|]. split; [reflexivity|]. split; [reflexivity|].
  split; [intros; rewrite at_tab by lia; reflexivity|].
  split; [intros; rewrite at_tab by lia; reflexivity|].
  rewrite elems_column. cbn [nrows tab].
  generalize (fun r => vmean (row_list S r)). intros g.
  unfold vmean. rewrite map_length, seq_length. reflexivity.
Qed.

Lemma measure_self (A : mat R) : (0 < nrows A)%nat -> (0 < ncols A)%nat ->
  exists p, measure_patch_similarity A A = Ret p /\ ps_sim p = 1 /\
    nrows (ps_means p) = nrows A /\ ncols (ps_means p) = 1%nat /\
    nrows (ps_stddevs p) = nrows A /\ ncols (ps_stddevs p) = 1%nat /\
    forall r, (r < nrows A)%nat -> at_ (ps_means p) r 0 = 1 /\ at_ (ps_stddevs p) r 0 = 0.
Proof.
  intros HR HC. destruct (nsim_map_R A A HR HC eq_refl eq_refl) as (S & E & W & R1 & C1 & G).
  assert (RC : forall r, (r < nrows A)%nat -> row_list S r = repeat 1 (ncols S)).
  { intros r Hr. apply row_list_const. intros c Hc. rewrite C1 in Hc. rewrite (G r c Hr Hc). apply entry_self. }
  destruct (measure_R A A S E ltac:(lia)) as (p & Ep & _ & M1 & M2 & _ & D1 & D2 & GM & GD & GS).
  exists p. split; [exact Ep|]. split.
  { rewrite GS. rewrite R1. rewrite (map_ext_in _ (fun _ => 1)).
    - rewrite vmean_R, map_length, seq_length, rsum_const, seq_length.
      assert (0 < INR (nrows A)) by (apply lt_0_INR; assumption). field. lra.
    - intros r Hr. apply in_seq in Hr. rewrite RC by lia. apply vmean_repeat. lia. }
  rewrite R1 in M1, D1. split; [exact M1|]. split; [exact M2|]. split; [exact D1|]. split; [exact D2|].
  intros r Hr. rewrite GM, GD by lia. rewrite RC by assumption. rewrite vmean_repeat by lia.
  rewrite vvar_repeat, sqrt_0. auto.
Qed.

Lemma measure_bounded (A B : mat R) :
  (0 < nrows A)%nat -> (0 < ncols A)%nat -> nrows A = nrows B -> ncols A = ncols B ->
  exists S p, nsim_map A B = Ret S /\ measure_patch_similarity A B = Ret p /\
    (forall r c, (r < nrows A)%nat -> (c < ncols A)%nat -> -1 <= at_ S r c <= 1) /\
    (forall r, (r < nrows A)%nat -> -1 <= at_ (ps_means p) r 0 <= 1) /\
    -1 <= ps_sim p <= 1.
Proof.
  intros HR HC ER EC. destruct (nsim_map_R A B HR HC ER EC) as (S & E & W & R1 & C1 & G).
  destruct (measure_R A B S E ltac:(lia)) as (p & Ep & _ & M1 & M2 & _ & D1 & D2 & GM & GD & GS).
  assert (GB : forall r c, (r < nrows A)%nat -> (c < ncols A)%nat -> -1 <= at_ S r c <= 1).
  { intros r c Hr Hc. rewrite (G r c Hr Hc).
    pose proof (entry_bound (fun p0 => at_ A (clamped (nrows A) r (fst p0)) (clamped (ncols A) c (snd p0)))
      (fun p0 => at_ B (clamped (nrows A) r (fst p0)) (clamped (ncols A) c (snd p0)))) as H. cbv beta in H.
    match goal with |- -1 <= ?x <= 1 =>
      pose proof (Rle_abs x) as H1; pose proof (Rle_abs (- x)) as H2; rewrite Rabs_Ropp in H2 end.
    lra. }
  assert (GM' : forall r, (r < nrows A)%nat -> -1 <= vmean (row_list S r) <= 1).
  { intros r Hr. apply vmean_bound; [rewrite row_list_length; lia|].
    intros x Hx. unfold row_list in Hx. apply in_map_iff in Hx. destruct Hx as (c & <- & Hc).
    apply in_seq in Hc. apply GB; [assumption|lia]. }
  exists S, p. split; [exact E|]. split; [exact Ep|]. split; [exact GB|].
  split; [intros r Hr; rewrite GM by lia; auto|].
  rewrite GS. apply vmean_bound; [rewrite map_length, seq_length; lia|].
  intros x Hx. apply in_map_iff in Hx. destruct Hx as (r & <- & Hr). apply in_seq in Hr. apply GM'. lia.
Qed.
