(** Proofs about the IIR filter (C37). *)
From Coq Require Import ZArith List Bool Reals Lra Lia Arith.
From Verif Require Import Base.Res Base.Num Base.NumR Base.Lists Model.SignalFilter Spec.FilterSpec
  Proofs.RealP.
Import ListNotations.

Section Generic.
  Context {T : Type} {N : Num T}.

  Lemma filter_cond_length b a x y (f : list T) : length (filter_cond b a x y f) = length f.
  Proof. unfold filter_cond. rewrite map_length, seq_length. reflexivity. Qed.

  Lemma nth_filter_cond b a x y (f : list T) i d : (i < length f)%nat ->
    nth i (filter_cond b a x y f) d =
    if Nat.ltb (S i) (length f)
    then nsub (nadd (nmul (nth (S i) b n0) x) (nth (S i) f n0)) (nmul (nth (S i) a n0) y)
    else nth i f n0.
  Proof. intros H. unfold filter_cond. rewrite nth_map_seq by assumption. reflexivity. Qed.

  Lemma filter_loop_lengths b a sig (f : list T) :
    length (fst (filter_loop b a sig f)) = length sig /\
    length (snd (filter_loop b a sig f)) = length f.
  Proof.
    revert f; induction sig as [|x t IH]; intros f; cbn [filter_loop]; [auto|].
    set (y := nadd (nmul (nth 0 b n0) x) (nth 0 f n0)).
    destruct (IH (filter_cond b a x y f)) as [H1 H2].
    destruct (filter_loop b a t (filter_cond b a x y f)) as [ys f']. cbn [fst snd length] in *.
    rewrite filter_cond_length in H2. auto.
  Qed.

  (** the last condition never changes *)
  Lemma filter_loop_last b a sig (f : list T) d :
    (0 < length f)%nat ->
    nth (length f - 1) (snd (filter_loop b a sig f)) d = nth (length f - 1) f d.
  Proof.
    revert f; induction sig as [|x t IH]; intros f Hf; cbn [filter_loop]; [reflexivity|].
    set (y := nadd (nmul (nth 0 b n0) x) (nth 0 f n0)).
    specialize (IH (filter_cond b a x y f)). rewrite filter_cond_length in IH. specialize (IH Hf).
    destruct (filter_loop b a t (filter_cond b a x y f)) as [ys f']. cbn [snd] in *.
    rewrite IH, nth_filter_cond by lia.
    replace (Nat.ltb (S (length f - 1)) (length f)) with false
      by (symmetry; apply Nat.ltb_ge; lia).
    apply nth_indep; lia.
  Qed.

  Lemma filter_loop_app b a s1 s2 (f : list T) :
    let '(y1, f1) := filter_loop b a s1 f in
    let '(y2, f2) := filter_loop b a s2 f1 in
    filter_loop b a (s1 ++ s2) f = (y1 ++ y2, f2).
  Proof.
    revert f; induction s1 as [|x t IH]; intros f; cbn [filter_loop app].
    - destruct (filter_loop b a s2 f); reflexivity.
    - set (y := nadd (nmul (nth 0 b n0) x) (nth 0 f n0)).
      specialize (IH (filter_cond b a x y f)).
      destruct (filter_loop b a t (filter_cond b a x y f)) as [y1 f1].
      destruct (filter_loop b a s2 f1) as [y2 f2]. rewrite IH. reflexivity.
  Qed.

  Definition pad (n : nat) (ic : list T) : list T := ic ++ repeat n0 (n - length ic).
  Lemma pad_length n ic : (length ic <= n)%nat -> length (pad n ic) = n.
  Proof. intros H. unfold pad. rewrite app_length, repeat_length. lia. Qed.
  Lemma nth_pad n ic i : nth i (pad n ic) n0 = nth i ic n0.
  Proof.
    unfold pad. destruct (Nat.lt_ge_cases i (length ic)).
    - apply app_nth1; assumption.
    - rewrite app_nth2, nth_repeat by assumption. symmetry. apply nth_overflow; assumption.
  Qed.

  Lemma signal_filter_unfold b a sig (ic : list T) :
    (length ic <= length a)%nat -> (0 < length a <= length b)%nat ->
    signal_filter b a sig ic =
    Ret (fst (filter_loop b a sig (pad (length a) ic)),
         firstn (length a - 1) (snd (filter_loop b a sig (pad (length a) ic)))).
  Proof.
    intros H1 H2. unfold signal_filter.
    replace (Nat.ltb (length a) (length ic)) with false by (symmetry; apply Nat.ltb_ge; lia).
    replace (Nat.eqb (length a) 0) with false by (symmetry; apply Nat.eqb_neq; lia).
    replace (Nat.ltb (length b) (length a)) with false by (symmetry; apply Nat.ltb_ge; lia).
    cbn [orb]. change (ic ++ repeat n0 (length a - length ic)) with (pad (length a) ic).
    destruct (filter_loop b a sig (pad (length a) ic)); reflexivity.
  Qed.

  Lemma signal_filter_pieces b a s1 s2 (ic : list T) :
    (length ic < length a)%nat -> (length a <= length b)%nat ->
    exists y1 f1 y2 f2,
      signal_filter b a s1 ic = Ret (y1, f1) /\ signal_filter b a s2 f1 = Ret (y2, f2) /\
      signal_filter b a (s1 ++ s2) ic = Ret (y1 ++ y2, f2).
  Proof.
    intros H1 H2. set (n := length a) in *.
    rewrite (signal_filter_unfold b a s1), (signal_filter_unfold b a (s1 ++ s2)) by (unfold n in *; lia).
    fold n. destruct (filter_loop_lengths b a s1 (pad n ic)) as [L1 L2].
    pose proof (filter_loop_last b a s1 (pad n ic) n0) as E.
    rewrite pad_length in * by lia. specialize (E ltac:(lia)).
    rewrite nth_pad, (nth_overflow ic) in E by lia.
    pose proof (filter_loop_app b a s1 s2 (pad n ic)) as EA.
    destruct (filter_loop b a s1 (pad n ic)) as [y1 g1]. cbn [fst snd] in *.
    assert (EP : pad n (firstn (n - 1) g1) = g1).
    { unfold pad. rewrite firstn_length_le by lia.
      replace (n - (n - 1))%nat with 1%nat by lia. cbn [repeat].
      apply (list_ext _ _ n0).
      - rewrite app_length, firstn_length_le by lia. cbn [length]. lia.
      - intros i Hi. rewrite app_length, firstn_length_le in Hi by lia. cbn [length] in Hi.
        destruct (Nat.eq_dec i (n - 1)) as [->|Hne].
        + rewrite app_nth2 by (rewrite firstn_length_le by lia; lia).
          rewrite firstn_length_le, Nat.sub_diag by lia. symmetry; exact E.
        + rewrite app_nth1 by (rewrite firstn_length_le by lia; lia).
          apply nth_firstn; lia. }
    eexists _, _, (fst (filter_loop b a s2 g1)), _. split; [reflexivity|].
    rewrite (signal_filter_unfold b a s2); [|rewrite firstn_length_le; fold n; lia|fold n; lia].
    fold n. rewrite EP. split; [reflexivity|].
    destruct (filter_loop b a s2 g1) as [y2 g2]. rewrite EA. reflexivity.
  Qed.
End Generic.

Open Scope R_scope.

Lemma conv_rsum c s t : conv c s t = rsum (map (fun k => nth k c 0 * nth (t - k) s 0) (seq 0 (S t))).
Proof.
  unfold conv. induction (map _ _) as [|x l IH]; [reflexivity|]. cbn. rewrite IH. reflexivity.
Qed.
Lemma conv_0 c s : conv c s 0 = nth 0 c 0 * nth 0 s 0.
Proof. rewrite conv_rsum. cbn. lra. Qed.
(** splitting off the oldest sample *)
Lemma conv_cons c x s t : conv c (x :: s) (S t) = conv c s t + nth (S t) c 0 * x.
Proof.
  rewrite !conv_rsum. rewrite (seq_S (S t)), map_app, rsum_app. cbn [map rsum Nat.add].
  rewrite Nat.sub_diag. cbn [nth]. rewrite Rplus_0_r. f_equal.
  f_equal. apply map_ext_in. intros k Hk. apply in_seq in Hk.
  replace (S t - k)%nat with (S (t - k)) by lia. reflexivity.
Qed.
Lemma filter_loop_eq (b a sig f : list R) :
  length b = length a -> length f = length a -> (0 < length a)%nat -> nth (length a - 1) f 0 = 0 ->
  forall t, (t < length sig)%nat ->
    nth t (fst (filter_loop b a sig f)) 0 =
    conv b sig t - conv (0 :: tl a) (fst (filter_loop b a sig f)) t + nth t f 0.
Proof.
  intros Hb. revert f; induction sig as [|x s IH]; intros f Hf Ha Hl t Ht; [cbn [length] in Ht; lia|].
  cbn [filter_loop].
  set (y := nadd (nmul (nth 0 b n0) x) (nth 0 f n0)).
  set (f' := filter_cond b a x y f).
  assert (Hf' : length f' = length a) by (unfold f'; rewrite filter_cond_length; assumption).
  assert (Hl' : nth (length a - 1) f' 0 = 0).
  { unfold f'. rewrite nth_filter_cond by lia.
    replace (Nat.ltb (S (length a - 1)) (length f)) with false by (symmetry; apply Nat.ltb_ge; lia).
    exact Hl. }
  specialize (IH f' Hf' Ha Hl').
  assert (Hn : forall i, nth i f' 0 = nth (S i) b 0 * x + nth (S i) f 0 - nth (S i) a 0 * y).
  { intros i. destruct (Nat.lt_ge_cases (S i) (length a)).
    - unfold f'. rewrite nth_filter_cond by lia.
      replace (Nat.ltb (S i) (length f)) with true by (symmetry; apply Nat.ltb_lt; lia). reflexivity.
    - rewrite (nth_overflow b), (nth_overflow f), (nth_overflow a) by lia.
      destruct (Nat.eq_dec i (length a - 1)) as [->|]; [rewrite Hl'; lra|].
      rewrite nth_overflow by lia. lra. }
  clearbody f'.
  destruct (filter_loop b a s f') as [ys g]. cbn [fst] in *.
  destruct t as [|t].
  - rewrite !conv_0. cbn [nth]. unfold y. cbn. lra.
  - cbn [length] in Ht. rewrite !conv_cons. cbn [nth].
    rewrite IH by lia. rewrite Hn.
    replace (nth t (tl a) 0) with (nth (S t) a 0) by (destruct a; destruct t; reflexivity). lra.
Qed.

Lemma signal_filter_difference (b a sig ic : list R) :
  length b = length a -> (length ic < length a)%nat ->
  exists y f, signal_filter b a sig ic = Ret (y, f) /\ length y = length sig /\
    length f = (length a - 1)%nat /\
    forall t, (t < length sig)%nat ->
      nth t y 0 = conv b sig t - conv (0 :: tl a) y t + nth t ic 0.
Proof.
  intros Hb Hi. rewrite signal_filter_unfold by lia. eexists _, _. split; [reflexivity|].
  destruct (filter_loop_lengths b a sig (pad (length a) ic)) as [L1 L2].
  rewrite pad_length in L2 by lia.
  split; [exact L1|]. split; [rewrite firstn_length_le; lia|].
  intros t Ht. rewrite (filter_loop_eq b a sig (pad (length a) ic) Hb); [|rewrite pad_length; lia|lia| |exact Ht].
  - f_equal. exact (nth_pad (length a) ic t).
  - change 0 with (@n0 R NumR). rewrite nth_pad. apply nth_overflow; lia.
Qed.

(** linearity *)
Definition lin (p q : R) (u v : list R) : list R :=
  map (fun i => p * nth i u 0 + q * nth i v 0) (seq 0 (length u)).
Lemma lin_length p q u v : length (lin p q u v) = length u.
Proof. unfold lin. rewrite map_length, seq_length. reflexivity. Qed.
Lemma nth_lin p q u v i : length u = length v -> nth i (lin p q u v) 0 = p * nth i u 0 + q * nth i v 0.
Proof.
  intros H. destruct (Nat.lt_ge_cases i (length u)).
  - unfold lin. rewrite nth_map_seq by assumption. reflexivity.
  - rewrite !nth_overflow by (rewrite ?lin_length; lia). lra.
Qed.
Lemma lin_cons p q x u y v : lin p q (x :: u) (y :: v) = (p * x + q * y) :: lin p q u v.
Proof.
  unfold lin. cbn [length seq map nth]. f_equal. rewrite <- seq_shift, map_map. reflexivity.
Qed.

Lemma filter_loop_lin (b a : list R) p q s : forall s' f f',
  length s = length s' -> length f = length f' ->
  filter_loop b a (lin p q s s') (lin p q f f') =
  (lin p q (fst (filter_loop b a s f)) (fst (filter_loop b a s' f')),
   lin p q (snd (filter_loop b a s f)) (snd (filter_loop b a s' f'))).
Proof.
  induction s as [|x s IH]; intros [|x' s'] f f' Hs Hf; try discriminate; [reflexivity|].
  injection Hs as Hs. rewrite lin_cons. cbn [filter_loop].
  set (y := nadd (nmul (nth 0 b n0) x) (nth 0 f n0)).
  set (y' := nadd (nmul (nth 0 b n0) x') (nth 0 f' n0)).
  set (Y := nadd _ (nth 0 (lin p q f f') n0)).
  assert (EY : Y = p * y + q * y').
  { unfold Y, y, y'. change (@n0 R NumR) with 0. rewrite nth_lin by assumption. cbn. lra. }
  clearbody Y. subst Y.
  replace (filter_cond b a (p * x + q * x') (p * y + q * y') (lin p q f f'))
    with (lin p q (filter_cond b a x y f) (filter_cond b a x' y' f')).
  - rewrite IH by (rewrite ?filter_cond_length; assumption).
    destruct (filter_loop b a s _) as [ys g], (filter_loop b a s' _) as [ys' g'].
    cbn [fst snd]. rewrite lin_cons. reflexivity.
  - apply (list_ext _ _ 0); [rewrite lin_length, !filter_cond_length, lin_length; reflexivity|].
    intros i Hi. rewrite lin_length, filter_cond_length in Hi.
    rewrite nth_lin by (rewrite !filter_cond_length; assumption).
    rewrite !nth_filter_cond by (rewrite ?lin_length; lia). rewrite lin_length, <- Hf.
    change (@n0 R NumR) with 0.
    destruct (Nat.ltb (S i) (length f)); rewrite !nth_lin by assumption; cbn; lra.
Qed.

Lemma lin_firstn p q n u v : length u = length v -> firstn n (lin p q u v) = lin p q (firstn n u) (firstn n v).
Proof.
  revert u v; induction n as [|n IH]; intros [|x u] [|y v] H; try discriminate; try reflexivity.
  rewrite lin_cons. cbn [firstn]. rewrite lin_cons. f_equal. apply IH. injection H as H; exact H.
Qed.
Lemma lin_pad p q n u v : length u = length v ->
  pad n (lin p q u v) = lin p q (pad n u) (pad n v).
Proof.
  intros H. apply (list_ext _ _ 0).
  - unfold pad at 1. rewrite app_length, repeat_length, !lin_length. unfold pad.
    rewrite app_length, repeat_length. reflexivity.
  - intros i _. change 0 with (@n0 R NumR) at 1. rewrite nth_pad. change (@n0 R NumR) with 0.
    rewrite nth_lin by assumption. rewrite nth_lin.
    + change 0 with (@n0 R NumR). rewrite !nth_pad. reflexivity.
    + unfold pad. rewrite !app_length, !repeat_length, H. reflexivity.
Qed.

Lemma signal_filter_linear (b a : list R) p q s s' ic ic' :
  (length ic <= length a)%nat -> (0 < length a <= length b)%nat ->
  length s = length s' -> length ic = length ic' ->
  exists y f y' f',
    signal_filter b a s ic = Ret (y, f) /\ signal_filter b a s' ic' = Ret (y', f') /\
    signal_filter b a (lin p q s s') (lin p q ic ic') = Ret (lin p q y y', lin p q f f').
Proof.
  intros H1 H2 H3 H4. do 4 eexists. split; [apply signal_filter_unfold; lia|].
  split; [apply signal_filter_unfold; lia|].
  rewrite signal_filter_unfold by (rewrite ?lin_length; lia).
  rewrite lin_pad by assumption.
  rewrite filter_loop_lin by (rewrite ?pad_length; lia). cbn [fst snd].
  rewrite lin_firstn; [reflexivity|].
  rewrite (proj2 (filter_loop_lengths b a s _)), (proj2 (filter_loop_lengths b a s' _)).
  rewrite !pad_length; lia.
Qed.

Lemma conv_head c s t : conv c s t = nth 0 c 0 * nth t s 0 + conv (0 :: tl c) s t.
Proof.
  rewrite !conv_rsum. cbn [seq map rsum]. rewrite Nat.sub_0_r. cbn [nth].
  assert (E : map (fun k => nth k c 0 * nth (t - k) s 0) (seq 1 t) =
              map (fun k => match k with 0%nat => 0 | S m => nth m (tl c) 0 end * nth (t - k) s 0) (seq 1 t)).
  { apply map_ext_in. intros k Hk. apply in_seq in Hk. destruct k as [|k]; [lia|].
    destruct c; destruct k; reflexivity. }
  rewrite E. lra.
Qed.

Lemma signal_filter_equation (b a sig ic : list R) :
  length b = length a -> (length ic < length a)%nat -> nth 0 a 0 = 1 ->
  exists y f, signal_filter b a sig ic = Ret (y, f) /\ length y = length sig /\
    length f = (length a - 1)%nat /\
    forall t, (t < length sig)%nat -> conv a y t = conv b sig t + nth t ic 0.
Proof.
  intros Hb Hi Ha. destruct (signal_filter_difference b a sig ic Hb Hi) as (y & f & E & L1 & L2 & H).
  exists y, f. split; [exact E|]. split; [exact L1|]. split; [exact L2|].
  intros t Ht. rewrite conv_head, Ha, (H t Ht) at 1. lra.
Qed.

(** the leading denominator coefficient is not divided by *)
Lemma a0_ignored : signal_filter [1] [2] [1] [] = Ret ([1], []).
Proof.
  rewrite signal_filter_unfold by (cbn; lia).
  replace (fst (filter_loop [1] [2] [1] (pad (length [2]) []))) with [1]; [reflexivity|].
  cbn. change (@n0 R NumR) with 0. f_equal. lra.
Qed.
(** numerator coefficients beyond the denominator's length are not used *)
Lemma long_numerator_ignored : exists f, signal_filter [1; 5] [1] [1; 0] [] = Ret ([1; 0], f).
Proof.
  rewrite signal_filter_unfold by (cbn; lia). eexists. f_equal. f_equal.
  cbn. change (@n0 R NumR) with 0. repeat f_equal; lra.
Qed.
