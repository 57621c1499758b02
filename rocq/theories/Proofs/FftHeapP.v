(** The FFT buffers: single-block programs (C86). *)
From Coq Require Import ZArith List Bool Lia.
From Coq Require Import ZifyBool ZifyNat.
From Verif Require Import Base.Res Base.Num Base.Lists Base.Cplx Model.MiscMath Model.Fft Model.FftHeap Proofs.FftP.
Import ListNotations.
Open Scope nat_scope.

Section Acts.
  Context {T : Type} {N : Num T}.
  Notation heap := (heap T).
  Definition lk (h : heap) (i : nat) : option cells := nth i h None.
  Definition only (i : nat) (h h' : heap) : Prop := length h' = length h /\ forall j, j <> i -> lk h' j = lk h j.

  (** a program that touches only block i, turning its cells c into c' *)
  Definition acts {A} (p : prog A) (i : nat) (c : cells) (a : A) (c' : cells) : Prop :=
    forall h, lk h i = Some c -> exists h', p h = Ret (a, h') /\ lk h' i = Some c' /\ only i h h'.

  Lemma lk_lt h i c : lk h i = Some c -> i < length h.
  Proof. intros H. destruct (Nat.lt_ge_cases i (length h)) as [C|C]; [exact C|]. unfold lk in H. rewrite nth_overflow in H by exact C. discriminate. Qed.
  Lemma lk_over h i : length h <= i -> lk h i = None.
  Proof. intros H. apply nth_overflow, H. Qed.

  Lemma acts_done {A} (a : A) i c : acts (done a) i c a c.
  Proof. intros h H. exists h. split; [reflexivity|]. split; [exact H|split; auto]. Qed.
  Lemma acts_next {A B} (x : prog A) (f : A -> prog B) i c a c1 b c2 : acts x i c a c1 -> acts (f a) i c1 b c2 -> acts (next x f) i c b c2.
  Proof.
    intros H1 H2 h H. destruct (H1 h H) as (h1 & E1 & L1 & F1 & G1). destruct (H2 h1 L1) as (h2 & E2 & L2 & F2 & G2).
    exists h2. unfold next. rewrite E1. cbn [bind]. split; [exact E2|]. split; [exact L2|]. split; [congruence|].
    intros j Hj. rewrite G2, G1 by exact Hj. reflexivity.
  Qed.
  Lemma acts_block {A} (f : cells -> res (A * cells)) i c a c' : f c = Ret (a, c') -> acts (with_block (Some i) f) i c a c'.
  Proof.
    intros E h H. exists (upd h i (Some c')). unfold with_block. unfold lk in H. rewrite H, E. cbn [bind]. split; [reflexivity|].
    split; [apply nth_upd_same, (lk_lt h i c H)|]. split; [apply upd_length|]. intros j Hj. apply nth_upd_other. auto.
  Qed.
  Lemma acts_load i c k v : nth_error c k = Some (Some v) -> acts (load (Some i) k) i c v c.
  Proof. intros E. apply acts_block. rewrite E. reflexivity. Qed.
  Lemma acts_store i c k v : k < length c -> acts (store (Some i) k v) i c tt (upd c k (Some v)).
  Proof. intros E. apply acts_block. apply Nat.ltb_lt in E. rewrite E. reflexivity. Qed.
  Lemma written_spec (l : list T) r : written (map Some l ++ r) (length l) = Some l.
  Proof.
    unfold written. rewrite app_length, map_length. replace (Nat.leb _ _) with true by (symmetry; apply Nat.leb_le; lia).
    replace (firstn (length l) (map Some l ++ r)) with (map (@Some T) l).
    - induction l as [|x l IH]; [reflexivity|]. cbn [map fold_right]. rewrite IH. reflexivity.
    - rewrite firstn_app, map_length, Nat.sub_diag. cbn [firstn]. rewrite app_nil_r, <- (map_length Some l) at 1. now rewrite firstn_all.
  Qed.
  Lemma acts_read i (l : list T) r n : n = length l -> acts (read (Some i) n) i (map Some l ++ r) l (map Some l ++ r).
  Proof. intros ->. apply acts_block. rewrite written_spec. reflexivity. Qed.
  Lemma acts_write i (l : list T) c : length l <= length c -> acts (write (Some i) l) i c tt (map Some l ++ skipn (length l) c).
  Proof. intros E. apply acts_block. apply Nat.leb_le in E. rewrite E. reflexivity. Qed.
  Lemma acts_clobber i n c : n <= length c -> acts (clobber (Some i) n) i c tt (repeat None n ++ skipn n c).
  Proof. intros E. apply acts_block. apply Nat.leb_le in E. rewrite E. reflexivity. Qed.

  Lemma acts_loop (body : nat -> prog unit) i (P : nat -> cells -> Prop) : forall n s c, P s c ->
    (forall k c, s <= k < s + n -> P k c -> exists c', acts (body k) i c tt c' /\ P (S k) c') ->
    exists c', acts (loop n s body) i c tt c' /\ P (s + n) c'.
  Proof.
    induction n as [|n IH]; intros s c H HB.
    - exists c. split; [apply acts_done|]. now rewrite Nat.add_0_r.
    - destruct (HB s c ltac:(lia) H) as (c1 & A1 & P1).
      destruct (IH (S s) c1 P1) as (c2 & A2 & P2). { intros k c' Hk. apply HB. lia. }
      exists c2. split; [|now replace (s + S n) with (S s + n) by lia]. cbn [loop]. eapply acts_next; [exact A1|exact A2].
  Qed.
  Lemma acts_gather {A} (body : nat -> prog A) (g : nat -> A) i c : forall n s,
    (forall k, s <= k < s + n -> acts (body k) i c (g k) c) -> acts (gather n s body) i c (map g (seq s n)) c.
  Proof.
    induction n as [|n IH]; intros s H; [apply acts_done|]. cbn [gather seq map].
    eapply acts_next; [apply H; lia|]. eapply acts_next; [apply IH; intros k Hk; apply H; lia|]. apply acts_done.
  Qed.

  (** *** contents *)
  Lemma upd_app (A : Type) (l : list A) x r v : upd (l ++ x :: r) (length l) v = l ++ v :: r.
  Proof. induction l as [|y l IH]; [reflexivity|]. cbn [List.app length upd]. now rewrite IH. Qed.
  Lemma upd_app_at (A : Type) (l : list A) x r v k : k = length l -> upd (l ++ x :: r) k v = l ++ v :: r.
  Proof. intros ->. apply upd_app. Qed.
  Lemma map_upd (A B : Type) (f : A -> B) l : forall k v, map f (upd l k v) = upd (map f l) k (f v).
  Proof. induction l as [|x l IH]; intros [|k] v; cbn [upd map]; [reflexivity..|]. now rewrite IH. Qed.
  Lemma firstn_snoc (A : Type) (l : list A) : forall k x, nth_error l k = Some x -> firstn (S k) l = firstn k l ++ [x].
  Proof.
    induction l as [|y l IH]; intros [|k] x H; cbn [nth_error] in H; try discriminate.
    - injection H as ->. reflexivity.
    - change (firstn (S (S k)) (y :: l)) with (y :: firstn (S k) l). rewrite (IH _ _ H). reflexivity.
  Qed.
  Lemma some_nth (A : Type) (l : list A) k d : k < length l -> nth_error l k = Some (nth k l d).
  Proof. intros H. apply nth_error_nth'. exact H. Qed.

  (** storing a signal *)
  Lemma store_signal i (f32 : T -> T) (sig : list T) n : n <= length sig ->
    acts (loop n 0 (fun k => next (item sig k) (fun x => store (Some i) k (f32 x)))) i (repeat (Some n0) n) tt
         (map Some (map f32 (firstn n sig))).
  Proof.
    intros Hn. destruct (acts_loop (fun k => next (item sig k) (fun x => store (Some i) k (f32 x))) i
      (fun k c => k <= n /\ c = map Some (map f32 (firstn k sig)) ++ repeat (Some n0) (n - k)) n 0 (repeat (Some n0) n)) as (c' & A & _ & E).
    - split; [lia|]. cbn [firstn map List.app]. now rewrite Nat.sub_0_r.
    - intros k c Hk [_ ->]. eexists. split; [|split; [lia|reflexivity]].
      pose proof (some_nth _ sig k n0 ltac:(lia)) as EN. unfold item. rewrite EN.
      eapply acts_next; [apply acts_done|].
      rewrite (firstn_snoc _ sig k _ EN), !map_app, <- app_assoc. cbn [map List.app].
      replace (n - k) with (S (n - S k)) by lia. cbn [repeat].
      assert (LK : length (map (@Some T) (map f32 (firstn k sig))) = k) by (rewrite !map_length, firstn_length; lia).
      match goal with |- acts _ i (?a ++ ?x :: ?r) _ (_ ++ ?v :: _) => rewrite <- (upd_app_at _ a x r v k (eq_sym LK)) end.
      apply acts_store. rewrite app_length, LK. cbn [length]. lia.
    - rewrite Nat.add_0_l, Nat.sub_diag in E. cbn [repeat] in E. rewrite app_nil_r in E. subst c'. exact A.
  Qed.

  (** storing the first half of a spectrum *)
  Definition packed (f32 : T -> T) (l : list (cplx T)) : list T := map f32 (unpairs l).
  Lemma unpairs_app (l l' : list (cplx T)) : unpairs (l ++ l') = unpairs l ++ unpairs l'.
  Proof. induction l as [|[a b] l IH]; [reflexivity|]. cbn [unpairs List.app]. now rewrite IH. Qed.
  Lemma unpairs_length (l : list (cplx T)) : length (unpairs l) = 2 * length l.
  Proof. induction l as [|[a b] l IH]; [reflexivity|]. cbn [unpairs length]. rewrite IH. lia. Qed.
  Lemma store_spectrum i (f32 : T -> T) (spec : list (cplx T)) m : m <= length spec ->
    acts (loop m 0 (fun k => next (item spec k) (fun z =>
            next (store (Some i) (2 * k) (f32 (cre z))) (fun _ => store (Some i) (2 * k + 1) (f32 (cim z)))))) i (repeat (Some n0) (2 * m)) tt
         (map Some (packed f32 (firstn m spec))).
  Proof.
    intros Hn. match goal with |- acts (loop _ _ ?b) _ _ _ _ =>
      destruct (acts_loop b i (fun k c => k <= m /\ c = map Some (packed f32 (firstn k spec)) ++ repeat (Some n0) (2 * (m - k))) m 0 (repeat (Some n0) (2 * m)))
        as (c' & A & _ & E) end.
    - split; [lia|]. cbn [firstn packed unpairs map List.app]. unfold packed. cbn [unpairs map List.app]. now rewrite Nat.sub_0_r.
    - intros k c Hk [_ ->]. eexists. split; [|split; [lia|reflexivity]].
      destruct (nth_error spec k) as [[a b]|] eqn:EN; [|apply nth_error_None in EN; lia]. unfold item. rewrite EN.
      eapply acts_next; [apply acts_done|]. cbn [cre cim fst snd].
      rewrite (firstn_snoc _ spec k _ EN). unfold packed. rewrite unpairs_app, !map_app, <- app_assoc. cbn [unpairs map List.app].
      replace (2 * (m - k)) with (S (S (2 * (m - S k)))) by lia. cbn [repeat].
      assert (LK : length (map (@Some T) (map f32 (unpairs (firstn k spec)))) = 2 * k) by (rewrite !map_length, unpairs_length, firstn_length; lia).
      set (p := map (@Some T) (map f32 (unpairs (firstn k spec)))) in *. set (r := repeat (Some n0) (2 * (m - S k))).
      eapply acts_next.
      + apply acts_store. rewrite app_length. cbn [length]. lia.
      + rewrite (upd_app_at _ p _ (Some n0 :: r) _ (2 * k) (eq_sym LK)).
        replace (p ++ Some (f32 a) :: Some (f32 b) :: r) with (upd (p ++ Some (f32 a) :: Some n0 :: r) (2 * k + 1) (Some (f32 b))).
        * apply acts_store. rewrite app_length. cbn [length]. lia.
        * change (Some (f32 a) :: Some n0 :: r) with ([Some (f32 a)] ++ Some n0 :: r).
          change (Some (f32 a) :: Some (f32 b) :: r) with ([Some (f32 a)] ++ Some (f32 b) :: r). rewrite !app_assoc. apply upd_app_at. rewrite app_length. cbn [length]. lia.
    - rewrite Nat.add_0_l, Nat.sub_diag in E. cbn [repeat Nat.mul Nat.add] in E. rewrite app_nil_r in E. subst c'. exact A.
  Qed.

  (** multiplying in place *)
  Definition part (g : T) (k : nat) (l : list T) : list T := map (fun x => nmul x g) (firstn k l) ++ skipn k l.
  Lemma part_length g k l : length (part g k l) = length l.
  Proof. unfold part. rewrite app_length, map_length, firstn_length, skipn_length. lia. Qed.
  Lemma part_nth g k l j : k <= j < length l -> nth_error (map Some (part g k l)) j = Some (Some (nth j l n0)).
  Proof.
    intros H. rewrite (map_nth_error Some j (part g k l) (d := nth j l n0)); [reflexivity|].
    unfold part. rewrite nth_error_app2 by (rewrite map_length, firstn_length; lia). rewrite map_length, firstn_length.
    rewrite (some_nth _ (skipn k l) (j - Nat.min k (length l)) n0) by (rewrite skipn_length; lia). rewrite nth_skipn. f_equal. f_equal. lia.
  Qed.
  Lemma part_upd g k l : k < length l -> upd (map Some (part g k l)) k (Some (nmul (nth k l n0) g)) = map Some (part g (S k) l).
  Proof.
    intros H. rewrite <- map_upd. f_equal. unfold part. rewrite (firstn_snoc _ l k _ (some_nth _ l k n0 H)), map_app, <- app_assoc. cbn [map List.app].
    assert (ES : skipn k l = nth k l n0 :: skipn (S k) l).
    { clear -H. revert k H. induction l as [|x l IH]; intros [|k] H; cbn [length] in H; [lia|lia|reflexivity|]. cbn [skipn nth]. apply IH. lia. }
    rewrite ES. apply upd_app_at. rewrite map_length, firstn_length. lia.
  Qed.
  Lemma mul_one i g k l : k < length l ->
    acts (next (load (Some i) k) (fun x => store (Some i) k (nmul x g))) i (map Some (part g k l)) tt (map Some (part g (S k) l)).
  Proof.
    intros H. eapply acts_next; [apply acts_load, part_nth; lia|]. rewrite <- part_upd by exact H. apply acts_store. rewrite map_length, part_length. exact H.
  Qed.
  Lemma store_part i g k l : k < length l -> acts (store (Some i) k (nmul (nth k l n0) g)) i (map Some (part g k l)) tt (map Some (part g (S k) l)).
  Proof. intros H. rewrite <- part_upd by exact H. apply acts_store. rewrite map_length, part_length. exact H. Qed.
  Lemma mul_four i g k l : 4 * k + 3 < length l -> acts (mul_vector g (Some i) k) i (map Some (part g (4 * k) l)) tt (map Some (part g (4 * S k) l)).
  Proof.
    intros H. unfold mul_vector.
    eapply acts_next; [apply acts_load, part_nth; lia|]. eapply acts_next; [apply acts_load, part_nth; lia|].
    eapply acts_next; [apply acts_load, part_nth; lia|]. eapply acts_next; [apply acts_load, part_nth; lia|].
    replace (4 * S k) with (S (4 * k + 3)) by lia.
    eapply acts_next; [apply store_part; lia|]. replace (S (4 * k)) with (4 * k + 1) by lia.
    eapply acts_next; [apply store_part; lia|]. replace (S (4 * k + 1)) with (4 * k + 2) by lia.
    eapply acts_next; [apply store_part; lia|]. replace (S (4 * k + 2)) with (4 * k + 3) by lia. apply store_part. lia.
  Qed.
  Lemma multiply_acts i g (l : list T) n : n = length l ->
    acts (scalar_multiply n g (Some i)) i (map Some l) tt (map Some (simd_scalar_multiply g l)).
  Proof.
    intros ->. unfold scalar_multiply.
    destruct (acts_loop (mul_vector g (Some i)) i (fun k c => c = map Some (part g (4 * k) l)) (length l / 4) 0 (map Some l)) as (c1 & A1 & E1).
    - reflexivity.
    - intros k c Hk ->. eexists. split; [apply mul_four; lia|reflexivity].
    - rewrite Nat.add_0_l in E1.
      destruct (acts_loop (fun j => next (load (Some i) j) (fun x => store (Some i) j (nmul x g))) i (fun k c => c = map Some (part g k l))
                 (length l mod 4) (length l - length l mod 4) c1) as (c2 & A2 & E2).
      + rewrite E1. do 2 f_equal. lia.
      + intros k c Hk ->. eexists. split; [apply mul_one; lia|reflexivity].
      + eapply acts_next; [exact A1|]. rewrite E2 in A2. replace (length l - length l mod 4 + length l mod 4) with (length l) in A2 by lia.
        rewrite simd_spec. unfold part in A2. rewrite firstn_all, skipn_all, app_nil_r in A2. exact A2.
  Qed.

  (** reading the result *)
  Lemma unpairs_pairs h : forall l : list T, length l = 2 * h -> unpairs (map (fun k => (nth (2 * k) l n0, nth (2 * k + 1) l n0)) (seq 0 h)) = l.
  Proof.
    induction h as [|h IH]; intros l Hl; [destruct l; [reflexivity|discriminate]|].
    destruct l as [|a [|b l]]; [discriminate|cbn in Hl; lia|]. cbn [seq map unpairs nth Nat.mul Nat.add]. rewrite <- seq_shift, map_map.
    f_equal. f_equal. transitivity (unpairs (map (fun k => (nth (2 * k) l n0, nth (2 * k + 1) l n0)) (seq 0 h))); [|apply IH; cbn in Hl; lia]. f_equal. apply map_ext. intros k.
    replace (S k + (S k + 0)) with (S (S (2 * k))) by lia. reflexivity.
  Qed.
  Lemma gather_pairs i (l : list T) h : length l = 2 * h ->
    acts (gather h 0 (fun k => next (load (Some i) (2 * k)) (fun re => next (load (Some i) (2 * k + 1)) (fun im => done (re, im))))) i (map Some l)
         (map (fun k => (nth (2 * k) l n0, nth (2 * k + 1) l n0)) (seq 0 h)) (map Some l).
  Proof.
    intros Hl. apply acts_gather. intros k Hk.
    eapply acts_next; [apply acts_load; apply map_nth_error, some_nth; lia|]. eapply acts_next; [apply acts_load; apply map_nth_error, some_nth; lia|]. apply acts_done.
  Qed.
  Lemma gather_real i (l : list T) n : length l = n ->
    acts (gather n 0 (fun k => next (load (Some i) k) (fun x => done (x, n0)))) i (map Some l) (map (fun x => (x, n0)) l) (map Some l).
  Proof.
    intros <-. replace (map (fun x => (x, n0)) l) with (map (fun k => (nth k l n0, n0)) (seq 0 (length l))).
    - apply acts_gather. intros k Hk. eapply acts_next; [apply acts_load; apply map_nth_error, some_nth; lia|]. apply acts_done.
    - apply (list_ext _ _ (n0, n0)); [now rewrite !map_length, seq_length|]. rewrite map_length, seq_length. intros k Hk.
      rewrite nth_map_seq by exact Hk. symmetry. exact (map_nth (fun x => (x, n0)) l n0 k).
  Qed.
End Acts.
