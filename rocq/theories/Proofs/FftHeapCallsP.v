(** The FFT buffers: the manager and its calls (C86). *)
From Coq Require Import ZArith List Bool Lia.
From Coq Require Import ZifyBool ZifyNat.
From Verif Require Import Base.Res Base.Num Base.Lists Base.Cplx Model.MiscMath Model.Fft Model.FftHeap
  Spec.FftHeapSpec Proofs.FftP Proofs.FftHeapP.
Import ListNotations.
Open Scope nat_scope.

Lemma size_facts n : (Z.of_nat n <= 2 ^ 30)%Z -> let m := fm_size (make_fft_manager n) in
  (exists h, m = 2 * h /\ 16 <= h) /\ n <= m /\
  ((2 ^ Z.log2 (Z.of_nat m) =? Z.of_nat m)%Z && (32 <=? Z.of_nat m)%Z && (Z.of_nat m <? 2 ^ 31)%Z = true).
Proof.
  intros H. destruct (Nat.eq_dec n 0) as [->|N]; [split; [|split; [|reflexivity]]|].
  - exists 16. split; [reflexivity|lia].
  - cbn. lia.
  - assert (R : (1 <= Z.of_nat n <= 2 ^ 31)%Z) by lia. intros m. split; [exact (fm_size_even n R)|]. split; [exact (fm_size_ge n R)|].
    unfold m. rewrite (fm_size_spec n R). set (e := Z.log2_up (Z.of_nat n)).
    assert (E : (0 <= e <= 30)%Z).
    { split; [apply Z.log2_up_nonneg|]. change 30%Z with (Z.log2_up (2 ^ 30)). apply Z.log2_up_le_mono. exact H. }
    assert (P : (2 ^ e <= 2 ^ 30)%Z) by (apply Z.pow_le_mono_r; lia).
    destruct (Z.max_spec (2 ^ e) 32) as [[_ ->]|[L ->]]; [reflexivity|]. rewrite Z.log2_pow2 by lia. lia.
Qed.

Section Calls.
  Context {T : Type} {N : Num T}.
  Notation heap := (heap T).
  Variable enough : heap -> nat -> bool.
  Hypothesis EN : forall h n, enough h n = true.

  Lemma alloc_ok n (h : heap) : exists h', alloc enough n h = Ret (Some (length h), h') /\ lk h' (length h) = Some (repeat None n) /\
    length h' = S (length h) /\ forall j, j <> length h -> lk h' j = lk h j.
  Proof.
    eexists. unfold alloc. rewrite EN. split; [reflexivity|]. split; [unfold lk; now rewrite nth_middle|].
    split; [rewrite app_length; cbn [length]; lia|]. intros j Hj. unfold lk. destruct (Nat.lt_ge_cases j (length h)) as [C|C].
    - now rewrite app_nth1. - rewrite !nth_overflow; [reflexivity|lia|rewrite app_length; cbn [length]; lia].
  Qed.
  Lemma free_ok i (h : heap) c : lk h i = Some c -> exists h', free (Some i) h = Ret (tt, h') /\ lk h' i = None /\ only i h h'.
  Proof.
    intros H. exists (upd h i None). unfold free. unfold lk in H. rewrite H. split; [reflexivity|]. split; [unfold lk; rewrite nth_upd, Nat.eqb_refl; destruct (Nat.ltb _ _); reflexivity|].
    split; [apply upd_length|]. intros j Hj. apply nth_upd_other. auto.
  Qed.
  (** a new, cleared buffer *)
  Lemma fresh_ok n (h : heap) : exists h1 h2, ch_init enough n h = Ret (MkCh (Some (length h)) n, h1) /\
    ch_clear (MkCh (Some (length h)) n) h1 = Ret (tt, h2) /\ lk h2 (length h) = Some (repeat (Some n0) n) /\
    length h2 = S (length h) /\ forall j, j <> length h -> lk h2 j = lk h j.
  Proof.
    destruct (alloc_ok n h) as (h1 & E1 & L1 & S1 & F1).
    destruct (acts_write (length h) (repeat n0 n) (repeat None n) ltac:(rewrite !repeat_length; lia) h1 L1) as (h2 & E2 & L2 & S2 & F2).
    exists h1, h2. unfold ch_init, next. rewrite E1. split; [reflexivity|]. split; [exact E2|].
    split; [rewrite L2, skipn_all2 by (rewrite !repeat_length; lia); rewrite app_nil_r; f_equal; clear; induction n; cbn; congruence|].
    split; [lia|]. intros j Hj. rewrite F2, F1 by exact Hj. reflexivity.
  Qed.
  Lemma clear_ok i n (h : heap) c : lk h i = Some c -> length c = n ->
    exists h', ch_clear (MkCh (Some i) n) h = Ret (tt, h') /\ lk h' i = Some (repeat (Some n0) n) /\ only i h h'.
  Proof.
    intros H L. destruct (acts_write i (repeat n0 n) c ltac:(rewrite repeat_length; lia) h H) as (h' & E & L' & O).
    exists h'. split; [exact E|]. split; [|exact O]. rewrite L', skipn_all2 by (rewrite repeat_length; lia). rewrite app_nil_r. f_equal. clear. induction n; cbn; congruence.
  Qed.

  (** *** a library call *)
  Definition ws_ok (w : ptr) (n : nat) (h : heap) : Prop := forall i, w = Some i -> exists c, lk h i = Some c /\ length c = 2 * n.
  Lemma transform_ok (s a b : nat) (w : option ptr) n f (l : list T) r cb (h : heap) :
    (exists c, lk h s = Some c) -> lk h a = Some (map Some l ++ r) -> length l = n -> lk h b = Some cb -> length (f l) = n -> n <= length cb ->
    (forall i, w = Some (Some i) -> i <> a /\ i <> b /\ exists c, lk h i = Some c /\ length c = 2 * n) -> 
    exists h', transform (Some s) n f (Some a) (Some b) w h = Ret (tt, h') /\ lk h' b = Some (map Some (f l) ++ skipn n cb) /\ length h' = length h /\
      (forall j, j <> b -> w <> Some (Some j) -> lk h' j = lk h j) /\
      (forall i, w = Some (Some i) -> exists c, lk h' i = Some c /\ length c = 2 * n).
  Proof.
    intros (cs & Hs) Ha Hl Hb Hf Hn Hw. unfold transform.
    assert (A0 : acts (with_block (Some s) (fun c => Ret (tt, c))) s cs tt cs) by (apply acts_block; reflexivity).
    destruct (A0 h Hs) as (h0 & E0 & L0 & S0 & F0). unfold next at 1. rewrite E0. cbn [bind].
    assert (G0 : forall j, lk h0 j = lk h j). { intros j. destruct (Nat.eq_dec j s) as [->|C]; [transitivity (Some cs); [exact L0|symmetry; exact Hs]|apply F0, C]. }
    assert (HW : exists h1, match w with Some (Some w) => clobber (Some w) (2 * n) | _ => done tt end h0 = Ret (tt, h1) /\ length h1 = length h0 /\
              (forall j, w <> Some (Some j) -> lk h1 j = lk h0 j) /\ (forall i, w = Some (Some i) -> exists c, lk h1 i = Some c /\ length c = 2 * n)).
    { destruct w as [[i|]|].
      - destruct (Hw i eq_refl) as (_ & _ & c & Hc & Lc). rewrite <- G0 in Hc.
        destruct (acts_clobber i (2 * n) c ltac:(lia) h0 Hc) as (h1 & E1 & L1 & S1 & F1). exists h1. split; [exact E1|]. split; [exact S1|]. split.
        + intros j Hj. apply F1. intros ->. apply Hj. reflexivity.
        + intros i' Hi'. injection Hi' as <-. eexists. split; [exact L1|]. rewrite app_length, repeat_length, skipn_length. lia.
      - exists h0. split; [reflexivity|]. split; [reflexivity|]. split; [reflexivity|discriminate].
      - exists h0. split; [reflexivity|]. split; [reflexivity|]. split; [reflexivity|discriminate]. }
    destruct HW as (h1 & E1 & S1 & F1 & W1). unfold next at 1. rewrite E1. cbn [bind].
    assert (NA : w <> Some (Some a)) by (intros C; destruct (Hw a C) as (C' & _); congruence).
    assert (NB : w <> Some (Some b)) by (intros C; destruct (Hw b C) as (_ & C' & _); congruence).
    assert (Ha1 : lk h1 a = Some (map Some l ++ r)) by (rewrite F1, G0 by exact NA; exact Ha).
    destruct (acts_read a l r n (eq_sym Hl) h1 Ha1) as (h2 & E2 & L2 & S2 & F2). unfold next at 1. rewrite E2. cbn [bind].
    assert (G2 : forall j, lk h2 j = lk h1 j). { intros j. destruct (Nat.eq_dec j a) as [->|C]; [transitivity (Some (map Some l ++ r)); [exact L2|symmetry; exact Ha1]|apply F2, C]. }
    assert (Hb2 : lk h2 b = Some cb) by (rewrite G2, F1, G0 by exact NB; exact Hb).
    destruct (acts_write b (f l) cb ltac:(lia) h2 Hb2) as (h3 & E3 & L3 & S3 & F3).
    exists h3. split; [exact E3|]. rewrite Hf in L3. split; [exact L3|]. split; [congruence|]. split.
    - intros j Hj Hj'. now rewrite F3, G2, F1, G0 by assumption.
    - intros i Hi. destruct (W1 i Hi) as (c & Hc & Lc). exists c. split; [|exact Lc]. rewrite F3, G2; [exact Hc|]. intros ->. exact (NB Hi).
  Qed.

  (** *** the manager *)
  Variable n : nat.
  Hypothesis Hn : (Z.of_nat n <= 2 ^ 30)%Z.
  Notation fm := (make_fft_manager n).
  Notation m := (fm_size fm).
  Record ids := MkIds { i_t : nat; i_f : nat; i_s : nat; i_w : ptr }.
  Definition owned (k : ids) (j : nat) : Prop := j = i_t k \/ j = i_f k \/ j = i_s k \/ i_w k = Some j.
  Definition obj (k : ids) : fft_object := MkFo fm (Some (i_s k)) (MkCh (Some (i_t k)) n) (MkCh (Some (i_f k)) m) (i_w k).
  Record good (k : ids) (r : nat -> option (@cells T)) (h : heap) : Prop := {
    g_tf : i_t k <> i_f k; g_ts : i_t k <> i_s k; g_fs : i_f k <> i_s k;
    g_w : forall i, i_w k = Some i -> i <> i_t k /\ i <> i_f k /\ i <> i_s k;
    g_base : forall j, owned k j -> r j = None;
    g_t : exists c, lk h (i_t k) = Some c /\ length c = n;
    g_f : exists c, lk h (i_f k) = Some c /\ length c = m;
    g_s : exists c, lk h (i_s k) = Some c;
    g_ws : forall i, i_w k = Some i -> exists c, lk h i = Some c /\ length c = 2 * m;
    g_rest : forall j, ~ owned k j -> lk h j = r j }.

  Lemma construct_ok (h0 : heap) : exists k h, fm_construct enough n h0 = Ret (obj k, h) /\ good k (lk h0) h.
  Proof.
    destruct (size_facts n Hn) as (_ & _ & PO). unfold fm_construct. cbv zeta.
    assert (HW : exists w h1, (if (16384 <? Z.of_nat m)%Z then alloc enough (2 * m) else done None) h0 = Ret (w, h1) /\ length h0 <= length h1 /\
               (forall i, w = Some i -> length h0 <= i < length h1 /\ exists c, lk h1 i = Some c /\ length c = 2 * m) /\
               (forall j, w <> Some j -> lk h1 j = lk h0 j)).
    { destruct (16384 <? Z.of_nat m)%Z.
      - destruct (alloc_ok (2 * m) h0) as (h1 & E1 & L1 & S1 & F1). exists (Some (length h0)), h1. split; [exact E1|]. split; [lia|]. split.
        + intros i Hi. injection Hi as <-. split; [lia|]. eexists. split; [exact L1|apply repeat_length].
        + intros j Hj. apply F1. intros ->. apply Hj. reflexivity.
      - exists None, h0. split; [reflexivity|]. split; [lia|]. split; [discriminate|reflexivity]. }
    destruct HW as (w & h1 & E1 & S1 & W1 & F1). unfold next at 1. rewrite E1. cbn [bind].
    destruct (alloc_ok n h1) as (h2 & E2 & L2 & S2 & F2). unfold next at 1. unfold ch_init at 1, next at 1. rewrite E2. cbn [bind]. unfold done at 1. cbn [bind].
    destruct (alloc_ok m h2) as (h3 & E3 & L3 & S3 & F3). unfold next at 1. unfold ch_init at 1, next at 1. rewrite E3. cbn [bind]. unfold done at 1. cbn [bind].
    destruct (alloc_ok 1 h3) as (h4 & E4 & L4 & S4 & F4). unfold next at 1, new_setup. rewrite PO, E4. cbn [bind].
    exists (MkIds (length h1) (length h2) (length h3) w), h4. split; [reflexivity|]. unfold owned.
    constructor; cbn [i_t i_f i_s i_w]; try lia.
    - intros i Hi. destruct (W1 i Hi). lia.
    - intros x [Hj|[Hj|[Hj|Hj]]]; cbn [i_t i_f i_s i_w] in Hj; apply lk_over; try lia. destruct (W1 x Hj). lia.
    - exists (repeat None n). split; [|apply repeat_length]. rewrite F4, F3 by lia. exact L2.
    - exists (repeat None m). split; [|apply repeat_length]. rewrite F4 by lia. exact L3.
    - exists (repeat None 1). exact L4.
    - intros i Hi. destruct (W1 i Hi) as (R & c & Hc & Lc). exists c. split; [|exact Lc]. rewrite F4, F3, F2 by lia. exact Hc.
    - intros j Hj. rewrite F4, F3, F2 by (intros C; apply Hj; unfold owned; cbn [i_t i_f i_s i_w]; auto). apply F1. intros C. apply Hj. unfold owned. cbn [i_t i_f i_s i_w]. auto.
  Qed.

  Lemma destroy_ok k r h : good k r h -> exists h', fm_destroy (obj k) h = Ret (tt, h') /\ forall j, lk h' j = r j.
  Proof.
    intros G. destruct (g_s _ _ _ G) as (cs & Hs). destruct (g_f _ _ _ G) as (cf & Hf & _). destruct (g_t _ _ _ G) as (ct & Ht & _).
    unfold fm_destroy, obj. cbn [fo_setup fo_work fo_freq fo_time].
    pose proof (g_tf _ _ _ G). pose proof (g_ts _ _ _ G). pose proof (g_fs _ _ _ G).
    destruct (free_ok _ h cs Hs) as (h1 & E1 & L1 & S1 & F1). unfold next at 1. unfold destroy_setup. rewrite E1. cbn [bind].
    assert (HW : exists h2, match i_w k with None => done tt | p => free p end h1 = Ret (tt, h2) /\ (forall i, i_w k = Some i -> lk h2 i = None) /\
               (forall j, i_w k <> Some j -> lk h2 j = lk h1 j)).
    { destruct (i_w k) as [i|] eqn:EW.
      - destruct (g_ws _ _ _ G i EW) as (c & Hc & _). destruct (g_w _ _ _ G i EW) as (A & B & C). rewrite <- F1 in Hc by exact C.
        destruct (free_ok _ h1 c Hc) as (h2 & E2 & L2 & S2 & F2). exists h2. split; [exact E2|]. split.
        + intros i' Hi'. injection Hi' as <-. exact L2. + intros j Hj. apply F2. intros ->. apply Hj. reflexivity.
      - exists h1. split; [reflexivity|]. split; [discriminate|reflexivity]. }
    destruct HW as (h2 & E2 & W2 & F2). unfold next at 1. rewrite E2. cbn [bind].
    assert (NW : forall j, j = i_t k \/ j = i_f k \/ j = i_s k -> i_w k <> Some j).
    { intros j Hj C. destruct (g_w _ _ _ G j C) as (A & B & D). intuition. }
    assert (Hf2 : lk h2 (i_f k) = Some cf) by (rewrite F2, F1 by auto; exact Hf).
    destruct (free_ok _ h2 cf Hf2) as (h3 & E3 & L3 & S3 & F3). unfold next at 1. unfold ch_destroy at 1. cbn [ch_buf]. rewrite E3. cbn [bind].
    assert (Ht3 : lk h3 (i_t k) = Some ct) by (rewrite F3, F2, F1 by auto; exact Ht).
    destruct (free_ok _ h3 ct Ht3) as (h4 & E4 & L4 & S4 & F4). exists h4. split; [exact E4|].
    intros j.
    assert (D : owned k j \/ ~ owned k j).
    { unfold owned. destruct (Nat.eq_dec j (i_t k)), (Nat.eq_dec j (i_f k)), (Nat.eq_dec j (i_s k)); auto.
      destruct (i_w k) as [i|]; [destruct (Nat.eq_dec i j) as [->|]; auto|]; right; intros [C|[C|[C|C]]]; congruence. }
    destruct D as [D|D].
    - rewrite (g_base _ _ _ G j D). destruct D as [->|[->|[->|D]]].
      + exact L4. + rewrite F4 by auto. exact L3. + rewrite F4, F3, F2 by auto. exact L1.
      + destruct (g_w _ _ _ G j D) as (A & B & C). rewrite F4, F3 by auto. exact (W2 j D).
    - pose proof (g_rest _ _ _ G j D) as R. unfold owned in D.
      rewrite F4, F3, F2, F1 by intuition. exact R.
  Qed.

  Definition set (r : nat -> option (@cells T)) (q : nat) (c : @cells T) : nat -> option (@cells T) := fun j => if Nat.eqb j q then Some c else r j.
  Lemma set_same r q c : set r q c q = Some c.
  Proof. unfold set. now rewrite Nat.eqb_refl. Qed.
  Lemma set_other r q c j : j <> q -> set r q c j = r j.
  Proof. intros H. unfold set. apply Nat.eqb_neq in H. now rewrite H. Qed.

  Lemma good_mk k r h r' h' : good k r h ->
    (exists c, lk h' (i_t k) = Some c /\ length c = n) -> (exists c, lk h' (i_f k) = Some c /\ length c = m) -> lk h' (i_s k) = lk h (i_s k) ->
    (forall i, i_w k = Some i -> exists c, lk h' i = Some c /\ length c = 2 * m) ->
    (forall j, ~ owned k j -> lk h' j = r' j) -> (forall j, owned k j -> r' j = r j) -> good k r' h'.
  Proof.
    intros [A B C D E F G H I J] Ht Hf Hs Hw HR HB. constructor; auto.
    - intros j Hj. rewrite HB by exact Hj. exact (E j Hj).
    - rewrite Hs. exact H.
  Qed.
  Lemma good_t k r h h' c : good k r h -> lk h' (i_t k) = Some c -> length c = n -> only (i_t k) h h' -> good k r h'.
  Proof.
    intros G L E (S1 & F1). pose proof (g_tf _ _ _ G). pose proof (g_ts _ _ _ G).
    apply (good_mk k r h); [exact G|eauto| | | | |auto].
    - rewrite F1 by auto. exact (g_f _ _ _ G).
    - apply F1. auto.
    - intros i Hi. destruct (g_w _ _ _ G i Hi) as (A & _). rewrite F1 by exact A. exact (g_ws _ _ _ G i Hi).
    - intros j Hj. rewrite F1 by (intros ->; apply Hj; left; reflexivity). exact (g_rest _ _ _ G j Hj).
  Qed.
  Lemma good_f k r h h' c : good k r h -> lk h' (i_f k) = Some c -> length c = m -> only (i_f k) h h' -> good k r h'.
  Proof.
    intros G L E (S1 & F1). pose proof (g_tf _ _ _ G). pose proof (g_fs _ _ _ G).
    apply (good_mk k r h); [exact G| |eauto| | | |auto].
    - rewrite F1 by auto. exact (g_t _ _ _ G).
    - apply F1. auto.
    - intros i Hi. destruct (g_w _ _ _ G i Hi) as (_ & A & _). rewrite F1 by exact A. exact (g_ws _ _ _ G i Hi).
    - intros j Hj. rewrite F1 by (intros ->; apply Hj; right; left; reflexivity). exact (g_rest _ _ _ G j Hj).
  Qed.
  Lemma owned_live k r h j : good k r h -> owned k j -> j < length h.
  Proof.
    intros G [->|[->|[->|D]]].
    - destruct (g_t _ _ _ G) as (c & H & _). exact (lk_lt _ _ _ H).
    - destruct (g_f _ _ _ G) as (c & H & _). exact (lk_lt _ _ _ H).
    - destruct (g_s _ _ _ G) as (c & H). exact (lk_lt _ _ _ H).
    - destruct (g_ws _ _ _ G j D) as (c & H & _). exact (lk_lt _ _ _ H).
  Qed.
  (** a block that is not the manager's *)
  Lemma good_other k r h h' q c : good k r h -> ~ owned k q -> lk h' q = Some c -> (forall j, j <> q -> lk h' j = lk h j) -> good k (set r q c) h'.
  Proof.
    intros G NO L F1. assert (D : forall j, owned k j -> lk h' j = lk h j). { intros j Hj. apply F1. intros ->. exact (NO Hj). }
    apply (good_mk k r h); [exact G| | | | | |].
    - rewrite D by (left; reflexivity). exact (g_t _ _ _ G).
    - rewrite D by (right; left; reflexivity). exact (g_f _ _ _ G).
    - apply D. right; right; left; reflexivity.
    - intros i Hi. rewrite D by (right; right; right; exact Hi). exact (g_ws _ _ _ G i Hi).
    - intros j Hj. destruct (Nat.eq_dec j q) as [->|C]; [now rewrite set_same|]. rewrite F1, set_other by exact C. exact (g_rest _ _ _ G j Hj).
    - intros j Hj. apply set_other. intros ->. exact (NO Hj).
  Qed.
  Lemma good_fresh k r h h' q c : good k r h -> q = length h -> lk h' q = Some c -> (forall j, j <> q -> lk h' j = lk h j) ->
    good k (set r q c) h' /\ ~ owned k q /\ r q = None.
  Proof.
    intros G -> L F1. assert (NO : ~ owned k (length h)) by (intros C; pose proof (owned_live k r h _ G C); lia).
    split; [exact (good_other k r h h' _ c G NO L F1)|]. split; [exact NO|]. rewrite <- (g_rest _ _ _ G _ NO). apply lk_over. lia.
  Qed.
  Lemma good_free k r h q c : good k (set r q c) h -> ~ owned k q -> r q = None -> exists h', free (Some q) h = Ret (tt, h') /\ good k r h' /\ only q h h'.
  Proof.
    intros G NO R. assert (L : lk h q = Some c) by (rewrite (g_rest _ _ _ G q NO); apply set_same).
    destruct (free_ok q h c L) as (h' & E & L' & S' & F'). exists h'. split; [exact E|]. split; [|split; assumption].
    assert (D : forall j, owned k j -> lk h' j = lk h j). { intros j Hj. apply F'. intros ->. exact (NO Hj). }
    apply (good_mk k (set r q c) h); [exact G| | | | | |].
    - rewrite D by (left; reflexivity). exact (g_t _ _ _ G).
    - rewrite D by (right; left; reflexivity). exact (g_f _ _ _ G).
    - apply D. right; right; left; reflexivity.
    - intros i Hi. rewrite D by (right; right; right; exact Hi). exact (g_ws _ _ _ G i Hi).
    - intros j Hj. destruct (Nat.eq_dec j q) as [->|C]; [now rewrite L', R|]. rewrite F' by exact C. rewrite (g_rest _ _ _ G j Hj). apply set_other, C.
    - intros j Hj. symmetry. apply set_other. intros ->. exact (NO Hj).
  Qed.

  (** the library on the manager's and other buffers; [a] is read, [b] written *)
  Definition work_of (k : ids) (b : bool) : option ptr := if b then Some (i_w k) else None.
  Lemma run_f k r h a b f l cr (w : bool) : good k r h -> (b = i_t k \/ b = i_f k \/ ~ owned k b) -> i_w k <> Some a -> a <> b ->
    lk h a = Some (map Some l ++ cr) -> length l = m -> length (f l) = m -> (exists cb, lk h b = Some cb /\ length cb = m) ->
    exists h', transform (Some (i_s k)) m f (Some a) (Some b) (work_of k w) h = Ret (tt, h') /\ lk h' b = Some (map Some (f l)) /\
      (forall j, j <> b -> i_w k <> Some j -> lk h' j = lk h j) /\
      (forall i, i_w k = Some i -> exists c, lk h' i = Some c /\ length c = 2 * m) /\ length h' = length h.
  Proof.
    intros G Hb NA AB Ha Hl Hf (cb & Lb & Sb).
    assert (NB : i_w k <> Some b). { intros C. destruct (g_w _ _ _ G b C) as (A & B & _). destruct Hb as [->|[->|Hb]]; [auto|auto|]. apply Hb. right; right; right; exact C. }
    destruct (transform_ok (i_s k) a b (work_of k w) m f l cr cb h (g_s _ _ _ G) Ha Hl Lb Hf) as (h' & E & L & S' & F' & W).
    - lia.
    - intros i Hi. destruct w; [|discriminate]. injection Hi as Hi. split; [|split].
      + intros ->. exact (NA Hi). + intros ->. exact (NB Hi). + exact (g_ws _ _ _ G i Hi).
    - exists h'. split; [exact E|]. split; [rewrite L, skipn_all2, app_nil_r by lia; reflexivity|].
      assert (HW : forall j, j <> b -> i_w k <> Some j -> lk h' j = lk h j).
      { intros j Hj Hj'. apply F'; [exact Hj|]. destruct w; [|discriminate]. intros C. apply Hj'. cbn [work_of] in C. now injection C. }
      split; [exact HW|]. split; [|exact S']. intros i Hi. destruct w.
      + apply W. cbn [work_of]. now rewrite Hi.
      + destruct (g_ws _ _ _ G i Hi) as (c & Hc & Lc). exists c. split; [|exact Lc]. rewrite F'; [exact Hc| |discriminate]. intros ->. exact (NB Hi).
  Qed.
  (** ... and what this keeps *)
  Lemma good_run k r h h' b c : good k r h -> b = i_t k \/ b = i_f k -> lk h' b = Some c -> (exists cb, lk h b = Some cb /\ length cb = length c) ->
    (forall j, j <> b -> i_w k <> Some j -> lk h' j = lk h j) -> (forall i, i_w k = Some i -> exists c, lk h' i = Some c /\ length c = 2 * m) -> good k r h'.
  Proof.
    intros G Hb L (cb & Lb & Sb) F' W. pose proof (g_tf _ _ _ G). pose proof (g_ts _ _ _ G). pose proof (g_fs _ _ _ G).
    assert (NW : forall j, j = i_t k \/ j = i_f k \/ j = i_s k -> i_w k <> Some j).
    { intros j Hj C. destruct (g_w _ _ _ G j C) as (A & B & D). intuition. }
    apply (good_mk k r h); [exact G| | | |exact W| |auto].
    - destruct Hb as [->| ->].
      + exists c. split; [exact L|]. destruct (g_t _ _ _ G) as (c' & L' & E'). congruence.
      + rewrite F' by auto. exact (g_t _ _ _ G).
    - destruct Hb as [->| ->].
      + rewrite F' by auto. exact (g_f _ _ _ G).
      + exists c. split; [exact L|]. destruct (g_f _ _ _ G) as (c' & L' & E'). congruence.
    - apply F'; [intros C; destruct Hb; congruence|auto].
    - intros j Hj. rewrite F'; [exact (g_rest _ _ _ G j Hj)| |].
      + intros ->. apply Hj. unfold owned. intuition. + intros C. apply Hj. unfold owned. auto.
  Qed.
  Lemma good_run_other k r h h' b c : good k r h -> ~ owned k b -> lk h' b = Some c ->
    (forall j, j <> b -> i_w k <> Some j -> lk h' j = lk h j) -> (forall i, i_w k = Some i -> exists c, lk h' i = Some c /\ length c = 2 * m) -> good k (set r b c) h'.
  Proof.
    intros G NO L F' W.
    assert (NW : forall j, j = i_t k \/ j = i_f k \/ j = i_s k -> i_w k <> Some j).
    { intros j Hj C. destruct (g_w _ _ _ G j C) as (A & B & D). intuition. }
    assert (NB : forall j, j = i_t k \/ j = i_f k \/ j = i_s k -> j <> b). { intros j Hj ->. apply NO. unfold owned. intuition. }
    apply (good_mk k r h); [exact G| | | |exact W| |].
    - rewrite F' by auto. exact (g_t _ _ _ G).
    - rewrite F' by auto. exact (g_f _ _ _ G).
    - apply F'; auto.
    - intros j Hj. destruct (Nat.eq_dec j b) as [->|C]; [now rewrite set_same|]. rewrite F', set_other; [exact (g_rest _ _ _ G j Hj)|exact C|exact C|].
      intros D. apply Hj. unfold owned. auto.
    - intros j Hj. apply set_other. intros ->. exact (NO Hj).
  Qed.

  (** *** the two directions *)
  Variables (fwd zre inv : list T -> list T) (f32 : T -> T).
  Hypothesis LF : same_lengths fwd.
  Hypothesis LZ : same_lengths zre.
  Hypothesis LI : same_lengths inv.
  Notation pf := (MkPffft fwd (fun b => inv (zre b)) f32).

  Lemma repeat_map (x : T) c : repeat (Some x) c = map Some (repeat x c).
  Proof. induction c as [|c IH]; [reflexivity|]. cbn [repeat map]. now rewrite IH. Qed.
  Lemma skipn_repeat' (A : Type) (x : A) c : forall j, skipn j (repeat x c) = repeat x (c - j).
  Proof. induction c as [|c IH]; intros [|j]; cbn [skipn repeat Nat.sub]; auto. Qed.
  Lemma acts_pure {A} (x : res A) (a : A) i c : x = Ret a -> acts (fun h : heap => do s <- x; Ret (s, h)) i c a c.
  Proof. intros -> h H. exists h. split; [reflexivity|]. split; [exact H|split; auto]. Qed.

  Lemma to_freq k r h (l : list T) : good k r h -> lk h (i_t k) = Some (map Some l) -> length l = n ->
    exists h', freq_from_time enough pf (obj k) (MkCh (Some (i_t k)) n) (MkCh (Some (i_f k)) m) h = Ret (tt, h') /\
      lk h' (i_f k) = Some (map Some (fwd (l ++ repeat n0 (m - n)))) /\ good k r h'.
  Proof.
    intros G Lt Ln. destruct (size_facts n Hn) as (_ & LE & _). pose proof (g_tf _ _ _ G) as TF. pose proof (g_fs _ _ _ G) as FS.
    assert (NT : i_w k <> Some (i_t k)) by (intros C; destruct (g_w _ _ _ G _ C) as (A & _); congruence).
    destruct (g_f _ _ _ G) as (cf & Hf & Sf).
    unfold freq_from_time, obj. cbn [ch_size ch_buf fo_fm fo_setup fo_work pf_fwd]. change (fm_samples fm) with n. destruct (Nat.eqb_spec n m) as [E|E].
    - rewrite <- E, Nat.sub_diag. cbn [repeat]. rewrite app_nil_r. rewrite E.
      destruct (run_f k r h (i_t k) (i_f k) fwd l [] true G (or_intror (or_introl eq_refl)) NT TF) as (h' & E' & L' & F' & W' & _).
      + rewrite app_nil_r. exact Lt. + lia. + rewrite LF. lia. + eauto.
      + exists h'. split; [exact E'|]. split; [exact L'|].
        apply (good_run k r h h' (i_f k) _ G (or_intror eq_refl) L'); [|exact F'|exact W']. exists cf. split; [exact Hf|]. rewrite map_length, LF. lia.
    - destruct (fresh_ok m h) as (h1 & h2 & E1 & E2 & L2 & S2 & F2).
      unfold next at 1. rewrite E1. cbn [bind]. unfold next at 1. rewrite E2. cbn [bind ch_buf].
      set (q := length h) in *. destruct (good_fresh k r h h2 q _ G eq_refl L2 F2) as (G2 & NO & RQ).
      assert (QT : q <> i_t k) by (intros C; apply NO; left; exact C). assert (QF : q <> i_f k) by (intros C; apply NO; right; left; exact C).
      assert (QW : i_w k <> Some q) by (intros C; apply NO; right; right; right; exact C).
      assert (Lt2 : lk h2 (i_t k) = Some (map Some l ++ [])) by (rewrite F2, app_nil_r by auto; exact Lt).
      destruct (acts_read (i_t k) l [] n (eq_sym Ln) h2 Lt2) as (h3 & E3 & L3 & S3 & F3). unfold next at 1. rewrite E3. cbn [bind].
      assert (L3' : lk h3 q = Some (repeat (Some n0) m)) by (rewrite F3 by exact QT; exact L2).
      assert (H3 : forall j, lk h3 j = lk h2 j). { intros j. destruct (Nat.eq_dec j (i_t k)) as [->|C]; [transitivity (Some (map Some l ++ [])); [exact L3|symmetry; exact Lt2]|apply F3, C]. }
      destruct (acts_write q l (repeat (Some n0) m) ltac:(rewrite repeat_length; lia) h3 L3') as (h4 & E4 & L4 & S4 & F4). unfold next at 1. rewrite E4. cbn [bind].
      rewrite skipn_repeat', repeat_map, <- map_app, Ln in L4.
      assert (G4 : good k (set r q (map Some (l ++ repeat n0 (m - n)))) h4).
      { assert (G4 : good k (set (set r q (repeat (Some n0) m)) q (map Some (l ++ repeat n0 (m - n)))) h4).
        { apply (good_other k _ h2 h4 q _ G2 NO L4). intros j Hj. rewrite F4, H3 by exact Hj. reflexivity. }
        apply (good_mk k _ h4 _ h4 G4 (g_t _ _ _ G4) (g_f _ _ _ G4) eq_refl (g_ws _ _ _ G4)).
        - intros j Hj. rewrite (g_rest _ _ _ G4 j Hj). destruct (Nat.eq_dec j q) as [->|C]; [now rewrite !set_same|now rewrite !set_other].
        - intros j Hj. destruct (Nat.eq_dec j q) as [->|C]; [contradiction|now rewrite !set_other]. }
      destruct (run_f k _ h4 q (i_f k) fwd (l ++ repeat n0 (m - n)) [] true G4 (or_intror (or_introl eq_refl)) QW QF) as (h5 & E5 & L5 & F5 & W5 & _).
      + rewrite app_nil_r. exact L4. + rewrite app_length, repeat_length. lia. + rewrite LF, app_length, repeat_length. lia. + exact (g_f _ _ _ G4).
      + unfold next at 1. change (Some (i_w k)) with (work_of k true). rewrite E5. cbn [bind].
        assert (G5 : good k (set r q (map Some (l ++ repeat n0 (m - n)))) h5).
        { apply (good_run k _ h4 h5 (i_f k) _ G4 (or_intror eq_refl) L5); [|exact F5|exact W5].
          destruct (g_f _ _ _ G4) as (c & Hc & Sc). exists c. split; [exact Hc|]. rewrite map_length, LF, app_length, repeat_length. lia. }
        destruct (good_free k r h5 q _ G5 NO RQ) as (h6 & E6 & G6 & S6 & F6). exists h6. split; [exact E6|]. split; [|exact G6]. rewrite F6 by auto. exact L5.
  Qed.

  Lemma forward_ok k r h (sig : list T) : good k r h -> n <= length sig ->
    exists x h', forward_mem enough pf (obj k) sig h = Ret (x, h') /\ forward1d pf fm sig = Ret x /\ good k r h'.
  Proof.
    intros G Hs. destruct (size_facts n Hn) as ((hf & Hm & Hh) & LE & _). pose proof (g_tf _ _ _ G) as TF.
    unfold forward_mem. cbn [obj fo_time fo_freq fo_fm ch_buf pf_f32]. cbv zeta. change (fm_samples fm) with n.
    destruct (g_t _ _ _ G) as (ct & Ht & St). destruct (clear_ok (i_t k) n h ct Ht St) as (h1 & E1 & L1 & O1).
    unfold next at 1. rewrite E1. cbn [bind]. pose proof (good_t k r h h1 _ G L1 (repeat_length _ _) O1) as G1.
    destruct (store_signal (i_t k) f32 sig n Hs h1 L1) as (h2 & E2 & L2 & O2). unfold next at 1. rewrite E2. cbn [bind].
    assert (SL : length (map f32 (firstn n sig)) = n) by (rewrite map_length, firstn_length; lia).
    assert (G2 : good k r h2) by (apply (good_t k r h1 h2 _ G1 L2); [rewrite map_length; exact SL|exact O2]).
    destruct (g_f _ _ _ G2) as (cf & Hf & Sf). destruct (clear_ok (i_f k) m h2 cf Hf Sf) as (h3 & E3 & L3 & O3).
    unfold next at 1. rewrite E3. cbn [bind]. pose proof (good_f k r h2 h3 _ G2 L3 (repeat_length _ _) O3) as G3.
    assert (L3' : lk h3 (i_t k) = Some (map Some (map f32 (firstn n sig)))) by (rewrite (proj2 O3) by exact TF; exact L2).
    destruct (to_freq k r h3 _ G3 L3' SL) as (h4 & E4 & L4 & G4). unfold next at 1. rewrite E4. cbn [bind].
    set (p := fwd (map f32 (firstn n sig) ++ repeat n0 (m - n))) in *.
    assert (LP : length p = 2 * hf) by (unfold p; rewrite LF, app_length, repeat_length; lia).
    destruct (unpack_spec hf p LP ltac:(lia)) as (s & Es & _).
    assert (A : acts (next (gather ((m + 1) / 2) 0 (fun k0 => next (load (Some (i_f k)) (2 * k0)) (fun re => next (load (Some (i_f k)) (2 * k0 + 1)) (fun im => done (re, im)))))
                          (fun v => fun h : heap => do s <- unpack_spectrum (unpairs v); Ret (s, h))) (i_f k) (map Some p) s (map Some p)).
    { replace ((m + 1) / 2) with hf by lia. eapply acts_next; [apply gather_pairs; exact LP|]. apply acts_pure. rewrite unpairs_pairs by exact LP. exact Es. }
    destruct (A h4 L4) as (h5 & E5 & L5 & O5). exists s, h5. split; [exact E5|]. split.
    - unfold forward1d. change (fm_samples fm) with n. replace (Nat.ltb (length sig) n || Nat.ltb m n) with false by lia. cbv zeta. cbn [pf_fwd pf_f32]. exact Es.
    - apply (good_f k r h4 h5 _ G4 L5); [rewrite map_length; lia|exact O5].
  Qed.

  Lemma to_time k r h q (l : list T) : good k r h -> ~ owned k q -> lk h q = Some (map Some l) -> length l = m ->
    exists h', time_from_freq enough inv (obj k) (MkCh (Some q) m) (MkCh (Some (i_t k)) n) h = Ret (tt, h') /\
      lk h' (i_t k) = Some (map Some (firstn n (inv l))) /\ good k r h'.
  Proof.
    intros G NQ Lq Ll. destruct (size_facts n Hn) as (_ & LE & _).
    assert (QT : q <> i_t k) by (intros C; apply NQ; left; exact C). assert (QW : i_w k <> Some q) by (intros C; apply NQ; right; right; right; exact C).
    assert (SI : length (inv l) = m) by (rewrite LI; exact Ll).
    unfold time_from_freq, obj. cbn [ch_size ch_buf fo_fm fo_setup fo_work pf_fwd]. change (fm_samples fm) with n. destruct (Nat.eqb_spec n m) as [E|E].
    - destruct (run_f k r h q (i_t k) inv l [] true G (or_introl eq_refl) QW QT) as (h' & E' & L' & F' & W' & _).
      + rewrite app_nil_r. exact Lq. + exact Ll. + exact SI. + destruct (g_t _ _ _ G) as (c & Hc & Sc). exists c. split; [exact Hc|congruence].
      + exists h'. split; [exact E'|]. split; [rewrite E, <- SI, firstn_all; exact L'|].
        apply (good_run k r h h' (i_t k) _ G (or_introl eq_refl) L'); [|exact F'|exact W'].
        destruct (g_t _ _ _ G) as (c & Hc & Sc). exists c. split; [exact Hc|]. rewrite map_length. congruence.
    - destruct (fresh_ok m h) as (h1 & h2 & E1 & E2 & L2 & S2 & F2).
      unfold next at 1. rewrite E1. cbn [bind]. unfold next at 1. rewrite E2. cbn [bind ch_buf].
      set (u := length h) in *. destruct (good_fresh k r h h2 u _ G eq_refl L2 F2) as (G2 & NO & RQ).
      assert (UT : u <> i_t k) by (intros C; apply NO; left; exact C).
      assert (QU : q <> u) by (intros C; pose proof (lk_lt h q _ Lq); unfold u in C; lia).
      assert (Lq2 : lk h2 q = Some (map Some l ++ [])) by (rewrite F2, app_nil_r by exact QU; exact Lq).
      destruct (run_f k _ h2 q u inv l [] true G2 (or_intror (or_intror NO)) QW QU Lq2 Ll SI) as (h3 & E3 & L3 & F3 & W3 & _).
      { eexists. split; [exact L2|apply repeat_length]. }
      unfold next at 1. change (Some (i_w k)) with (work_of k true). rewrite E3. cbn [bind].
      assert (G3 : good k (set r u (map Some (inv l))) h3).
      { pose proof (good_run_other k _ h2 h3 u _ G2 NO L3 F3 W3) as G3.
        apply (good_mk k _ h3 _ h3 G3 (g_t _ _ _ G3) (g_f _ _ _ G3) eq_refl (g_ws _ _ _ G3)).
        - intros j Hj. rewrite (g_rest _ _ _ G3 j Hj). destruct (Nat.eq_dec j u) as [->|C]; [now rewrite !set_same|now rewrite !set_other].
        - intros j Hj. destruct (Nat.eq_dec j u) as [->|C]; [contradiction|now rewrite !set_other]. }
      assert (L3' : lk h3 u = Some (map Some (firstn n (inv l)) ++ map Some (skipn n (inv l)))) by (rewrite <- map_app, firstn_skipn; exact L3).
      assert (SF : n = length (firstn n (inv l))) by (rewrite firstn_length; lia).
      destruct (acts_read u _ _ n SF h3 L3') as (h4 & E4 & L4 & S4 & F4). unfold next at 1. rewrite E4. cbn [bind].
      assert (H4 : forall j, lk h4 j = lk h3 j). { intros j. destruct (Nat.eq_dec j u) as [->|C]; [etransitivity; [exact L4|symmetry; exact L3']|apply F4, C]. }
      destruct (g_t _ _ _ G3) as (ct & Ht & St). rewrite <- H4 in Ht.
      destruct (acts_write (i_t k) (firstn n (inv l)) ct ltac:(lia) h4 Ht) as (h5 & E5 & L5 & S5 & F5). unfold next at 1. rewrite E5. cbn [bind].
      rewrite <- SF, skipn_all2, app_nil_r in L5 by lia.
      assert (G4 : good k (set r u (map Some (inv l))) h4).
      { apply (good_mk k _ h3 _ h4 G3).
        - rewrite H4. exact (g_t _ _ _ G3). - rewrite H4. exact (g_f _ _ _ G3). - apply H4.
        - intros i Hi. rewrite H4. exact (g_ws _ _ _ G3 i Hi). - intros j Hj. rewrite H4. exact (g_rest _ _ _ G3 j Hj). - auto. }
      assert (G5 : good k (set r u (map Some (inv l))) h5) by (apply (good_t k _ h4 h5 _ G4 L5); [rewrite map_length; lia|split; assumption]).
      destruct (good_free k r h5 u _ G5 NO RQ) as (h6 & E6 & G6 & S6 & F6). exists h6. split; [exact E6|]. split; [|exact G6]. rewrite F6 by auto. exact L5.
  Qed.

  Lemma inverse_ok k r h (spec : list (cplx T)) : good k r h -> m / 2 < length spec ->
    exists x h', inverse_mem enough zre inv pf (obj k) spec h = Ret (x, h') /\ inverse1d pf fm spec = Ret x /\ good k r h'.
  Proof.
    intros G Hs. destruct (size_facts n Hn) as ((hf & Hm & Hh) & LE & _). pose proof (g_tf _ _ _ G) as TF.
    assert (EH : (m + 1) / 2 = hf) by lia. assert (EH' : m / 2 = hf) by lia.
    unfold inverse_mem. cbn [obj fo_time fo_freq fo_fm fo_setup ch_buf ch_size pf_f32]. cbv zeta. change (fm_samples fm) with n. rewrite EH.
    destruct (g_f _ _ _ G) as (cf & Hf & Sf). destruct (clear_ok (i_f k) m h cf Hf Sf) as (h1 & E1 & L1 & O1).
    unfold next at 1. rewrite E1. cbn [bind]. pose proof (good_f k r h h1 _ G L1 (repeat_length _ _) O1) as G1.
    destruct (nth_error spec hf) as [nyq|] eqn:EN'; [|apply nth_error_None in EN'; lia].
    set (p := upd (unpairs (firstn hf spec)) 1 (cre nyq)).
    assert (LP : length (map f32 p) = m) by (unfold p; rewrite map_length, upd_length, unpairs_length, firstn_length; lia).
    rewrite Hm in L1. destruct (store_spectrum (i_f k) f32 spec hf ltac:(lia) h1 L1) as (h2 & E2 & L2 & O2). unfold next at 1. rewrite E2. cbn [bind].
    unfold item at 1. rewrite EN'. unfold next at 1. unfold done at 1. cbn [bind].
    destruct (acts_store (i_f k) (map Some (packed f32 (firstn hf spec))) 1 (f32 (cre nyq))) with (h := h2) as (h3 & E3 & L3 & O3).
    { unfold packed. rewrite !map_length, unpairs_length, firstn_length. lia. } { exact L2. }
    unfold next at 1. rewrite E3. cbn [bind]. rewrite <- map_upd in L3. unfold packed in L3. rewrite <- map_upd in L3. fold p in L3.
    assert (G3 : good k r h3).
    { apply (good_f k r h1 h3 _ G1 L3); [rewrite map_length; exact LP|]. destruct O2 as (A & B), O3 as (C & D). split; [lia|]. intros j Hj. rewrite D, B by exact Hj. reflexivity. }
    destruct (fresh_ok m h3) as (h4 & h5 & E4 & E5 & L5 & S5 & F5).
    unfold next at 1. rewrite E4. cbn [bind]. unfold next at 1. rewrite E5. cbn [bind ch_buf].
    set (q := length h3) in *. destruct (good_fresh k r h3 h5 q _ G3 eq_refl L5 F5) as (G5 & NO & RQ).
    assert (QT : q <> i_t k) by (intros C; apply NO; left; exact C). assert (QF : q <> i_f k) by (intros C; apply NO; right; left; exact C).
    assert (NF : i_w k <> Some (i_f k)) by (intros C; destruct (g_w _ _ _ G _ C) as (_ & A & _); congruence).
    assert (Lf5 : lk h5 (i_f k) = Some (map Some (map f32 p) ++ [])) by (rewrite F5, app_nil_r by auto; exact L3).
    destruct (run_f k _ h5 (i_f k) q zre (map f32 p) [] false G5 (or_intror (or_intror NO)) NF (not_eq_sym QF) Lf5 LP) as (h6 & E6 & L6 & F6 & W6 & _).
    { rewrite LZ. exact LP. } { eexists. split; [exact L5|apply repeat_length]. }
    unfold next at 1. change (@None ptr) with (work_of k false). rewrite E6. cbn [bind].
    pose proof (good_run_other k _ h5 h6 q _ G5 NO L6 F6 W6) as G6.
    destruct (g_t _ _ _ G6) as (ct & Ht & St). destruct (clear_ok (i_t k) n h6 ct Ht St) as (h7 & E7 & L7 & O7).
    unfold next at 1. rewrite E7. cbn [bind]. pose proof (good_t k _ h6 h7 _ G6 L7 (repeat_length _ _) O7) as G7.
    assert (L7' : lk h7 q = Some (map Some (zre (map f32 p)))) by (rewrite (proj2 O7) by exact QT; exact L6).
    assert (SZ : length (zre (map f32 p)) = m) by (rewrite LZ; exact LP).
    destruct (to_time k _ h7 q _ G7 NO L7' SZ) as (h8 & E8 & L8 & G8).
    unfold next at 1. change (MkFo fm (Some (i_s k)) (MkCh (Some (i_t k)) n) (MkCh (Some (i_f k)) m) (i_w k)) with (obj k). rewrite E8. cbn [bind].
    set (t := firstn n (inv (zre (map f32 p)))) in *. assert (LT : n = length t) by (unfold t; rewrite firstn_length, LI; lia).
    destruct (multiply_acts (i_t k) (ndiv n1 (nofnat m)) t n LT h8 L8) as (h9 & E9 & L9 & O9). unfold next at 1. rewrite E9. cbn [bind].
    set (t' := simd_scalar_multiply (ndiv n1 (nofnat m)) t) in *. assert (LT' : length t' = n) by (unfold t'; rewrite simd_spec, map_length; auto).
    destruct (gather_real (i_t k) t' n LT' h9 L9) as (h10 & E10 & L10 & O10). unfold next at 1. rewrite E10. cbn [bind].
    assert (G9 : good k (set (set r q (repeat (Some n0) m)) q (map Some (zre (map f32 p)))) h9) by (apply (good_t k _ h8 h9 _ G8 L9); [rewrite map_length; lia|exact O9]).
    assert (G10 : good k (set (set r q (repeat (Some n0) m)) q (map Some (zre (map f32 p)))) h10) by (apply (good_t k _ h9 h10 _ G9 L10); [rewrite map_length; lia|exact O10]).
    assert (GA : good k (set r q (map Some (zre (map f32 p)))) h10).
    { apply (good_mk k _ h10 _ h10 G10 (g_t _ _ _ G10) (g_f _ _ _ G10) eq_refl (g_ws _ _ _ G10)).
      - intros j Hj. rewrite (g_rest _ _ _ G10 j Hj). destruct (Nat.eq_dec j q) as [->|C]; [now rewrite !set_same|now rewrite !set_other].
      - intros j Hj. destruct (Nat.eq_dec j q) as [->|C]; [contradiction|now rewrite !set_other]. }
    destruct (good_free k r h10 q _ GA NO RQ) as (h11 & E11 & G11 & _).
    unfold next at 1. unfold ch_destroy. cbn [ch_buf]. rewrite E11. cbn [bind]. eexists. exists h11. split; [reflexivity|]. split; [|exact G11].
    unfold inverse1d, pack_spectrum. rewrite EH', EN'. cbn [bind]. reflexivity.
  Qed.

  Lemma calls_ok k : forall (cs : list (fft_call T)) r h, good k r h -> Forall (fits n) cs ->
    exists rs h', calls_mem enough zre inv pf (obj k) cs h = Ret (rs, h') /\ good k r h' /\
      Forall2 (fun c x => by_value fwd zre inv f32 n c = Ret x) cs rs.
  Proof.
    induction cs as [|c cs IH]; intros r h G HF.
    - exists [], h. split; [reflexivity|]. split; [exact G|constructor].
    - inversion HF as [|? ? H1 H2]; subst.
      assert (H : exists x h', call_mem enough zre inv pf (obj k) c h = Ret (x, h') /\ by_value fwd zre inv f32 n c = Ret x /\ good k r h').
      { destruct c as [sig|spec]; [exact (forward_ok k r h sig G H1)|exact (inverse_ok k r h spec G H1)]. }
      destruct H as (x & h1 & E1 & V1 & G1). destruct (IH r h1 G1 H2) as (xs & h2 & E2 & G2 & V2).
      exists (x :: xs), h2. cbn [calls_mem]. unfold next at 1. rewrite E1. cbn [bind]. unfold next at 1. rewrite E2. cbn [bind].
      split; [reflexivity|]. split; [exact G2|]. constructor; assumption.
  Qed.
  Lemma session_ok (cs : list (fft_call T)) (h : heap) : Forall (fits n) cs ->
    exists rs h', session enough zre inv pf n cs h = Ret (rs, h') /\ same_memory h h' /\
      Forall2 (fun c x => by_value fwd zre inv f32 n c = Ret x) cs rs.
  Proof.
    intros HF. destruct (construct_ok h) as (k & h1 & E1 & G1). destruct (calls_ok k cs _ h1 G1 HF) as (rs & h2 & E2 & G2 & V).
    destruct (destroy_ok k _ h2 G2) as (h3 & E3 & L3). exists rs, h3. unfold session, next at 1. rewrite E1. cbn [bind]. unfold next at 1. rewrite E2. cbn [bind].
    unfold next at 1. rewrite E3. cbn [bind]. split; [reflexivity|]. split; [exact L3|exact V].
  Qed.
End Calls.
