(** C83: loading models from several threads. *)
From Coq Require Import List PeanoNat Lia Bool.
From Verif Require Import Model.LoadLock Spec.LoadSpec.
Import ListNotations.

Section Put.
  Context {P Lo : Type}.
  Implicit Types l : list (call P Lo).
  Lemma put_same i c l : i < length l -> nth_error (put i c l) i = Some c.
  Proof. revert i; induction l as [|h t IH]; intros [|i] H; cbn in *; try lia; [reflexivity|]. apply IH. lia. Qed.
  Lemma put_other i j c l : i <> j -> nth_error (put i c l) j = nth_error l j.
  Proof. revert i j; induction l as [|h t IH]; intros [|i] [|j] H; cbn; try reflexivity; try congruence. apply IH. congruence. Qed.
  Lemma put_map {A} (f : call P Lo -> A) i c c' l : nth_error l i = Some c' -> f c = f c' -> map f (put i c l) = map f l.
  Proof. revert i; induction l as [|h t IH]; intros [|i] H E; cbn in *; try discriminate; [injection H as ->; now rewrite E|]. f_equal. now apply IH. Qed.
End Put.

Section Inv.
  Context {P B Lo M : Type} (ld : loader P B Lo M).
  Notation shared := (shared P B Lo M).
  Notation call := (call P Lo).

  (** what is known of one call *)
  Definition call_ok (s : shared) (c : call) : Prop :=
    match cl_pc c with
    | Called => True
    | Holding => True
    | Reading l => exists k, forall n r, reads ld (sh_buf s) l n r <-> loads ld (cl_path c) (k + n) r
    | Stored => exists n, loads ld (cl_path c) n (sh_model s (cl_obj c))
    | Returned ok => exists n r, loads ld (cl_path c) n r /\ ok = match r with Some _ => true | None => false end
    end.

  (** what is known of the objects *)
  Definition objects_ok (f : nat -> option M) (s : shared) : Prop :=
    forall o, (sh_model s o = f o /\ forall i c, nth_error (sh_calls s) i = Some c -> cl_obj c = o -> ~ finished c /\ cl_pc c <> Stored) \/
      exists i c n, nth_error (sh_calls s) i = Some c /\ cl_obj c = o /\ (finished c \/ cl_pc c = Stored) /\ loads ld (cl_path c) n (sh_model s o).

  Record inv (f : nat -> option M) (jobs : list (nat * P)) (s : shared) : Prop := MkInv {
    inv_lock : forall i c, nth_error (sh_calls s) i = Some c -> (inside c <-> sh_lock s = Some i);
    inv_owner : forall i, sh_lock s = Some i -> i < length (sh_calls s);
    inv_calls : forall i c, nth_error (sh_calls s) i = Some c -> call_ok s c;
    inv_jobs : map (fun c => (cl_obj c, cl_path c)) (sh_calls s) = jobs;
    inv_objects : objects_ok f s }.

  Lemma inv_begin f b jobs : inv f jobs (begin f b jobs).
  Proof.
    assert (C : forall i c, nth_error (sh_calls (@begin P B Lo M f b jobs)) i = Some c -> cl_pc c = Called).
    { cbn. intros i c H. apply nth_error_In, in_map_iff in H. destruct H as (j & <- & _). reflexivity. }
    split.
    - intros i c H. unfold inside. rewrite (C i c H). cbn. split; [tauto|discriminate].
    - discriminate.
    - intros i c H. unfold call_ok. now rewrite (C i c H).
    - cbn. rewrite map_map. cbn. rewrite <- (map_id jobs) at 2. apply map_ext. now intros [].
    - intros o. left. split; [reflexivity|]. intros i c H _. unfold finished. rewrite (C i c H). split; [intros (ok & X)|]; discriminate.
  Qed.

  (** a call other than the one that moves *)
  Lemma other_ok s s' c : call_ok s c -> ~ inside c -> call_ok s' c.
  Proof. unfold call_ok, inside. destruct (cl_pc c); try tauto. Qed.

  Lemma reads_next b l b' l' n r : ld_step ld b l = (b', inl l') -> reads ld b' l' n r <-> reads ld b l (S n) r.
  Proof.
    intros E. split; intros H; [eapply reads_more; eauto|]. inversion H; subst; [congruence|]. rewrite E in *.
    match goal with X : (_, inl _) = (_, inl _) |- _ => injection X as <- <- end. assumption.
  Qed.

  Lemma inv_step f jobs i s s' : inv f jobs s -> thread_step ld i s = Some s' -> inv f jobs s'.
  Proof.
    intros [IL IO IC IJ IB]. unfold thread_step. destruct (nth_error (sh_calls s) i) as [c|] eqn:Ec; [|discriminate].
    assert (Hi : i < length (sh_calls s)) by (apply nth_error_Some; congruence).
    assert (LEN : forall c', length (put i c' (sh_calls s)) = length (sh_calls s)).
    { intros c'. rewrite <- (map_length (fun _ => tt)), <- (map_length (fun _ => tt) (sh_calls s)). f_equal. now apply (put_map _ i c' c). }
    pose proof (IL i c Ec) as ILi. pose proof (IC i c Ec) as ICi.
    (* the common part *)
    assert (G : forall f' k' b' p, let s1 := MkShared f' k' b' (put i (set_pc c p) (sh_calls s)) in
       (forall j, k' = Some j -> j = i) -> (k' = Some i <-> inside (set_pc c p)) ->
       (forall j, j <> i -> sh_lock s <> Some j) ->
       call_ok s1 (set_pc c p) -> objects_ok f s1 -> inv f jobs s1).
    { intros f' k' b' p s1 K1 K2 NO CO OO. split.
      - intros j cj Hj. cbn [sh_lock s1]. destruct (Nat.eq_dec j i) as [->|NE].
        + cbn [sh_calls s1] in Hj. rewrite put_same in Hj by exact Hi. injection Hj as <-. tauto.
        + cbn [sh_calls s1] in Hj. rewrite put_other in Hj by congruence. pose proof (IL j cj Hj) as X. pose proof (NO j NE).
          split; [tauto|]. intros Y. apply K1 in Y. congruence.
      - intros j Hj. cbn [sh_lock sh_calls s1] in *. rewrite LEN. apply K1 in Hj. now subst.
      - intros j cj Hj. cbn [sh_calls s1] in Hj. destruct (Nat.eq_dec j i) as [->|NE].
        + rewrite put_same in Hj by exact Hi. injection Hj as <-. exact CO.
        + rewrite put_other in Hj by congruence. apply (other_ok s); [exact (IC j cj Hj)|]. intros X. apply (IL j cj Hj) in X. exact (NO j NE X).
      - cbn [sh_calls s1]. rewrite <- IJ. now apply (put_map _ i (set_pc c p) c).
      - exact OO. }
    (* objects when nothing is stored and nobody returns *)
    assert (OB : forall k' b' p, (forall ok, cl_pc c <> Returned ok) -> cl_pc c <> Stored -> (forall ok, p <> Returned ok) -> p <> Stored ->
       objects_ok f (MkShared (sh_model s) k' b' (put i (set_pc c p) (sh_calls s)))).
    { intros k' b' p N1 N2 N3 N4 o. cbn [sh_model sh_calls]. destruct (IB o) as [[X Y]|(j & cj & n & Z1 & Z2 & Z3 & Z4)].
      - left. split; [exact X|]. intros j cj Hj Ho. destruct (Nat.eq_dec j i) as [->|NE].
        + rewrite put_same in Hj by exact Hi. injection Hj as <-. unfold finished. cbn [cl_pc set_pc]. split; [intros (ok & E); now apply (N3 ok)|exact N4].
        + rewrite put_other in Hj by congruence. now apply (Y j cj).
      - right. exists j, cj, n. rewrite put_other; [tauto|]. intros ->. rewrite Ec in Z1. injection Z1 as <-. destruct Z3 as [(ok & E)|E]; [now apply (N1 ok)|exact (N2 E)]. }
    unfold inside in ILi. unfold call_ok in ICi.
    destruct (cl_pc c) as [| |l| |ok] eqn:Ep.
    - destruct (sh_lock s) eqn:EL; [discriminate|]. intros E. injection E as <-. apply G.
      + congruence.
      + unfold inside. cbn. tauto.
      + congruence.
      + exact I.
      + apply OB; congruence.
    - assert (EL : sh_lock s = Some i) by tauto. destruct (ld_open ld (cl_path c)) as [b l] eqn:EO. intros E. injection E as <-. apply G.
      + congruence.
      + unfold inside. cbn. tauto.
      + congruence.
      + exists 0. intros n r. cbn. unfold loads. rewrite EO. cbn. tauto.
      + apply OB; congruence.
    - assert (EL : sh_lock s = Some i) by tauto. destruct ICi as (k & HK).
      destruct (ld_step ld (sh_buf s) l) as [b [l'|m]] eqn:ES; intros E; injection E as <-.
      + apply G.
        * congruence.
        * unfold inside. cbn. tauto.
        * congruence.
        * exists (S k). intros n r. cbn [sh_buf cl_path set_pc]. rewrite (reads_next _ _ _ _ _ _ ES), HK. replace (k + S n) with (S k + n) by lia. tauto.
        * apply OB; congruence.
      + assert (LD : loads ld (cl_path c) (k + 1) m) by (apply HK; eapply reads_end; exact ES).
        apply G.
        * congruence.
        * unfold inside. cbn. tauto.
        * congruence.
        * exists (k + 1). cbn [cl_path cl_obj set_pc sh_model]. unfold store. now rewrite Nat.eqb_refl.
        * intros o. cbn [sh_model sh_calls]. unfold store. destruct (Nat.eqb_spec o (cl_obj c)) as [->|NE].
          { right. exists i, (set_pc c Stored), (k + 1). rewrite put_same by exact Hi. cbn [cl_pc cl_obj cl_path set_pc]. auto. }
          { destruct (IB o) as [[X Y]|(j & cj & n & Z1 & Z2 & Z3 & Z4)].
            - left. split; [exact X|]. intros j cj Hj Ho. destruct (Nat.eq_dec j i) as [->|NJ].
              + rewrite put_same in Hj by exact Hi. injection Hj as <-. cbn in Ho. congruence.
              + rewrite put_other in Hj by congruence. now apply (Y j cj).
            - right. exists j, cj, n. rewrite put_other; [tauto|]. intros ->. rewrite Ec in Z1. injection Z1 as <-. congruence. }
    - assert (EL : sh_lock s = Some i) by tauto. intros E; injection E as <-. destruct ICi as (n & LD). apply G.
      + discriminate.
      + unfold inside. cbn. split; [discriminate|tauto].
      + congruence.
      + exists n, (sh_model s (cl_obj c)). auto.
      + intros o. cbn [sh_model sh_calls]. destruct (Nat.eq_dec o (cl_obj c)) as [->|NE].
        { right. exists i, (set_pc c (Returned (match sh_model s (cl_obj c) with Some _ => true | None => false end))), n. rewrite put_same by exact Hi. cbn [cl_pc cl_obj cl_path set_pc]. split; [reflexivity|].
          split; [reflexivity|]. split; [left; eexists; reflexivity|exact LD]. }
        { destruct (IB o) as [[X Y]|(j & cj & n' & Z1 & Z2 & Z3 & Z4)].
          - left. split; [exact X|]. intros j cj Hj Ho. destruct (Nat.eq_dec j i) as [->|NJ].
            + rewrite put_same in Hj by exact Hi. injection Hj as <-. cbn in Ho. congruence.
            + rewrite put_other in Hj by congruence. now apply (Y j cj).
          - right. exists j, cj, n'. rewrite put_other; [tauto|]. intros ->. rewrite Ec in Z1. injection Z1 as <-. congruence. }
    - discriminate.
  Qed.

  Lemma inv_schedule f jobs l : forall s, inv f jobs s -> inv f jobs (schedule ld l s).
  Proof. induction l as [|i t IH]; intros s H; cbn; [exact H|]. apply IH. destruct (thread_step ld i s) eqn:E; [now apply (inv_step f jobs i s)|exact H]. Qed.

  Lemma exclusive f b jobs l i j ci cj : let s := schedule ld l (begin f b jobs) in
    nth_error (sh_calls s) i = Some ci -> nth_error (sh_calls s) j = Some cj -> inside ci -> inside cj -> i = j.
  Proof.
    intros s Hi Hj Ii Ij. pose proof (inv_schedule f jobs l _ (inv_begin f b jobs)) as V. fold s in V.
    apply (inv_lock _ _ _ V i ci Hi) in Ii. apply (inv_lock _ _ _ V j cj Hj) in Ij. congruence.
  Qed.

  Lemma as_alone f b jobs l i c ok : let s := schedule ld l (begin f b jobs) in
    nth_error (sh_calls s) i = Some c -> cl_pc c = Returned ok ->
    nth_error jobs i = Some (cl_obj c, cl_path c) /\ exists n r, loads ld (cl_path c) n r /\ (ok = true <-> r <> None).
  Proof.
    intros s Hi E. pose proof (inv_schedule f jobs l _ (inv_begin f b jobs)) as V. fold s in V. split.
    - rewrite <- (inv_jobs _ _ _ V). now rewrite nth_error_map, Hi.
    - pose proof (inv_calls _ _ _ V i c Hi) as X. unfold call_ok in X. rewrite E in X. destruct X as (n & r & LD & ->). exists n, r. split; [exact LD|].
      destruct r; split; congruence.
  Qed.

  Lemma object_model f b jobs l o : let s := schedule ld l (begin f b jobs) in
    (sh_model s o = f o /\ forall c, In c (sh_calls s) -> finished c -> cl_obj c <> o) \/
    exists p n, In (o, p) jobs /\ loads ld p n (sh_model s o).
  Proof.
    intros s. pose proof (inv_schedule f jobs l _ (inv_begin f b jobs)) as V. fold s in V.
    destruct (inv_objects _ _ _ V o) as [[X Y]|(i & c & n & H & Ho & _ & LD)].
    - left. split; [exact X|]. intros c Hc F E. apply In_nth_error in Hc. destruct Hc as (i & Hi). exact (proj1 (Y i c Hi E) F).
    - right. exists (cl_path c), n. split; [|exact LD]. rewrite <- (inv_jobs _ _ _ V). apply in_map_iff. exists c. rewrite Ho. split; [reflexivity|]. now apply (nth_error_In _ i).
  Qed.

  Lemma moving c : finished c \/ ~ @finished P Lo c.
  Proof. unfold finished. destruct (cl_pc c); try (right; intros (ok & E); discriminate). left. eexists. reflexivity. Qed.

  Lemma progress f b jobs l : let s := schedule ld l (begin f b jobs) in
    (exists c, In c (sh_calls s) /\ ~ finished c) -> exists i s', thread_step ld i s = Some s'.
  Proof.
    intros s (c & Hc & NF). pose proof (inv_schedule f jobs l _ (inv_begin f b jobs)) as V. fold s in V.
    destruct (sh_lock s) as [j|] eqn:EL.
    - exists j. pose proof (inv_owner _ _ _ V j EL) as Hj. apply nth_error_Some in Hj. destruct (nth_error (sh_calls s) j) as [cj|] eqn:Ej; [|congruence].
      pose proof (proj2 (inv_lock _ _ _ V j cj Ej) EL) as In. unfold inside in In. unfold thread_step. rewrite Ej. destruct (cl_pc cj) as [| |lo| |]; try tauto.
      + destruct (ld_open _ _). eexists. reflexivity.
      + destruct (ld_step _ _ _) as [? [?|?]]; eexists; reflexivity.
      + eexists. reflexivity.
    - apply In_nth_error in Hc. destruct Hc as (i & Hi). exists i. unfold thread_step. rewrite Hi. pose proof (inv_lock _ _ _ V i c Hi) as X. rewrite EL in X.
      unfold inside in X. unfold finished in NF. destruct (cl_pc c) as [| |lo| |ok].
      + rewrite EL. eexists. reflexivity.
      + destruct X as [X _]. discriminate (X I).
      + destruct X as [X _]. discriminate (X I).
      + destruct X as [X _]. discriminate (X I).
      + destruct NF. eexists. reflexivity.
  Qed.

  (** ---- counting ---- *)
  (** the steps a call still has to make *)
  Definition owes (s : shared) (c : call) (w : nat) : Prop :=
    match cl_pc c with
    | Called => exists n r, loads ld (cl_path c) n r /\ w = n + 3
    | Holding => exists n r, loads ld (cl_path c) n r /\ w = n + 2
    | Reading l => exists n r, reads ld (sh_buf s) l n r /\ w = n + 1
    | Stored => w = 1
    | Returned _ => w = 0
    end.
  Definition total (l : list nat) : nat := fold_right Nat.add 0 l.

  Lemma Forall2_put (R R' : call -> nat -> Prop) i c c' w' : forall l ws, Forall2 R l ws -> nth_error l i = Some c ->
    (forall j d w, j <> i -> nth_error l j = Some d -> R d w -> R' d w) ->
    (forall w, R c w -> w = S w' /\ R' c' w') -> exists ws', Forall2 R' (put i c' l) ws' /\ total ws = S (total ws').
  Proof.
    revert i. intros i l ws F. revert i. induction F as [|h w t ws H F IH]; intros i E O C; [destruct i; discriminate|].
    destruct i as [|i]; cbn in E.
    - injection E as ->. destruct (C w H) as [-> X]. exists (w' :: ws). split; [|unfold total in *; cbn [fold_right]; lia]. cbn. constructor; [exact X|].
      assert (O' : forall j d u, nth_error t j = Some d -> R d u -> R' d u) by (intros j d u Hj; apply (O (S j)); [discriminate|exact Hj]).
      clear - F O'. induction F as [|a u t ws A F IH]; constructor.
      + now apply (O' 0 a u).
      + apply IH. intros j d v Hj. now apply (O' (S j)).
    - destruct (IH i E) as (ws' & F' & T).
      + intros j d u NE Hj. apply (O (S j)); [congruence|exact Hj].
      + exact C.
      + exists (w :: ws'). split; [|unfold total in *; cbn [fold_right]; lia]. cbn. constructor; [|exact F']. now apply (O 0 h w).
  Qed.

  Lemma Forall2_ex (R : call -> nat -> Prop) i c l ws : Forall2 R l ws -> nth_error l i = Some c -> exists w, R c w.
  Proof. intros F. revert i. induction F as [|h w t ws H F IH]; intros [|i] E; cbn in E; try discriminate; [injection E as <-; eauto|eauto]. Qed.

  Lemma reads_fun b l n r : reads ld b l n r -> forall n' r', reads ld b l n' r' -> n = n' /\ r = r'.
  Proof.
    induction 1 as [b l b' r E|b l b' l' n r E H IH]; intros n' r' H'; inversion H'; subst; rewrite E in *; try discriminate.
    - match goal with X : (_, inr _) = (_, inr _) |- _ => injection X as <- <- end. auto.
    - match goal with X : (_, inl _) = (_, inl _) |- _ => injection X as <- <- end. match goal with X : reads _ _ _ n0 r' |- _ => destruct (IH _ _ X) end. auto.
  Qed.

  Lemma owes_step f jobs i s s' ws : inv f jobs s -> thread_step ld i s = Some s' -> Forall2 (owes s) (sh_calls s) ws ->
    exists ws', Forall2 (owes s') (sh_calls s') ws' /\ total ws = S (total ws').
  Proof.
    intros V. unfold thread_step. destruct (nth_error (sh_calls s) i) as [c|] eqn:Ec; [|discriminate]. intros E F.
    assert (O : forall k, (sh_lock s = Some i \/ sh_lock s = None) -> forall j d w, j <> i -> nth_error (sh_calls s) j = Some d -> owes s d w -> owes k d w).
    { intros k L j d w NE Hj. pose proof (inv_lock _ _ _ V j d Hj) as X. unfold owes. unfold inside in X. destruct (cl_pc d); try tauto.
      destruct X as [X _]. specialize (X I). destruct L; congruence. }
    pose proof (inv_lock _ _ _ V i c Ec) as X. unfold inside in X.
    destruct (Forall2_ex _ i c _ _ F Ec) as (w0 & Hw0).
    destruct (cl_pc c) as [| |l| |ok] eqn:Ep.
    - destruct (sh_lock s) eqn:EL; [discriminate|]. injection E as <-. cbn [sh_calls]. unfold owes in Hw0. rewrite Ep in Hw0. destruct Hw0 as (n & r & LD & ->).
      apply (Forall2_put (owes s) _ i c _ (n + 2)); [exact F|exact Ec|apply O; auto|].
      intros w Hw. unfold owes in Hw. rewrite Ep in Hw. destruct Hw as (n' & r' & LD' & ->). destruct (reads_fun _ _ _ _ LD _ _ LD') as [<- <-].
      split; [lia|]. exists n, r. auto.
    - assert (EL : sh_lock s = Some i) by tauto. destruct (ld_open ld (cl_path c)) as [b l] eqn:EO. injection E as <-. cbn [sh_calls].
      unfold owes in Hw0. rewrite Ep in Hw0. destruct Hw0 as (n & r & LD & ->).
      apply (Forall2_put (owes s) _ i c _ (n + 1)); [exact F|exact Ec|apply O; auto|].
      intros w Hw. unfold owes in Hw. rewrite Ep in Hw. destruct Hw as (n' & r' & LD' & ->). destruct (reads_fun _ _ _ _ LD _ _ LD') as [<- <-].
      split; [lia|]. exists n, r. split; [|reflexivity]. unfold loads in LD. rewrite EO in LD. exact LD.
    - assert (EL : sh_lock s = Some i) by tauto. unfold owes in Hw0. rewrite Ep in Hw0. destruct Hw0 as (n & r & LD & ->).
      destruct (ld_step ld (sh_buf s) l) as [b [l'|m]] eqn:ES; injection E as <-; cbn [sh_calls].
      + destruct n as [|n]; [inversion LD|]. apply (Forall2_put (owes s) _ i c _ (n + 1)); [exact F|exact Ec|apply O; auto|].
        intros w Hw. unfold owes in Hw. rewrite Ep in Hw. destruct Hw as (n' & r' & LD' & ->). destruct (reads_fun _ _ _ _ LD _ _ LD') as [<- <-].
        split; [lia|]. exists n, r. split; [|reflexivity]. cbn [sh_buf]. now apply (reads_next _ _ _ _ _ _ ES).
      + apply (Forall2_put (owes s) _ i c _ 1); [exact F|exact Ec|apply O; auto|].
        intros w Hw. unfold owes in Hw. rewrite Ep in Hw. destruct Hw as (n' & r' & LD' & ->). split; [|reflexivity].
        destruct (reads_fun _ _ _ _ LD' _ _ (reads_end ld _ _ _ _ ES)) as [-> _]. reflexivity.
    - assert (EL : sh_lock s = Some i) by tauto. injection E as <-. cbn [sh_calls].
      apply (Forall2_put (owes s) _ i c _ 0); [exact F|exact Ec|apply O; auto|]. intros w Hw. unfold owes in Hw. rewrite Ep in Hw. subst w. split; reflexivity.
    - discriminate.
  Qed.

  Lemma owes_schedule f jobs l : forall s ws, inv f jobs s -> Forall2 (owes s) (sh_calls s) ws ->
    exists ws', Forall2 (owes (schedule ld l s)) (sh_calls (schedule ld l s)) ws' /\ total ws = moves ld l s + total ws'.
  Proof.
    induction l as [|i t IH]; intros s ws V F; cbn; [eauto|]. destruct (thread_step ld i s) as [s'|] eqn:E; [|now apply IH].
    destruct (owes_step f jobs i s s' ws V E F) as (ws1 & F1 & T1). destruct (IH s' ws1 (inv_step f jobs i s s' V E) F1) as (ws' & F' & T'). exists ws'. split; [exact F'|lia].
  Qed.

  Lemma owes_begin f b jobs ns : Forall2 (fun j n => exists r, loads ld (snd j) n r) jobs ns ->
    Forall2 (owes (begin f b jobs)) (sh_calls (begin f b jobs)) (map (fun n => n + 3) ns).
  Proof. cbn. induction 1 as [|j n t ns (r & H) F IH]; cbn; constructor; [|exact IH]. exists n, r. auto. Qed.

  Lemma owes_none s l ws : Forall2 (owes s) l ws -> (total ws = 0 <-> Forall finished l).
  Proof.
    induction 1 as [|c w t ws H F IH]; cbn; [split; auto|]. unfold owes in H. destruct (cl_pc c) as [| |lo| |ok] eqn:Ep.
    1-3: destruct H as (n & r & _ & ->). 1-4: split; [lia|]; intros X; inversion X as [|? ? (ok & Y) ?]; congruence.
    subst w. cbn. rewrite IH. split; intros X; [constructor; [exists ok; exact Ep|exact X]|now inversion X].
  Qed.

  Lemma counted f b jobs ns l : Forall2 (fun j n => exists r, loads ld (snd j) n r) jobs ns ->
    let s := schedule ld l (begin f b jobs) in let all := fold_right Nat.add 0 (map (fun n => n + 3) ns) in
    moves ld l (begin f b jobs) <= all /\ (moves ld l (begin f b jobs) = all <-> Forall finished (sh_calls s)).
  Proof.
    intros H s all. destruct (owes_schedule f jobs l _ _ (inv_begin f b jobs) (owes_begin f b jobs ns H)) as (ws & F & T). fold s in F.
    pose proof (owes_none s _ ws F) as Z. fold (total (map (fun n => n + 3) ns)) in all. fold all in T. split; [lia|]. rewrite <- Z. lia.
  Qed.
End Inv.
