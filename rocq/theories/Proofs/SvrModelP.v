(** Lemmas about the memory of the regression model object. *)
From Coq Require Import ZArith List Bool Lia Arith.
From Verif Require Import Base.Res Base.Num Base.Lists Model.Mappers Model.SvrModel Spec.SvrSpec.
Import ListNotations.
Open Scope nat_scope.

Section P.
  Context {T : Type} {N : Num T}.
  Implicit Types (h : heap T) (l ext rest base : list (nat * block T)).

  Definition away (a : nat) l : Prop := Forall (fun p => fst p <> a) l.
  Lemma away_app a l rest : away a (l ++ rest) <-> away a l /\ away a rest.
  Proof. apply Forall_app. Qed.
  Lemma away_cons a p l : away a (p :: l) <-> fst p <> a /\ away a l.
  Proof. unfold away. split; [intros H; inversion H; auto|intros [A B]; constructor; auto]. Qed.
  Lemma sane_away n a base : Forall (fun p => fst p < n) base -> n <= a -> away a base.
  Proof. intros H L. unfold away. eapply Forall_impl; [|exact H]. cbn. intros; lia. Qed.
  Lemma away_in a l : away a l <-> ~ In a (map fst l).
  Proof.
    unfold away. rewrite Forall_forall. split.
    - intros H I. apply in_map_iff in I. destruct I as (p & E & I). exact (H p I E).
    - intros H p I E. apply H. apply in_map_iff. eauto.
  Qed.

  Lemma filter_away a l : away a l -> filter (fun p : nat * block T => negb (fst p =? a)) l = l.
  Proof.
    induction 1 as [|p l H _ IH]; [reflexivity|]. cbn. destruct (Nat.eqb_spec (fst p) a); [congruence|]. cbn. now rewrite IH.
  Qed.
  Lemma map_away a b l : away a l -> map (fun p : nat * block T => if fst p =? a then (a, b) else p) l = l.
  Proof. induction 1 as [|p l H _ IH]; [reflexivity|]. cbn. destruct (Nat.eqb_spec (fst p) a); [congruence|]. now rewrite IH. Qed.
  Lemma find_mid a b n ext rest : away a ext -> find_block (MkHeap n (ext ++ (a, b) :: rest)) a = Some b.
  Proof.
    intros H. unfold find_block. cbn [h_live]. induction H as [|p l H _ IH]; cbn; [now rewrite Nat.eqb_refl|].
    destruct (Nat.eqb_spec (fst p) a); [congruence|]. exact IH.
  Qed.
  Lemma free_mid a b n ext rest : away a ext -> away a rest -> free_at (MkHeap n (ext ++ (a, b) :: rest)) a = Ret (MkHeap n (ext ++ rest)).
  Proof.
    intros H1 H2. unfold free_at. rewrite find_mid by assumption. unfold remove_block. cbn [h_live h_next].
    rewrite filter_app. cbn [filter fst]. rewrite Nat.eqb_refl. cbn [negb]. now rewrite !filter_away.
  Qed.
  Lemma find_head a b n rest : find_block (MkHeap n ((a, b) :: rest)) a = Some b.
  Proof. apply (find_mid a b n []). constructor. Qed.
  Lemma free_head a b n rest : away a rest -> free_at (MkHeap n ((a, b) :: rest)) a = Ret (MkHeap n rest).
  Proof. intros H. apply (free_mid a b n []); [constructor|exact H]. Qed.
  Lemma free_all_ext n : forall rows ext rest, map fst ext = rev rows -> NoDup rows -> (forall a, In a rows -> away a rest) ->
    free_all (MkHeap n (ext ++ rest)) rows = Ret (MkHeap n rest).
  Proof.
    induction rows as [|a rows IH]; intros ext rest E ND H.
    - destruct ext; [reflexivity|discriminate].
    - cbn [rev] in E. destruct (@exists_last _ ext) as (ext' & p & ->).
      { intros ->. destruct (rev rows); discriminate. }
      rewrite map_app in E. cbn [map] in E. apply app_inj_tail in E. destruct E as [E1 E2]. destruct p as [a' b]. cbn in E2. subst a'.
      inversion ND as [|? ? N1 N2]; subst. cbn [free_all]. rewrite <- app_assoc. cbn [app].
      rewrite free_mid; [|apply away_in; rewrite E1, <- in_rev; exact N1|apply H; now left].
      cbn [bind]. apply IH; auto. intros x Hx. apply H. now right.
  Qed.

  (** *** converting observations *)
  Lemma convert_row_ok k (x : list T) : k <= length x -> exists r, convert_row k x = Ret r.
  Proof. intros H. unfold convert_row. destruct (Nat.ltb_spec (length x) k); [lia|eauto]. Qed.
  Lemma convert_row_bad k (x : list T) : length x < k -> convert_row k x = Ub.
  Proof. intros H. unfold convert_row. destruct (Nat.ltb_spec (length x) k); [reflexivity|lia]. Qed.
  Lemma convert_rows_ok k : forall (l : list (list T)) h, Forall (fun x => k <= length x) l ->
    exists ext, convert_rows k h l = Ret (seq (h_next h) (length l), MkHeap (h_next h + length l) (ext ++ h_live h)) /\
      map fst ext = rev (seq (h_next h) (length l)) /\
      map snd ext = rev (map (fun x => Nodes (map (fun i => (Z.of_nat i + 1, Some (nth i x n0))%Z) (seq 0 k) ++ [(-1, None)%Z])) l).
  Proof.
    induction l as [|x l IH]; intros h H.
    - exists []. cbn. rewrite Nat.add_0_r. destruct h; auto.
    - inversion H as [|? ? H1 H2]; subst. cbn [convert_rows]. unfold convert_row. destruct (Nat.ltb_spec (length x) k); [lia|]. cbn [bind alloc].
      match goal with |- context [convert_rows k ?hh l] => destruct (IH hh H2) as (ext & E & M1 & M2) end.
      cbn [h_next h_live] in *. rewrite E. cbn [bind fst snd length].
      exists (ext ++ [(h_next h, Nodes (map (fun i => (Z.of_nat i + 1, Some (nth i x n0))%Z) (seq 0 k) ++ [(-1, None)%Z]))]).
      rewrite <- app_assoc. cbn [app]. rewrite Nat.add_succ_r. split; [reflexivity|].
      rewrite !map_app, M1, M2. cbn. split; reflexivity.
  Qed.
  Lemma convert_rows_bad k : forall (l : list (list T)) h, Exists (fun x => length x < k) l -> convert_rows k h l = Ub.
  Proof.
    induction l as [|x l IH]; intros h H; [inversion H|]. cbn [convert_rows].
    destruct (Nat.ltb_spec (length x) k) as [C|C]; [rewrite convert_row_bad by assumption; reflexivity|].
    inversion H; subst; [lia|]. destruct (convert_row_ok k x C) as (r & ->). cbn [bind alloc]. now rewrite IH.
  Qed.
  Lemma away_ext a ext : (forall x, In x (map fst ext) -> x <> a) -> away a ext.
  Proof. intros H. apply away_in. intros I. exact (H a I eq_refl). Qed.
  Lemma convert_observations_ok k (l : list (list T)) h : sane h -> Forall (fun x => k <= length x) l ->
    exists ext, convert_observations k h l =
      Ret (h_next h, seq (S (h_next h)) (length l),
           MkHeap (S (h_next h) + length l) (ext ++ (h_next h, Rows (seq (S (h_next h)) (length l))) :: h_live h)) /\
      map fst ext = rev (seq (S (h_next h)) (length l)) /\
      map snd ext = rev (map (fun x => Nodes (map (fun i => (Z.of_nat i + 1, Some (nth i x n0))%Z) (seq 0 k) ++ [(-1, None)%Z])) l).
  Proof.
    intros S H. unfold convert_observations. cbn [alloc].
    match goal with |- context [convert_rows k ?hh l] => destruct (convert_rows_ok k l hh H) as (ext & E & M1 & M2) end.
    cbn [h_next h_live] in *. rewrite E. cbn [bind h_next h_live]. exists ext. split; [|split; assumption].
    rewrite map_app. cbn [map fst]. rewrite Nat.eqb_refl. rewrite (map_away (h_next h) _ (h_live h)) by (eapply sane_away; [exact S|lia]).
    rewrite (map_away (h_next h) _ ext); [reflexivity|]. apply away_ext. intros x I. rewrite M1, <- in_rev, in_seq in I. lia.
  Qed.
  Lemma convert_observations_bad k (l : list (list T)) h : Exists (fun x => length x < k) l -> convert_observations k h l = Ub.
  Proof. intros H. unfold convert_observations. cbn [alloc]. now rewrite convert_rows_bad. Qed.

  (** *** destroying a model *)
  Lemma destroy_model n m owned used ext base (o : svr_object) : so_model o = At m ->
    map fst ext = rev owned -> NoDup (m :: owned) -> (forall a, In a (m :: owned) -> away a base) ->
    svr_destroy o (MkHeap n ((m, Model owned used) :: ext ++ base)) =
    (do h3 <- free_rows (MkHeap n base) o; free_ptr h3 (so_rows o)).
  Proof.
    intros E M ND A. unfold svr_destroy. rewrite E. inversion ND as [|? ? N1 N2]; subst.
    assert (AE : away m ext) by (apply away_in; rewrite M, <- in_rev; exact N1).
    assert (F1 : free_content (MkHeap n ((m, Model owned used) :: ext ++ base)) m = Ret (MkHeap n ((m, Model [] used) :: base))).
    { unfold free_content. rewrite find_head.
      assert (FA : forall r, map fst r = rev owned -> free_all (MkHeap n ((m, Model owned used) :: r ++ base)) owned = Ret (MkHeap n ((m, Model owned used) :: base))).
      { intros r Hr. revert Hr N2. assert (G : forall q r, map fst r = rev q -> NoDup q -> ~ In m q -> (forall a, In a q -> away a base) ->
          free_all (MkHeap n ((m, Model owned used) :: r ++ base)) q = Ret (MkHeap n ((m, Model owned used) :: base))).
        { clear - N. induction q as [|a q IH]; intros r Hr ND NI AA.
          - destruct r; [reflexivity|discriminate].
          - cbn [rev] in Hr. destruct (@exists_last _ r) as (r' & p & ->); [intros ->; destruct (rev q); discriminate|].
            rewrite map_app in Hr. cbn [map] in Hr. apply app_inj_tail in Hr. destruct Hr as [E1 E2]. destruct p as [a' b]. cbn in E2. subst a'.
            inversion ND as [|? ? N1 N2]; subst. cbn [free_all]. rewrite <- app_assoc. cbn [app].
            change ((m, Model owned used) :: r' ++ (a, b) :: base) with (((m, Model owned used) :: r') ++ (a, b) :: base).
            rewrite (free_mid a b n ((m, Model owned used) :: r') base).
            + cbn [bind app]. apply IH; auto. { intros X. apply NI. now right. } intros x Hx. apply AA. now right.
            + apply away_cons. split; [cbn; intros ->; apply NI; now left|]. apply away_in. rewrite E1, <- in_rev. exact N1.
            + apply AA. now left. }
        intros Hr N2. apply G; auto. intros a Ha. apply A. now right. }
      rewrite FA by exact M. cbn [bind h_next h_live map fst]. rewrite Nat.eqb_refl. rewrite map_away by (apply A; now left). reflexivity. }
    rewrite F1. cbn [bind]. unfold free_and_destroy, free_content. rewrite find_head.
    cbn [free_all bind h_next h_live map fst]. rewrite Nat.eqb_refl. rewrite map_away by (apply A; now left).
    rewrite free_head; [reflexivity|apply A; now left].
  Qed.

  (** *** asking a model *)
  Lemma ask_ok (answer : svr_model T) o m owned used h obs : so_model o = At m -> find_block h m = Some (Model owned used) ->
    readable h (owned ++ used) = true -> sane h ->
    exists n, svr_object_predict answer o h obs = Ret (answer (convert_observation obs), MkHeap n (h_live h)) /\ h_next h <= n.
  Proof.
    intros E F R S. unfold svr_object_predict. cbn [alloc]. rewrite E.
    assert (FB : forall a, find_block h a <> None -> find_block (MkHeap (Datatypes.S (h_next h)) ((h_next h, Nodes (convert_observation obs)) :: h_live h)) a = find_block h a).
    { intros a NF. clear F R. unfold find_block in *. cbn [h_live find fst]. destruct (Nat.eqb_spec (h_next h) a) as [C|C]; [|reflexivity].
      exfalso. apply NF. destruct (find _ (h_live h)) as [p|] eqn:G; [|reflexivity]. apply find_some in G. destruct G as [G1 G2]. apply Nat.eqb_eq in G2.
      unfold sane in S. rewrite Forall_forall in S. specialize (S p G1). lia. }
    rewrite FB, F by congruence.
    replace (readable _ (owned ++ used)) with true.
    { rewrite free_head; [|eapply sane_away; [exact S|lia]].
      cbn [bind app]. eexists. split; [reflexivity|lia]. }
    symmetry. unfold readable in *. rewrite forallb_forall in *. intros x Hx. specialize (R x Hx).
    rewrite FB; [exact R|]. destruct (find_block h x); congruence.
  Qed.

  Definition is_ask (u : use T) : Prop := exists x, u = Ask x.
  Lemma asks_ok (answer : svr_model T) o m owned used : so_model o = At m -> forall (l : list (use T)) h, Forall is_ask l -> find_block h m = Some (Model owned used) ->
    readable h (owned ++ used) = true -> sane h -> exists n, steps answer o h l = Ret (o, MkHeap n (h_live h)) /\ h_next h <= n.
  Proof.
    intros E. induction l as [|u l IH]; intros h H F R S.
    - exists (h_next h). destruct h; cbn. auto.
    - inversion H as [|? ? [x ->] H2]; subst. cbn [steps step].
      destruct (ask_ok answer o m owned used h x E F R S) as (n & -> & Hn). cbn [bind fst snd].
      destruct (IH (MkHeap n (h_live h)) H2) as (n' & E' & Hn').
      + exact F.
      + exact R.
      + unfold sane in *. cbn [h_next h_live]. eapply Forall_impl; [|exact S]. cbn. lia.
      + cbn [h_live] in E'. exists n'. split; [exact E'|]. cbn in Hn'. lia.
  Qed.

  Lemma readable_all h used : (forall a, In a used -> In a (map fst (h_live h))) -> readable h used = true.
  Proof.
    intros H. unfold readable. rewrite forallb_forall. intros a Ha. specialize (H a Ha). unfold find_block.
    destruct (find _ _) as [p|] eqn:F; [reflexivity|]. apply in_map_iff in H. destruct H as (p & E & I).
    apply (find_none _ _ F) in I. apply Nat.eqb_neq in I. congruence.
  Qed.
  Lemma seq_away n k base a : Forall (fun p : nat * block T => fst p < n) base -> n <= a -> a < k -> away a base.
  Proof. intros H L _. eapply sane_away; eauto. Qed.

  (** *** the lives *)
  Lemma life_load (answer : svr_model T) h asks : sane h -> Forall is_ask asks ->
    exists h', life answer h (FromFile true :: asks) = Ret h' /\ h_live h' = h_live h.
  Proof.
    intros S HA. unfold life. cbn [steps step]. unfold svr_init_file. cbn [alloc bind fst snd h_next h_live].
    match goal with |- context [steps answer ?o ?hh asks] => set (o1 := o); set (h1 := hh) end.
    destruct (asks_ok answer o1 _ [h_next h; Datatypes.S (h_next h)] [] eq_refl asks h1 HA) as (n & E & _).
    - unfold h1. apply find_head.
    - apply readable_all. unfold h1. cbn. intuition.
    - unfold sane, h1 in *. cbn [h_next h_live]. repeat constructor; cbn; try lia. eapply Forall_impl; [|exact S]. cbn. lia.
    - rewrite E. cbn [bind fst snd]. unfold h1. cbn [h_live].
      rewrite (destroy_model n _ [h_next h; Datatypes.S (h_next h)] [] [(Datatypes.S (h_next h), Arrays); (h_next h, Nodes [])] (h_live h) o1); try reflexivity.
      + cbn. eexists. split; reflexivity.
      + repeat constructor; cbn; lia.
      + intros a Ha. eapply sane_away; [exact S|]. cbn in Ha. lia.
  Qed.
  Lemma life_no_load (answer : svr_model T) h : life answer h [FromFile false] = Ret h.
  Proof. reflexivity. Qed.

  Lemma firstn_all' {A} (l : list A) n : length l <= n -> firstn n l = l.
  Proof. intros. now apply firstn_all2. Qed.
  Lemma life_train (answer : svr_model T) h x y asks : sane h -> can_train x y -> Forall is_ask asks ->
    exists h', life answer h (Train x y :: asks) = Ret h' /\ h_live h' = h_live h.
  Proof.
    intros S CT HA. unfold life. cbn [steps step]. unfold svr_init_data.
    destruct x as [|x0 xs]; [destruct CT|]. destruct CT as (NE & RE & LY). destruct y as [|y0 ys]; [congruence|].
    destruct (convert_observations_ok (length x0) (x0 :: xs) h S) as (ext & E & M1 & _).
    { apply Forall_forall. intros z Hz. now apply RE. }
    rewrite E. cbn [bind]. rewrite seq_length. replace (_ <? _) with false by (symmetry; apply Nat.ltb_ge; exact LY).
    set (j := length (y0 :: ys)) in *.
    cbn [alloc bind fst snd h_next h_live].
    set (k := length (x0 :: xs)) in *.
    match goal with |- context [steps answer ?o ?hh asks] => set (o1 := o); set (h1 := hh) end.
    destruct (asks_ok answer o1 _ [Datatypes.S (h_next h) + k] (firstn j (seq (Datatypes.S (h_next h)) k)) eq_refl asks h1 HA) as (n & EA & _).
    - unfold h1. apply find_head.
    - apply readable_all. unfold h1. cbn [h_live map fst]. intros a Ha. apply in_app_or in Ha. destruct Ha as [[<-|[]]|Ha]; [right; now left|].
      right. right. rewrite map_app, M1. apply in_or_app. left. rewrite <- in_rev. rewrite <- (firstn_skipn j (seq _ _)). apply in_or_app. now left.
    - unfold sane, h1 in *. cbn [h_next h_live]. constructor; [cbn; lia|]. constructor; [cbn; lia|]. apply Forall_app. split.
      + apply Forall_forall. intros p Hp. apply (in_map fst) in Hp. rewrite M1, <- in_rev, in_seq in Hp. lia.
      + constructor; [cbn; lia|]. eapply Forall_impl; [|exact S]. cbn. intros; lia.
    - rewrite EA. cbn [bind fst snd]. unfold h1. cbn [h_live].
      rewrite (destroy_model n _ [Datatypes.S (h_next h) + k] (firstn j (seq (Datatypes.S (h_next h)) k)) [(Datatypes.S (h_next h) + k, Arrays)]
        (ext ++ (h_next h, Rows (seq (Datatypes.S (h_next h)) k)) :: h_live h) o1); try reflexivity.
      + unfold free_rows, o1. cbn [so_count so_rows so_model]. unfold k. cbn [length]. fold (length (x0 :: xs)). 
        change (Datatypes.S (length xs)) with k.
        rewrite (find_mid (h_next h) _ n ext (h_live h)); [|apply away_ext; intros z I; rewrite M1, <- in_rev, in_seq in I; lia].
        rewrite seq_length, Nat.ltb_irrefl. rewrite (firstn_all' (seq _ _)) by (rewrite seq_length; lia).
        rewrite free_all_ext; [|exact M1|apply seq_NoDup|].
        * cbn [bind free_ptr]. rewrite free_head; [|eapply sane_away; [exact S|lia]].
          eexists. split; reflexivity.
        * intros a Ha. rewrite in_seq in Ha. apply away_cons. split; [cbn; lia|]. eapply sane_away; [exact S|lia].
      + repeat constructor; cbn; lia.
      + intros a Ha. assert (L : Datatypes.S (h_next h) + k <= a) by (destruct Ha as [<-|[<-|[]]]; lia). apply away_app. split.
        * apply away_ext. intros z I. rewrite M1, <- in_rev, in_seq in I. lia.
        * apply away_cons. split; [cbn; lia|]. eapply sane_away; [exact S|lia].
  Qed.

  (** *** the manager's mappers *)
  Definition holds base (cur : option svr_object) h : Prop :=
    Forall (fun p => fst p < h_next h) base /\
    match cur with
    | None => h_live h = base
    | Some o => so_rows o = Null /\ so_count o = 0 /\
        ((so_model o = Null /\ h_live h = base) \/
         exists m sv arr, so_model o = At m /\ NoDup [m; sv; arr] /\ (forall a, In a [m; sv; arr] -> away a base) /\
           h_live h = (m, Model [sv; arr] []) :: [(arr, Arrays); (sv, Nodes [])] ++ base)
    end.
  Lemma holds_destroy base o h : holds base (Some o) h -> exists n, svr_destroy o h = Ret (MkHeap n base) /\ n = h_next h.
  Proof.
    intros (B & R & C & [[M L]|(m & sv & arr & M & ND & A & L)]); destruct h as [n l]; cbn [h_live h_next] in *; subst l.
    - exists n. split; [|reflexivity]. unfold svr_destroy. rewrite M. reflexivity.
    - exists n. split; [|reflexivity]. rewrite (destroy_model n m [sv; arr] [] [(arr, Arrays); (sv, Nodes [])] base o M eq_refl ND A).
      unfold free_rows. rewrite C, R. reflexivity.
  Qed.
  Lemma mappers_ok base : forall (l : list (option bool)) cur h, holds base cur h -> exists h', mappers cur h l = Ret h' /\ h_live h' = base.
  Proof.
    induction l as [|x l IH]; intros cur h H; cbn [mappers].
    - destruct cur as [o|]; [|destruct H; eauto]. destruct (holds_destroy base o h H) as (n & -> & _). eauto.
    - unfold replace_mapper.
      assert (D : exists h1, (match cur with Some o => svr_destroy o h | None => Ret h end) = Ret h1 /\ h_live h1 = base /\ Forall (fun p => fst p < h_next h1) base).
      { destruct cur as [o|]; [|destruct H; eauto]. destruct (holds_destroy base o h H) as (n & -> & ->). exists (MkHeap (h_next h) base). split; [reflexivity|].
        split; [reflexivity|]. exact (proj1 H). }
      destruct D as (h1 & -> & L & B). cbn [bind]. destruct x as [[|]|]; cbn [svr_init_file alloc bind fst snd]; apply IH.
      + split; [cbn [h_next]; eapply Forall_impl; [|exact B]; cbn; lia|]. cbn [so_rows so_count so_model svr_new]. split; [reflexivity|]. split; [reflexivity|]. right.
        exists (Datatypes.S (Datatypes.S (h_next h1))), (h_next h1), (Datatypes.S (h_next h1)). cbn [h_next h_live]. rewrite L. split; [reflexivity|]. split; [repeat constructor; cbn; lia|].
        split; [|reflexivity]. intros a Ha. eapply sane_away; [exact B|]. cbn in Ha. lia.
      + split; [exact B|]. cbn [so_rows so_count so_model svr_new]. auto.
      + split; assumption.
  Qed.

  (** *** when training is defined *)
  Lemma train_defined o h (x : list (list T)) (y : list T) : sane h ->
    ((exists r, svr_init_data o h x y = Ret r) <->
     exists x0 xs, x = x0 :: xs /\ y <> [] /\ (forall z, In z x -> length x0 <= length z) /\ length y <= length x) /\
    ((exists r, svr_init_data o h x y = Ret r) \/ svr_init_data o h x y = Ub).
  Proof.
    intros S. unfold svr_init_data. destruct x as [|x0 xs].
    { split; [|now right]. split; [intros (r & H); discriminate|intros (a & b & H & _); discriminate]. }
    destruct y as [|y0 ys].
    { split; [|now right]. split; [intros (r & H); discriminate|intros (a & b & _ & H & _); congruence]. }
    assert (DEC : Forall (fun z : list T => length x0 <= length z) (x0 :: xs) \/ Exists (fun z : list T => length z < length x0) (x0 :: xs)).
    { clear. induction (x0 :: xs) as [|a l IH]; [left; constructor|]. destruct (Nat.le_gt_cases (length x0) (length a)).
      - destruct IH; [left; constructor; auto|right; now right].
      - right. now left. }
    destruct DEC as [F|X].
    - destruct (convert_observations_ok (length x0) (x0 :: xs) h S F) as (ext & -> & _). cbn [bind]. rewrite seq_length.
      destruct (Nat.ltb_spec (length (x0 :: xs)) (length (y0 :: ys))) as [C|C].
      + split; [|now right]. split; [intros (r & H); discriminate|]. intros (a & b & _ & _ & _ & H). lia.
      + cbn [alloc]. split; [|left; eauto]. split; [|eauto]. intros _. exists x0, xs. split; [reflexivity|]. split; [discriminate|]. split; [|exact C].
        intros z Hz. rewrite Forall_forall in F. auto.
    - rewrite convert_observations_bad by exact X. split; [|now right]. split; [intros (r & H); discriminate|].
      intros (a & b & E & _ & H & _). injection E as <- <-. apply Exists_exists in X. destruct X as (z & Hz & L). specialize (H z Hz). lia.
  Qed.
End P.

Section Rows.
  Context {T : Type} {N : Num T}.
  Lemma convert_row_all (x : list T) k : length x = k ->
    map (fun i => (Z.of_nat i + 1, Some (nth i x n0))%Z) (seq 0 k) ++ [(-1, None)%Z] = convert_observation x.
  Proof. intros <-. reflexivity. Qed.
  Lemma find_in (l : list (nat * block T)) n a b : NoDup (map fst l) -> In (a, b) l -> find_block (MkHeap n l) a = Some b.
  Proof.
    intros ND I. apply in_split in I. destruct I as (l1 & l2 & ->). apply find_mid. rewrite map_app in ND. cbn in ND.
    apply NoDup_remove_2 in ND. apply away_in. intros X. apply ND. apply in_or_app. now left.
  Qed.
  Lemma nodup_app (l l' : list nat) : NoDup l -> NoDup l' -> (forall a, In a l -> ~ In a l') -> NoDup (l ++ l').
  Proof.
    induction 1 as [|a l H _ IH]; intros H2 H3; [exact H2|]. cbn. constructor.
    - intros I. apply in_app_or in I. destruct I as [I|I]; [exact (H I)|]. apply (H3 a); [now left|exact I].
    - apply IH; [exact H2|]. intros x Hx. apply H3. now right.
  Qed.
  Lemma train_rows o (h : heap T) (x : list (list T)) (y : list T) : sane h -> NoDup (map fst (h_live h)) -> trainable x y ->
    exists o' h' a rows m owned, svr_init_data o h x y = Ret (o', h') /\ so_rows o' = At a /\ so_count o' = length x /\ so_model o' = At m /\
      find_block h' a = Some (Rows rows) /\ length rows = length x /\ find_block h' m = Some (Model owned rows) /\
      forall i obs, nth_error x i = Some obs -> exists r, nth_error rows i = Some r /\ find_block h' r = Some (Nodes (convert_observation obs)).
  Proof.
    intros S ND (NE & RE & LY). destruct x as [|x0 xs]; [congruence|]. destruct y as [|y0 ys]; [discriminate|].
    destruct (convert_observations_ok (length x0) (x0 :: xs) h S) as (ext & E & M1 & M2).
    { apply Forall_forall. intros z Hz. rewrite (RE x0 z); [lia|now left|exact Hz]. }
    unfold svr_init_data. rewrite E. cbn [bind]. rewrite seq_length, LY, Nat.ltb_irrefl. rewrite (firstn_all' (seq _ _)) by (rewrite seq_length; lia).
    cbn [alloc]. set (k := length (x0 :: xs)) in *.
    set (L := (h_next h, Rows (seq (Datatypes.S (h_next h)) k)) :: h_live h) in *.
    match goal with |- context [Ret (?a, ?b)] => set (o1 := a); set (h1 := b) end.
    assert (A0 : forall z p, In p (h_live h) -> h_next h <= z -> fst p <> z).
    { intros z p I H. unfold sane in S. rewrite Forall_forall in S. specialize (S p I). lia. }
    assert (NI : forall z, h_next h <= z -> ~ In z (map fst (h_live h))).
    { intros z H I. apply in_map_iff in I. destruct I as (p & E1 & I). exact (A0 z p I H E1). }
    assert (ND' : NoDup (map fst (h_live h1))).
    { unfold h1. cbn [h_live map fst h_next]. rewrite map_app. unfold L. cbn [map fst]. rewrite M1.
      assert (X : NoDup (rev (seq (Datatypes.S (h_next h)) k) ++ h_next h :: map fst (h_live h))).
      { apply nodup_app; [apply NoDup_rev, seq_NoDup| |].
        - constructor; [apply NI; lia|exact ND].
        - intros z I. rewrite <- in_rev, in_seq in I. intros [C|C]; [lia|]. apply (NI z); [lia|exact C]. }
      constructor; [|constructor; [|exact X]].
      - intros [C|C]; [lia|]. apply in_app_or in C. destruct C as [C|[C|C]]; [rewrite <- in_rev, in_seq in C; lia|lia|]. apply NI in C; [exact C|lia].
      - intros C. apply in_app_or in C. destruct C as [C|[C|C]]; [rewrite <- in_rev, in_seq in C; lia|lia|]. apply NI in C; [exact C|lia]. }
    exists o1, h1, (h_next h), (seq (Datatypes.S (h_next h)) k), (Datatypes.S (Datatypes.S (h_next h) + k)), [Datatypes.S (h_next h) + k].
    destruct h1 as [n1 l1] eqn:EH. cbn [h_live] in ND'. unfold h1 in EH. injection EH as E1 E2.
    split; [reflexivity|]. split; [reflexivity|]. split; [reflexivity|]. split; [reflexivity|].
    split; [apply find_in; [exact ND'|]; rewrite <- E2; right; right; apply in_or_app; right; now left|].
    split; [apply seq_length|]. split; [apply find_in; [exact ND'|]; rewrite <- E2; now left|].
    intros i obs Hi. assert (Li : i < k) by (unfold k; apply nth_error_Some; congruence).
    exists (Datatypes.S (h_next h) + i). split; [rewrite (nth_error_nth' _ 0) by (rewrite seq_length; exact Li); now rewrite seq_nth by exact Li|].
    apply find_in; [exact ND'|]. rewrite <- E2. right. right. apply in_or_app. left.
    assert (LE : length ext = k) by (rewrite <- (map_length fst), M1, rev_length; apply seq_length).
    assert (G : nth_error (rev ext) i = Some (Datatypes.S (h_next h) + i, Nodes (convert_observation obs))).
    { assert (F1 : nth_error (map fst (rev ext)) i = Some (Datatypes.S (h_next h) + i)).
      { rewrite map_rev, M1, rev_involutive. rewrite (nth_error_nth' _ 0) by (rewrite seq_length; exact Li). now rewrite seq_nth by exact Li. }
      assert (F2 : nth_error (map snd (rev ext)) i = Some (Nodes (convert_observation obs))).
      { rewrite map_rev, M2, rev_involutive. rewrite nth_error_map, Hi. cbn [option_map]. f_equal. f_equal. apply convert_row_all.
        apply RE; [eapply nth_error_In; exact Hi|now left]. }
      rewrite nth_error_map in F1, F2. destruct (nth_error (rev ext) i) as [[u v]|]; cbn [option_map fst snd] in F1, F2; [|discriminate]. f_equal. f_equal; congruence. }
    apply nth_error_In in G. rewrite <- in_rev in G. exact G.
  Qed.
End Rows.
