(** The quality mappers (C09-C11, C59). *)
From Coq Require Import ZArith List Bool String DecimalString DecimalNat DecimalFacts Lia.
From Verif Require Import Base.Res Base.Num Base.Lists Model.Mappers.
Import ListNotations.
Open Scope nat_scope.

(** *** names *)
Lemma to_uint_nonnil n : Nat.to_uint n <> Decimal.Nil.
Proof. rewrite <- (Unsigned.of_to n), Unsigned.to_of. apply unorm_nonnil. Qed.
Lemma dec_string_inj a b : dec_string a = dec_string b -> a = b.
Proof.
  unfold dec_string. intros H. apply (f_equal NilZero.uint_of_string) in H.
  rewrite !NilZero.usu in H by apply to_uint_nonnil. apply Unsigned.to_uint_inj. congruence.
Qed.
Lemma dec_string_no_underscore n s : dec_string n <> append "10_" s.
Proof.
  unfold dec_string. intros H. apply (f_equal NilZero.uint_of_string) in H.
  rewrite NilZero.usu in H by apply to_uint_nonnil. cbn in H.
  destruct (NilEmpty.uint_of_string s); discriminate.
Qed.
Lemma NoDup_app_iff_ {A} (l1 l2 : list A) : NoDup (l1 ++ l2) <-> NoDup l1 /\ NoDup l2 /\ (forall x, In x l1 -> ~ In x l2).
Proof.
  induction l1 as [|a l IH]; cbn [List.app].
  - split; [intros H; repeat split; [constructor|exact H|intros x []]|tauto].
  - rewrite !NoDup_cons_iff, IH, in_app_iff. split.
    + intros (H1 & H2 & H3 & H4). repeat split; try tauto. intros x [<-|Hx]; [tauto|apply H4; exact Hx].
    + intros ((H1 & H2) & H3 & H4). repeat split; try tauto.
      * intros [Q|Q]; [tauto|]. apply (H4 a); [now left|exact Q].
      * intros x Hx. apply H4. now right.
Qed.
Lemma NoDup_map_inj_in {A B} (f : A -> B) l : (forall x y, In x l -> In y l -> f x = f y -> x = y) -> NoDup l -> NoDup (map f l).
Proof.
  induction l as [|a l IH]; intros H D; [constructor|]. apply NoDup_cons_iff in D. destruct D as (D1 & D2). cbn [map]. constructor.
  - intros I. apply in_map_iff in I. destruct I as (x & E & Hx). apply D1. rewrite <- (H x a); [exact Hx|now right|now left|exact E].
  - apply IH; [|exact D2]. intros x y Hx Hy. apply H; now right.
Qed.
Definition feature_name (k b : nat) : string := append (nth k base_names EmptyString) (dec_string b).
Lemma feature_name_inj k b k' b' : k < 4 -> k' < 4 -> feature_name k b = feature_name k' b' -> k = k' /\ b = b'.
Proof.
  intros Hk Hk'. unfold feature_name, base_names.
  destruct k as [|[|[|[|k]]]], k' as [|[|[|[|k']]]]; try lia; cbn [nth append]; intros H;
    try (split; [reflexivity|]; apply dec_string_inj; congruence); try congruence.
  - exfalso. apply (dec_string_no_underscore b (dec_string b')). cbn [append]. congruence.
  - exfalso. apply (dec_string_no_underscore b' (dec_string b)). cbn [append]. congruence.
Qed.
Lemma feature_name_not_tau k b : k < 4 -> feature_name k b <> "tau"%string.
Proof. intros Hk. unfold feature_name, base_names. destruct k as [|[|[|[|k]]]]; try lia; discriminate. Qed.

Section Lattice.
  Context {T : Type} {N : Num T}.
  Lemma lattice_inputs_four n (f1 f2 f3 f4 : list T) :
    lattice_inputs n [f1; f2; f3; f4] =
    flat_map (fun b => map (fun k => (feature_name k b, nth_error (nth k [f1; f2; f3; f4] []) b)) (seq 0 4)) (seq 0 n).
  Proof. unfold lattice_inputs. apply flat_map_ext. intros b. reflexivity. Qed.

  Lemma store_ok (m : lattice T) env name v : In name (lt_inputs m) ->
    store m env name v = Ret (fun s => if String.eqb s name then Some v else env s).
  Proof.
    intros H. unfold store. replace (existsb (String.eqb name) (lt_inputs m)) with true; [reflexivity|].
    symmetry. apply existsb_exists. exists name. split; [exact H|apply String.eqb_refl].
  Qed.
  Lemma store_ub (m : lattice T) env name v : ~ In name (lt_inputs m) -> store m env name v = Ub.
  Proof.
    intros H. unfold store. destruct (existsb _ _) eqn:E; [|reflexivity]. apply existsb_exists in E.
    destruct E as (x & I & Q). apply String.eqb_eq in Q. subst x. contradiction.
  Qed.
  (** storing distinct names one after the other *)
  Lemma store_all_ok (m : lattice T) f32 l : forall env, NoDup (map fst l) ->
    (forall n v, In (n, v) l -> In n (lt_inputs m) /\ exists x, v = Some x) ->
    exists env', store_all m env f32 l = Ret env' /\
      (forall n x, In (n, Some x) l -> env' n = Some (f32 x)) /\ (forall s, ~ In s (map fst l) -> env' s = env s).
  Proof.
    induction l as [|[n v] t IH]; intros env D H; [exists env; split; [reflexivity|]; split; [intros ? ? []|reflexivity]|].
    destruct (H n v (or_introl eq_refl)) as (I & x & ->). cbn [store_all]. rewrite (store_ok _ _ _ _ I). cbn [bind].
    cbn [map fst] in D. apply NoDup_cons_iff in D. destruct D as (D1 & D2).
    destruct (IH (fun s => if String.eqb s n then Some (f32 x) else env s) D2) as (env' & E & P & Q); [intros; apply H; now right|].
    exists env'. split; [exact E|]. split.
    - intros n' x' [J|J]; [|apply P; exact J]. injection J as <- <-. rewrite (Q _ D1). now rewrite String.eqb_refl.
    - intros s Hs. rewrite Q by (intros J; apply Hs; now right).
      destruct (String.eqb s n) eqn:Q'; [|reflexivity]. apply String.eqb_eq in Q'. subst s. exfalso. apply Hs. now left.
  Qed.
  Lemma in_inputs n (fs : list (list T)) name v :
    In (name, v) (flat_map (fun b => map (fun k => (feature_name k b, nth_error (nth k fs []) b)) (seq 0 4)) (seq 0 n)) <->
    exists k b, k < 4 /\ b < n /\ name = feature_name k b /\ v = nth_error (nth k fs []) b.
  Proof.
    rewrite in_flat_map. split.
    - intros (b & Hb & H). apply in_map_iff in H. destruct H as (k & H & Hk). apply in_seq in Hb, Hk.
      exists k, b. split; [lia|]. split; [lia|]. split; congruence.
    - intros (k & b & Hk & Hb & -> & ->). exists b. split; [apply in_seq; lia|]. apply in_map_iff. exists k. split; [reflexivity|apply in_seq; lia].
  Qed.
  Lemma names_nodup n (fs : list (list T)) :
    NoDup (map fst (flat_map (fun b => map (fun k => (feature_name k b, nth_error (nth k fs []) b)) (seq 0 4)) (seq 0 n))).
  Proof.
    induction n as [|n IH]; [constructor|]. rewrite (seq_S n 0), Nat.add_0_l, flat_map_app, map_app. apply NoDup_app_iff_.
    split; [exact IH|]. split.
    - cbn [flat_map]. rewrite List.app_nil_r, map_map. cbn [fst]. apply NoDup_map_inj_in.
      + intros k k' Hk Hk' E. apply in_seq in Hk, Hk'. apply feature_name_inj in E; lia.
      + apply seq_NoDup.
    - intros s H1 H2. cbn [flat_map] in H2. rewrite List.app_nil_r, map_map in H2. cbn [fst] in H2.
      apply in_map_iff in H2. destruct H2 as (k & <- & Hk). apply in_seq in Hk.
      apply in_map_iff in H1. destruct H1 as ([s v] & Q & H1). cbn [fst] in Q. subst s. apply in_inputs in H1.
      destruct H1 as (k' & b & Hk' & Hb & E & _). apply feature_name_inj in E; lia.
  Qed.

  Lemma store_all_ub (m : lattice T) f32 l : forall env, (forall n v, In (n, v) l -> exists x, v = Some x) ->
    (exists n, In n (map fst l) /\ ~ In n (lt_inputs m)) -> store_all m env f32 l = Ub.
  Proof.
    induction l as [|[n v] t IH]; intros env H (n' & I & NI); [destruct I|].
    destruct (H n v (or_introl eq_refl)) as (x & ->). cbn [store_all].
    destruct (in_dec string_dec n (lt_inputs m)) as [J|J]; [|now rewrite (store_ub _ _ _ _ J)].
    rewrite (store_ok _ _ _ _ J). cbn [bind]. apply IH; [intros; apply (H n0 v); now right|].
    exists n'. split; [|exact NI]. destruct I as [I|I]; [|exact I]. cbn [fst] in I. subst n'. contradiction.
  Qed.
  Definition all_names (n : nat) : list string := "tau"%string :: flat_map (fun b => map (fun k => feature_name k b) (seq 0 4)) (seq 0 n).
  Lemma in_all_names n s : In s (all_names n) <-> s = "tau"%string \/ exists k b, k < 4 /\ b < n /\ s = feature_name k b.
  Proof.
    unfold all_names. cbn [In]. rewrite in_flat_map. split.
    - intros [H|(b & Hb & H)]; [left; congruence|right]. apply in_map_iff in H. destruct H as (k & E & Hk). apply in_seq in Hb, Hk.
      exists k, b. repeat split; try lia; congruence.
    - intros [->|(k & b & Hk & Hb & ->)]; [now left|right]. exists b. split; [apply in_seq; lia|].
      apply in_map_iff. exists k. split; [reflexivity|apply in_seq; lia].
  Qed.
  Lemma map_fst_inputs n (fs : list (list T)) :
    map fst (flat_map (fun b => map (fun k => (feature_name k b, nth_error (nth k fs []) b)) (seq 0 4)) (seq 0 n)) =
    flat_map (fun b => map (fun k => feature_name k b) (seq 0 4)) (seq 0 n).
  Proof. induction (seq 0 n) as [|b t IH]; [reflexivity|]. cbn [flat_map]. rewrite map_app, IH, map_map. reflexivity. Qed.

  Lemma lattice_slots (m : lattice T) f32 n (f1 f2 f3 f4 : list T) :
    List.length f1 = n -> List.length f2 = n -> List.length f3 = n -> List.length f4 = n ->
    (forall s, In s (all_names n) -> In s (lt_inputs m)) ->
    exists env, lattice_predict m f32 n f1 f2 f3 f4 = Ret (lt_run m env) /\
      env "tau"%string = Some (ndec 5 1) /\
      (forall k b, k < 4 -> b < n -> env (feature_name k b) = Some (f32 (nth b (nth k [f1; f2; f3; f4] []) n0))) /\
      (forall s, ~ In s (all_names n) -> env s = None).
  Proof.
    intros L1 L2 L3 L4 H. unfold lattice_predict. rewrite lattice_inputs_four.
    assert (LK : forall k, k < 4 -> List.length (nth k [f1; f2; f3; f4] []) = n).
    { intros k Hk. destruct k as [|[|[|[|k]]]]; try lia; assumption. }
    set (fs := [f1; f2; f3; f4]) in *.
    destruct (store_all_ok m f32 _ (fun _ => None) (names_nodup n fs)) as (env & E & P & Q).
    { intros s v I. apply in_inputs in I. destruct I as (k & b & Hk & Hb & -> & ->). split.
      - apply H, in_all_names. right. exists k, b. tauto.
      - exists (nth b (nth k fs []) n0). apply nth_error_nth'. rewrite LK by exact Hk. exact Hb. }
    rewrite E. cbn [bind]. rewrite store_ok by (apply H, in_all_names; now left). cbn [bind].
    eexists. split; [reflexivity|]. split; [reflexivity|]. split.
    - intros k b Hk Hb. rewrite (proj2 (String.eqb_neq _ _)) by (apply feature_name_not_tau; exact Hk).
      apply P, in_inputs. exists k, b. repeat split; try assumption. symmetry. apply nth_error_nth'. rewrite LK by exact Hk. exact Hb.
    - intros s Hs. rewrite (proj2 (String.eqb_neq _ _)) by (intros ->; apply Hs, in_all_names; now left).
      rewrite Q; [reflexivity|]. rewrite map_fst_inputs. intros I. apply Hs. right. exact I.
  Qed.
  Lemma lattice_missing (m : lattice T) f32 n (f1 f2 f3 f4 : list T) :
    List.length f1 = n -> List.length f2 = n -> List.length f3 = n -> List.length f4 = n ->
    (exists s, In s (all_names n) /\ ~ In s (lt_inputs m)) -> lattice_predict m f32 n f1 f2 f3 f4 = Ub.
  Proof.
    intros L1 L2 L3 L4 (s & I & NI). unfold lattice_predict. rewrite lattice_inputs_four.
    assert (LK : forall k, k < 4 -> List.length (nth k [f1; f2; f3; f4] []) = n).
    { intros k Hk. destruct k as [|[|[|[|k]]]]; try lia; assumption. }
    set (fs := [f1; f2; f3; f4]) in *.
    assert (V : forall s v, In (s, v) (flat_map (fun b => map (fun k => (feature_name k b, nth_error (nth k fs []) b)) (seq 0 4)) (seq 0 n)) ->
                exists x, v = Some x).
    { intros s' v J. apply in_inputs in J. destruct J as (k & b & Hk & Hb & -> & ->).
      exists (nth b (nth k fs []) n0). apply nth_error_nth'. rewrite LK by exact Hk. exact Hb. }
    destruct (in_dec string_dec s (map fst (flat_map (fun b => map (fun k => (feature_name k b, nth_error (nth k fs []) b)) (seq 0 4)) (seq 0 n)))) as [J|J].
    - rewrite store_all_ub; [reflexivity|exact V|]. exists s. tauto.
    - destruct (store_all m _ f32 _) as [env| | |] eqn:E; cbn [bind]; try reflexivity.
      + rewrite store_ub; [reflexivity|]. rewrite map_fst_inputs in J. destruct I as [<-|I]; [exact NI|]. contradiction.
      + exfalso. revert E. generalize (fun _ : string => @None T). induction (flat_map _ _) as [|[a [x|]] t IH]; intros env; cbn [store_all]; try discriminate.
        unfold store. destruct (existsb _ _); [|discriminate]. cbn [bind]. apply IH; [intros; apply (V s0 v); now right|intros Q; apply J; now right].
      + exfalso. revert E. generalize (fun _ : string => @None T). induction (flat_map _ _) as [|[a [x|]] t IH]; intros env; cbn [store_all]; try discriminate.
        unfold store. destruct (existsb _ _); [|discriminate]. cbn [bind]. apply IH; [intros; apply (V s0 v); now right|intros Q; apply J; now right].
  Qed.

  Lemma convert_slots (l : list T) :
    List.length (convert_observation l) = List.length l + 1 /\
    (forall i, i < List.length l -> nth_error (convert_observation l) i = Some ((Z.of_nat i + 1)%Z, Some (nth i l n0))) /\
    nth_error (convert_observation l) (List.length l) = Some ((-1)%Z, None).
  Proof.
    unfold convert_observation. assert (E : List.length (map (fun i => ((Z.of_nat i + 1)%Z, Some (nth i l n0))) (seq 0 (List.length l))) = List.length l)
      by now rewrite map_length, seq_length.
    split; [rewrite app_length, E; reflexivity|]. split.
    - intros i Hi. rewrite nth_error_app1 by (rewrite E; exact Hi). rewrite nth_error_map, (nth_error_nth' _ 0) by (rewrite seq_length; exact Hi).
      cbn [option_map]. now rewrite seq_nth by exact Hi.
    - rewrite nth_error_app2 by (rewrite E; lia). rewrite E, Nat.sub_diag. reflexivity.
  Qed.
End Lattice.
