(** Lemmas and instances for C75-C79. *)
From Coq Require Import ZArith List Bool String Ascii Lia Arith.
From Verif Require Import Base.Res Base.Num Model.Cli Model.Mappers Model.SvrModel Model.Training Model.Tflite Spec.CliSpec Spec.SvrSpec
  Proofs.CliP Proofs.SvrModelP Proofs.TrainingP.
Import ListNotations.
Open Scope nat_scope.

(** natural numbers as an instance, for the examples *)
Definition nat_num : Num nat :=
  {| nadd := Nat.add; nsub := Nat.sub; nmul := Nat.mul; ndiv := Nat.div; nopp := fun x => x; nabs := fun x => x; nsqrt := Nat.sqrt;
     nltb := Nat.ltb; nleb := Nat.leb; neqb := Nat.eqb; nofZ := Z.to_nat; ntrunc := fun x => Some (Z.of_nat x);
     nceil := fun x => Some (Z.of_nat x); nround := fun x => Some (Z.of_nat x); nlowest := 0 |}.

Lemma uses_ok : sane (MkHeap 1 [(0, Arrays)] : heap nat) /\ can_train [[1; 2]; [3; 4; 5]] [5] /\ Forall is_ask [Ask [1; 2]; Ask [7]].
Proof.
  repeat split.
  - repeat constructor.
  - discriminate.
  - intros z [<-|[<-|[]]]; cbn; lia.
  - cbn; lia.
  - repeat constructor; eexists; reflexivity.
Qed.

Section S.
  Context {T : Type} {N : Num T}.
  Lemma manager_frees (h : heap T) (l : list (option bool)) : sane h -> exists h', mappers None h l = Ret h' /\ h_live h' = h_live h.
  Proof. intros HS. apply mappers_ok. split; [exact HS|reflexivity]. Qed.
  Lemma life_nothing (answer : svr_model T) (h : heap T) : life answer h [] = Ub.
  Proof. reflexivity. Qed.
  Lemma life_ask_unloaded (answer : svr_model T) (h : heap T) x : life answer h [FromFile false; Ask x] = Ub.
  Proof. reflexivity. Qed.
  Lemma copy_destroyed (h : heap T) : sane h ->
    let '(o, h1, _) := svr_init_file svr_new h true in (exists h2, svr_destroy o h1 = Ret h2 /\ svr_destroy o h2 = Ub).
  Proof.
    intros HS. destruct h as [n l]. unfold sane in HS. cbn [h_next h_live] in HS.
    unfold svr_init_file. cbn [alloc h_next h_live svr_new so_rows so_count].
    assert (A : forall a, n <= a -> away a l).
    { intros a Ha. now apply (sane_away n a l). }
    exists (MkHeap (Datatypes.S (Datatypes.S (Datatypes.S n))) l). split.
    - change ((S (S n), Model [n; S n] []) :: (S n, Arrays) :: (n, Nodes []) :: l)
        with ((S (S n), Model [n; S n] []) :: [(S n, Arrays); (n, Nodes [])] ++ l).
      rewrite (destroy_model _ (S (S n)) [n; S n] []); try reflexivity.
      + repeat constructor; cbn; lia.
      + intros a [<-|[<-|[<-|[]]]]; apply A; lia.
    - unfold svr_destroy. cbn [so_model]. unfold free_content.
      assert (F : find_block (MkHeap (S (S (S n))) l) (S (S n)) = None).
      { unfold find_block. cbn [h_live]. destruct (find _ l) as [p|] eqn:E; [|reflexivity]. apply find_some in E. destruct E as [I E].
        apply Nat.eqb_eq in E. assert (B := A (S (S n)) ltac:(lia)). unfold away in B. rewrite Forall_forall in B. now destruct (B p I). }
      rewrite F. reflexivity.
  Qed.
  Lemma life_twice (answer : svr_model T) (h : heap T) b : sane h ->
    exists h', life answer h [FromFile true; FromFile b] = Ret h' /\ List.length (h_live h') = List.length (h_live h) + 3.
  Proof.
    intros HS. destruct h as [n l]. unfold sane in HS. cbn [h_next h_live] in HS.
    unfold life. cbn [steps step]. unfold svr_init_file. cbn [alloc h_next h_live svr_new so_rows so_count bind fst snd].
    destruct b.
    - cbn [bind fst snd].
      set (h0 := MkHeap (Datatypes.S (Datatypes.S (Datatypes.S n))) ((S (S n), Model [n; S n] []) :: (S n, Arrays) :: (n, Nodes []) :: l)).
      destruct (copy_destroyed h0) as [h2 H2].
      { unfold sane, h0. cbn [h_next h_live]. repeat constructor; cbn; try lia. eapply Forall_impl; [|exact HS]. cbn. lia. }
      cbn [alloc h_next h_live svr_new so_rows so_count h0] in H2.
      exists (MkHeap (6 + n) (h_live h0)). split; [|cbn; lia].
      clear H2 h2. unfold h0. cbn [h_live].
      set (l0 := (S (S n), Model [n; S n] []) :: (S n, Arrays) :: (n, Nodes []) :: l).
      change (svr_destroy (MkSvr (At (S (S (S (S (S n)))))) Null 0)
        (MkHeap (6 + n) ((S (S (S (S (S n)))), Model [S (S (S n)); S (S (S (S n)))] []) :: [(S (S (S (S n))), Arrays); (S (S (S n)), Nodes [])] ++ l0)) = Ret (MkHeap (6 + n) l0)).
      assert (A : forall a, S (S (S n)) <= a -> away a l0).
      { intros a Ha. apply (sane_away (S (S (S n))) a l0); [|exact Ha]. unfold l0. repeat constructor; cbn; try lia. eapply Forall_impl; [|exact HS]. cbn. lia. }
      rewrite (destroy_model _ (S (S (S (S (S n))))) [S (S (S n)); S (S (S (S n)))] []); try reflexivity.
      + repeat constructor; cbn; lia.
      + intros a [<-|[<-|[<-|[]]]]; apply A; lia.
    - eexists. split; [reflexivity|]. cbn. lia.
  Qed.
End S.

(** *** training files *)
Definition digit_atod (s : string) : option bool :=
  if String.eqb s "1" then Some true else if String.eqb s "0" then Some false else None.
Definition digit_show (b : bool) : string := if b then "1" else "0".
Lemma digits_read v : digit_atod (digit_show v) = Some v. Proof. now destruct v. Qed.
Lemma digits_free v : free_of "," (digit_show v) /\ free_of "010" (digit_show v) /\ digit_show v <> ""%string.
Proof. destruct v; repeat split; try discriminate; unfold free_of; cbn; intros [H|[]]; discriminate. Qed.

Section F.
  Context {T : Type}.
  Lemma item_dropped (atod : string -> option T) sep a bad b va vb : free_of sep a -> free_of sep bad -> free_of sep b -> b <> ""%string ->
    atod a = Some va -> atod bad = None -> atod b = Some vb -> read_line atod sep (row_text sep [a; bad; b]) = [va; vb].
  Proof.
    intros Fa Fd Fb NE Ha Hd Hb. unfold read_line. rewrite !row_text_cons, !getlines_app by assumption.
    change (row_text sep [b]) with b. rewrite getlines_one by assumption. cbn [flat_map]. now rewrite Ha, Hd, Hb.
  Qed.
  Lemma blank_line (atod : string -> option T) (show : T -> string) sep (rows : list (list T)) : sep <> "010"%char ->
    (forall v, atod (show v) = Some v) -> (forall v, free_of sep (show v) /\ free_of "010" (show v) /\ show v <> ""%string) ->
    let m := read_training atod (Some (file_text sep (map (map show) rows) ++ String "010" "")%string) sep in
    m = app rows [[]] /\ first_column m = Ub.
  Proof. intros A B C. cbv zeta. pose proof (read_blank atod show sep rows A B C) as E. change newline with "010"%char in E. rewrite E. split; [reflexivity|apply first_column_last]. Qed.
End F.

(** *** the lattice model *)
Lemma tfl_status (a : tfl_answers) : let '(o, e) := tfl_init a in
  (e = None <-> ta_model a = true /\ ta_threads a = true /\ ta_interpreter a = true /\ ta_tensors a = true /\ ta_delegate a <> DOther) /\
  (e = None -> to_model o = true /\ to_interpreter o = true).
Proof. destruct a as [[] [] [] [] []]; cbn; intuition congruence. Qed.
Lemma tfl_model_last (a : tfl_answers) : let l := tfl_destroy (fst (tfl_init a)) in
  NoDup l /\ (In PInterpreter l -> exists l1 l2, l = (l1 ++ PInterpreter :: l2)%list /\ In PModel l2).
Proof.
  destruct a as [[] [] [] [] []]; cbn; (split; [repeat constructor; cbn; intuition congruence|]); intros H;
    first [now exists [PDelegate], [PModel]; split; [reflexivity|left] | now exists [], [PModel]; split; [reflexivity|left] | exfalso; intuition congruence].
Qed.
Lemma tfl_delegate_first (a : tfl_answers) : to_delegated (fst (tfl_init a)) = true -> tfl_destroy (fst (tfl_init a)) = [PDelegate; PInterpreter; PModel].
Proof. destruct a as [[] [] [] [] []]; cbn; congruence. Qed.
