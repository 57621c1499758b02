(** Degraded patches, offsets, numbers of patches. *)
From Coq Require Import ZArith List Bool Lia ZifyBool ZifyNat.
From Verif Require Import Base.Res Base.Num Base.Lists Base.Mat Model.Amatrix Model.MiscMath Model.Window
  Model.FilterBank Model.Spectrogram Model.Nsim Model.Fft Model.Alignment Model.Selector Spec.MatchSpec.
Import ListNotations.
Open Scope Z_scope.
Ltac Zify.zify_post_hook ::= Z.div_mod_to_equations.

Lemma size_of_id z : 0 <= z < 2 ^ 64 -> size_of z = z.
Proof. intros H. unfold size_of, two64. apply Z.mod_small. exact H. Qed.
Lemma int_of_id z : - 2 ^ 31 <= z < 2 ^ 31 -> int_of z = z.
Proof. intros H. unfold int_of. cbv zeta. destruct (_ <? _) eqn:E; lia. Qed.

(** *** the offsets visited *)
Definition offsets (lo hi : Z) : list nat := seq (Z.to_nat lo) (Z.to_nat (hi - lo + 1)).

Lemma offsets_nil lo hi : hi < lo -> offsets lo hi = [].
Proof. intros H. unfold offsets. replace (Z.to_nat (hi - lo + 1)) with 0%nat by lia. reflexivity. Qed.

Lemma slide_loop_up fuel : forall s hi nc, 0 <= s -> Z.min hi (nc - 1) - s + 2 <= Z.of_nat fuel ->
  (0 < fuel)%nat ->
  slide_loop fuel s hi nc = Some (offsets s (Z.min hi (nc - 1))).
Proof.
  induction fuel as [|f IH]; intros s hi nc Hs Hf Hp; [lia|]. cbn [slide_loop].
  destruct (s <=? hi) eqn:E1.
  - destruct (s <? 0) eqn:E2; [lia|]. destruct (nc <=? s) eqn:E3.
    + rewrite offsets_nil by lia. reflexivity.
    + rewrite IH by lia. cbn [option_map]. f_equal. unfold offsets.
      replace (Z.to_nat (Z.min hi (nc - 1) - s + 1)) with (S (Z.to_nat (Z.min hi (nc - 1) - (s + 1) + 1))) by lia.
      cbn [seq]. f_equal. f_equal. lia.
  - rewrite offsets_nil by lia. reflexivity.
Qed.
Lemma slide_loop_closed fuel s hi nc : 0 <= nc -> nc + 3 <= Z.of_nat fuel -> s <= hi -> 0 <= hi ->
  slide_loop fuel s hi nc = Some (offsets (Z.max 0 s) (Z.min hi (nc - 1))).
Proof.
  intros Hn Hf Hs Hh. destruct fuel as [|f]; [lia|]. destruct (s <? 0) eqn:E.
  - cbn [slide_loop]. rewrite E. destruct (s <=? hi) eqn:E1; [|lia].
    rewrite slide_loop_up by lia. f_equal. f_equal. lia.
  - rewrite slide_loop_up by lia. f_equal. f_equal. lia.
Qed.

Section P.
  Context {T : Type} {N : Num T}.

  (** *** degraded patches *)
  Lemma degraded_row_spec (S : mat T) r o p : (r < nrows S)%nat -> (1 <= ncols S)%nat ->
    Z.of_nat (ncols S) < 2 ^ 31 -> 1 <= Z.of_nat p < 2 ^ 31 -> - Z.of_nat p < o < Z.of_nat (ncols S) ->
    degraded_row S r o (size_of (o + Z.of_nat p - 1)) =
    Ret (map (fun c => let f := o + Z.of_nat c in
               if (0 <=? f) && (f <? Z.of_nat (ncols S)) then at_ S r (Z.to_nat f) else n0) (seq 0 p)).
  Proof.
    intros Hr Hn Hn' Hp Ho. unfold degraded_row.
    rewrite (size_of_id (o + Z.of_nat p - 1)) by lia. rewrite (size_of_id (Z.of_nat (ncols S) - 1)) by lia.
    rewrite int_of_id by lia. rewrite size_of_id by lia.
    unfold m_row_subset.
    set (g := Z.min (o + Z.of_nat p - 1) (Z.of_nat (ncols S) - 1)).
    destruct ((0 <=? Z.of_nat r) && (Z.of_nat r <? Z.of_nat (nrows S)) && (0 <=? Z.max 0 o) &&
              (Z.max 0 o <=? g) && (g <? Z.of_nat (ncols S))) eqn:E; [|lia].
    cbn [bind]. f_equal. rewrite Nat2Z.id.
    apply (list_ext _ _ n0).
    - destruct (o <? 0) eqn:E1; destruct (Z.of_nat (ncols S) - 1 <? o + Z.of_nat p - 1) eqn:E2;
        rewrite ?app_length, ?repeat_length, ?map_length, ?seq_length, ?app_length, ?repeat_length,
          ?map_length, ?seq_length; lia.
    - intros i Hi.
      assert (Hip : (i < p)%nat).
      { revert Hi. destruct (o <? 0) eqn:E1; destruct (Z.of_nat (ncols S) - 1 <? o + Z.of_nat p - 1) eqn:E2;
        rewrite ?app_length, ?repeat_length, ?map_length, ?seq_length, ?app_length, ?repeat_length,
          ?map_length, ?seq_length; lia. }
      clear Hi. rewrite (nth_map_seq _ p i) by exact Hip. cbv zeta.
      assert (core : forall j, (j < Z.to_nat (g - Z.max 0 o + 1))%nat ->
        nth j (map (fun k => at_ S r (Z.to_nat (Z.max 0 o) + k)) (seq 0 (Z.to_nat (g - Z.max 0 o + 1)))) n0
        = at_ S r (Z.to_nat (Z.max 0 o) + j)).
      { intros j Hj. now rewrite nth_map_seq. }
      set (m := map _ _) in *.
      assert (Lm : length m = Z.to_nat (g - Z.max 0 o + 1)) by (unfold m; now rewrite map_length, seq_length).
      assert (front : forall tl, nth i ((if o <? 0 then repeat n0 (Z.to_nat (0 - o)) ++ m else m) ++ tl) n0 =
        if o + Z.of_nat i <? 0 then n0
        else if o + Z.of_nat i <=? g then at_ S r (Z.to_nat (o + Z.of_nat i))
        else nth (i - Z.to_nat (g - o + 1)) tl n0).
      { intros tl. destruct (o <? 0) eqn:E1.
        - rewrite <- app_assoc. destruct (o + Z.of_nat i <? 0) eqn:E3.
          + rewrite app_nth1 by (rewrite repeat_length; lia). now rewrite nth_repeat.
          + rewrite app_nth2 by (rewrite repeat_length; lia). rewrite repeat_length.
            destruct (o + Z.of_nat i <=? g) eqn:E4.
            * rewrite app_nth1 by lia. rewrite core by lia. f_equal. lia.
            * rewrite app_nth2 by lia. f_equal. lia.
        - destruct (o + Z.of_nat i <? 0) eqn:E3; [lia|]. destruct (o + Z.of_nat i <=? g) eqn:E4.
          + rewrite app_nth1 by lia. rewrite core by lia. f_equal. lia.
          + rewrite app_nth2 by lia. f_equal. lia. }
      destruct (Z.of_nat (ncols S) - 1 <? o + Z.of_nat p - 1) eqn:E2.
      + rewrite front. rewrite nth_repeat.
        destruct (o + Z.of_nat i <? 0) eqn:E3; destruct (o + Z.of_nat i <=? g) eqn:E4;
          destruct ((0 <=? o + Z.of_nat i) && (o + Z.of_nat i <? Z.of_nat (ncols S))) eqn:E5; try lia; reflexivity.
      + specialize (front []). rewrite app_nil_r in front. rewrite front.
        destruct (o + Z.of_nat i <? 0) eqn:E3; destruct (o + Z.of_nat i <=? g) eqn:E4;
          destruct ((0 <=? o + Z.of_nat i) && (o + Z.of_nat i <? Z.of_nat (ncols S))) eqn:E5; try lia; reflexivity.
  Qed.

  Lemma degraded_rows_spec (S : mat T) wb we p (f : nat -> nat -> T) :
    (forall r, (r < nrows S)%nat -> degraded_row S r wb we = Ret (map (f r) (seq 0 p))) ->
    forall n a P, nrows P = nrows S -> ncols P = p -> wf P -> (a + n = nrows S)%nat ->
    exists Q, degraded_rows S P wb we (seq a n) = Ret Q /\ nrows Q = nrows S /\ ncols Q = p /\ wf Q /\
      forall r c, (r < nrows S)%nat -> (c < p)%nat ->
        at_ Q r c = if Nat.leb a r then f r c else at_ P r c.
  Proof.
    intros Hrow. induction n as [|n IH]; intros a P HP HP' HW Ha; cbn [seq degraded_rows].
    - exists P. repeat split; auto. intros r c Hr Hc. destruct (Nat.leb a r) eqn:E; [lia|reflexivity].
    - rewrite Hrow by lia. cbn [bind]. unfold m_set_row.
      rewrite map_length, seq_length, HP, HP', Nat.eqb_refl.
      destruct ((0 <=? Z.of_nat a) && (Z.of_nat a <? Z.of_nat (nrows S)) && true) eqn:E; [|lia].
      cbn [bind].
      edestruct (IH (Datatypes.S a)) as (Q & HQ & Q1 & Q2 & Q3 & Q4); [| | | |exists Q; repeat split; eauto].
      + reflexivity.
      + reflexivity.
      + apply tab_wf.
      + lia.
      + intros r c Hr Hc. rewrite Q4 by assumption. unfold at_ at 1. rewrite mget_tab by lia.
        rewrite Nat2Z.id. destruct (Nat.eqb r a) eqn:E3.
        * apply Nat.eqb_eq in E3. subst r. rewrite nth_map_seq by lia.
          destruct (Nat.leb (Datatypes.S a) a) eqn:E4; [lia|]. now rewrite Nat.leb_refl.
        * destruct (Nat.leb (Datatypes.S a) r) eqn:E4; destruct (Nat.leb a r) eqn:E5; try lia; reflexivity.
  Qed.

  Lemma degraded_at_spec (S ref : mat T) o :
    nrows ref = nrows S -> (1 <= ncols S)%nat -> Z.of_nat (ncols S) < 2 ^ 31 ->
    1 <= Z.of_nat (ncols ref) < 2 ^ 31 -> - Z.of_nat (ncols ref) < o < Z.of_nat (ncols S) ->
    degraded_at S ref o = Ret (frames_at n0 S o (ncols ref)).
  Proof.
    intros Hr Hn Hn' Hp Ho. unfold degraded_at, build_degraded_patch. rewrite Hr.
    set (f := fun r c => let f := o + Z.of_nat c in
               if (0 <=? f) && (f <? Z.of_nat (ncols S)) then at_ S r (Z.to_nat f) else n0).
    edestruct (degraded_rows_spec S o (size_of (o + Z.of_nat (ncols ref) - 1)) (ncols ref) f)
      with (n := nrows S) (a := 0%nat) (P := m_new (T:=T) (nrows S) (ncols ref)) as (Q & HQ & Q1 & Q2 & Q3 & Q4).
    - intros r Hr'. rewrite degraded_row_spec by lia. reflexivity.
    - reflexivity.
    - reflexivity.
    - apply tab_wf.
    - lia.
    - rewrite HQ. f_equal. apply (mat_ext n0); auto; try apply tab_wf.
      intros r c Hr' Hc'. rewrite Q1 in Hr'. rewrite Q2 in Hc'. specialize (Q4 r c Hr' Hc').
      unfold at_ in Q4. rewrite Q4. cbn [Nat.leb]. unfold frames_at. rewrite mget_tab by assumption.
      reflexivity.
  Qed.
End P.
