(** The matching tables and the backtracking, for every number type. *)
From Coq Require Import ZArith List Bool Lia ZifyBool ZifyNat.
From Verif Require Import Base.Res Base.Num Base.Lists Base.Mat Model.Amatrix Model.MiscMath Model.Window
  Model.FilterBank Model.Spectrogram Model.Nsim Model.Fft Model.Alignment Model.Selector Spec.MatchSpec
  Proofs.SelectorP.
Import ListNotations.
Open Scope nat_scope.
Ltac Zify.zify_post_hook ::= Z.div_mod_to_equations.

Lemma map_nth_seq {A} (l : list A) d : map (fun i => nth i l d) (seq 0 (length l)) = l.
Proof.
  apply (list_ext _ _ d); [now rewrite map_length, seq_length|].
  intros i Hi. rewrite map_length, seq_length in Hi. now rewrite nth_map_seq.
Qed.
Lemma combine_map_seq {A B} (f : nat -> A) (g : nat -> B) l :
  combine (map f l) (map g l) = map (fun i => (f i, g i)) l.
Proof. induction l as [|x l IH]; [reflexivity|]. cbn. now rewrite IH. Qed.
Lemma firstn_as_map {A} (l : list A) n d : n <= length l -> firstn n l = map (fun i => nth i l d) (seq 0 n).
Proof.
  intros H. apply (list_ext _ _ d).
  - rewrite firstn_length, map_length, seq_length. lia.
  - intros i Hi. rewrite firstn_length in Hi. rewrite nth_map_seq, nth_firstn by lia. reflexivity.
Qed.
Lemma last_map_seq {A} (f : nat -> A) n d : last (map f (seq 0 (S n))) d = f n.
Proof. rewrite seq_S, map_app. cbn [map Nat.add]. apply last_last. Qed.

Section M.
  Context {T : Type} {N : Num T}.

  (** *** number of patches (C28) *)
  (** comparisons of frame counts are exact *)
  Definition counts_exact : Prop := forall i h n : Z, (0 <= i < 2 ^ 52 -> 0 <= h < 2 ^ 52 -> 0 <= n < 2 ^ 52 ->
    ngtb (nsub (nofZ i) (nofZ h)) (nofZ n : T) = (n <? i - h))%Z.

  Lemma max_num_patches_loop_spec (CE : counts_exact) p nf : (0 <= p < 2 ^ 52)%Z -> (0 <= nf < 2 ^ 52)%Z ->
    forall idx, Forall (fun i => 0 <= i < 2 ^ 52)%Z idx -> Exists (fun i => i <= nf + p / 2)%Z idx ->
    exists n, max_num_patches_loop (T:=T) (rev idx) nf p = Ret n /\ 1 <= n <= length idx /\
      (nth (n - 1) idx 0 <= nf + p / 2)%Z /\
      forall j, n <= j < length idx -> (nf + p / 2 < nth j idx 0)%Z.
  Proof.
    intros Hp Hn idx. induction idx as [|i idx IH] using rev_ind; intros HF HE.
    - inversion HE.
    - rewrite rev_app_distr. cbn [rev app max_num_patches_loop].
      apply Forall_app in HF. destruct HF as [HF Hi]. inversion Hi as [|? ? Hi' _]; subst.
      rewrite CE by lia. destruct (nf <? i - p / 2)%Z eqn:E.
      + apply Exists_app in HE. destruct HE as [HE|HE].
        2:{ inversion HE as [? ? H|? ? H]; subst; [lia|inversion H]. }
        destruct (IH HF HE) as (n & H1 & H2 & H3 & H4). exists n. split; [exact H1|].
        rewrite app_length; cbn [length]. split; [lia|]. split; [rewrite app_nth1 by lia; exact H3|].
        intros j Hj. destruct (Nat.eq_dec j (length idx)) as [->|].
        * rewrite nth_middle. lia.
        * rewrite app_nth1 by lia. apply H4. lia.
      + exists (length (idx ++ [i])). cbn [length]. rewrite rev_length, app_length. cbn [length].
        split; [f_equal; lia|]. split; [lia|]. split; [|intros j Hj; lia].
        replace (length idx + 1 - 1) with (length idx) by lia. rewrite nth_middle. lia.
  Qed.
  Lemma calc_max_num_patches_spec (CE : counts_exact) p nf idx : (0 <= p < 2 ^ 52)%Z -> (0 <= nf < 2 ^ 52)%Z ->
    Forall (fun i => 0 <= i < 2 ^ 52)%Z idx -> Exists (fun i => i <= nf + p / 2)%Z idx ->
    exists n, calc_max_num_patches (T:=T) idx nf p = Ret n /\ 1 <= n <= length idx /\
      (nth (n - 1) idx 0 <= nf + p / 2)%Z /\
      forall j, n <= j < length idx -> (nf + p / 2 < nth j idx 0)%Z.
  Proof.
    intros Hp Hn HF HE. unfold calc_max_num_patches. destruct idx as [|i t]; [inversion HE|].
    now apply max_num_patches_loop_spec.
  Qed.

  (** *** the tables *)
  Variable measure : mat T -> mat T -> res (psr T).

  Lemma dp_row_inv ref degs prev : forall slides row bt row' bt',
    dp_row measure ref degs prev slides row bt = Ret (row', bt') ->
    (forall s, In s slides -> s < length row) -> length bt = length row ->
    length row' = length row /\ length bt' = length row /\
    (forall s, In s slides -> exists deg r, nth_error degs s = Some deg /\ measure ref deg = Ret r /\
       (nth s row' n0, nth s bt' 0%Z) = dp_cell prev s (ps_sim r)) /\
    (forall s, ~ In s slides -> nth s row' n0 = nth s row n0 /\ nth s bt' 0%Z = nth s bt 0%Z).
  Proof.
    induction slides as [|s t IH]; intros row bt row' bt' H Hs Hl; cbn [dp_row] in H.
    - injection H as <- <-. repeat split; auto. intros s [].
    - destruct (nth_error degs s) as [deg|] eqn:Ed; [|discriminate].
      destruct (measure ref deg) as [r| | |] eqn:Em; try discriminate. cbn [bind] in H.
      destruct (dp_cell prev s (ps_sim r)) as [v past] eqn:Ec.
      apply IH in H; [|intros x Hx; rewrite upd_length; apply Hs; now right|now rewrite !upd_length].
      rewrite !upd_length in H. destruct H as (L1 & L2 & H1 & H2). split; [exact L1|]. split; [exact L2|]. split.
      + intros x Hx. destruct (in_dec Nat.eq_dec x t) as [Hi|Hi]; [now apply H1|].
        destruct Hx as [<-|]; [|contradiction]. destruct (H2 s Hi) as [E1 E2].
        exists deg, r. split; [exact Ed|]. split; [exact Em|]. rewrite E1, E2, Ec.
        rewrite !nth_upd_same; [reflexivity| |]; rewrite ?Hl; apply Hs; now left.
      + intros x Hx. assert (Hxt : ~ In x t) by (intros C; apply Hx; now right).
        assert (Hxs : s <> x) by (intros ->; apply Hx; now left).
        destruct (H2 x Hxt) as [-> ->]. split; now apply nth_upd_other.
  Qed.
  Lemma dp_row_total ref degs prev : forall slides row bt,
    (forall s, In s slides -> exists deg r, nth_error degs s = Some deg /\ measure ref deg = Ret r) ->
    exists row' bt', dp_row measure ref degs prev slides row bt = Ret (row', bt').
  Proof.
    induction slides as [|s t IH]; intros row bt H; cbn [dp_row]; [now eauto|].
    destruct (H s (or_introl eq_refl)) as (deg & r & -> & ->). cbn [bind].
    destruct (dp_cell prev s (ps_sim r)) as [v past]. apply IH. intros x Hx. apply H. now right.
  Qed.

  Lemma back_search_range prev lower slide :
    let '(_, p) := back_search (T:=T) prev lower slide in
    (p = -1 \/ Z.of_nat lower <= p < Z.of_nat slide)%Z.
  Proof.
    unfold back_search.
    assert (H : forall l acc, (forall b, In b l -> lower <= b < slide) ->
      (snd acc = -1 \/ Z.of_nat lower <= snd acc < Z.of_nat slide)%Z ->
      (snd (fold_left (back_step prev) l acc) = -1 \/
       Z.of_nat lower <= snd (fold_left (back_step prev) l acc) < Z.of_nat slide)%Z).
    { induction l as [|b l IH]; intros acc Hl Ha; cbn [fold_left]; [exact Ha|].
      apply IH; [intros x Hx; apply Hl; now right|]. unfold back_step.
      destruct (nltb (fst acc) (nth b prev n0)); [|exact Ha]. cbn [snd].
      pose proof (Hl b (or_introl eq_refl)). lia. }
    specialize (H (rev (seq lower (slide - lower))) (nlowest, (-1)%Z)).
    destruct (fold_left _ _ _) as [v p]. apply H; [|now left].
    intros b Hb. apply in_rev in Hb. apply in_seq in Hb. lia.
  Qed.
  Lemma dp_cell_range prev s sim : let '(_, p) := dp_cell (T:=T) prev s sim in (-1 <= p <= Z.of_nat s)%Z.
  Proof.
    unfold dp_cell. destruct prev as [[row lower]|]; [|lia].
    pose proof (back_search_range row lower s) as H. destruct (back_search row lower s) as [h past].
    destruct (nltb _ _); lia.
  Qed.

  Lemma dp_rows_inv degs nc sw (d : mat T * Z) : forall items prev rows,
    dp_rows measure degs nc sw prev items = Ret rows ->
    length rows = length items /\
    exists slides : nat -> list nat,
    forall i, i < length items ->
      let '(ref, idx) := nth i items d in
      let '(row, bt) := nth i rows ([], []) in
      row_slides idx sw (Z.of_nat nc) = Ret (slides i) /\
      length row = nc /\ length bt = nc /\
      ((forall s, In s (slides i) -> s < nc) ->
      (forall s, In s (slides i) -> exists deg r, nth_error degs s = Some deg /\ measure ref deg = Ret r /\
         (nth s row n0, nth s bt 0%Z) =
         dp_cell (match i with O => prev
                  | S j => Some (fst (nth j rows ([], [])), lower_limit (snd (nth j items d)) sw) end)
                 s (ps_sim r)) /\
      (forall s, ~ In s (slides i) -> nth s row n0 = n0 /\ nth s bt 0%Z = 0%Z)).
  Proof.
    induction items as [|[ref idx] t IH]; intros prev rows H; cbn [dp_rows] in H.
    - injection H as <-. split; [reflexivity|]. exists (fun _ => []). cbn [length]. intros i Hi. lia.
    - destruct (row_slides idx sw (Z.of_nat nc)) as [sl| | |] eqn:Es; try discriminate. cbn [bind] in H.
      destruct (dp_row measure ref degs prev sl (repeat n0 nc) (repeat 0%Z nc)) as [[row bt]| | |] eqn:Er;
        try discriminate. cbn [bind] in H.
      destruct (dp_rows measure degs nc sw (Some (row, lower_limit idx sw)) t) as [rest| | |] eqn:Et;
        try discriminate. cbn [bind] in H. injection H as <-.
      destruct (IH _ _ Et) as (L & slides & HI). split; [cbn [length]; now rewrite L|].
      exists (fun i => match i with O => sl | S j => slides j end).
      intros [|i] Hi; cbn [nth].
      + split; [exact Es|].
        assert (Ln : length row = nc /\ length bt = nc).
        { clear -Er. revert Er.
          assert (G : forall slides r b, dp_row measure ref degs prev slides r b = Ret (row, bt) ->
             length row = length r /\ length bt = length b).
          { induction slides as [|s t IH]; intros r b H; cbn [dp_row] in H.
            - injection H as <- <-. auto.
            - destruct (nth_error degs s); [|discriminate].
              destruct (measure ref m) as [x| | |]; try discriminate. cbn [bind] in H.
              destruct (dp_cell prev s (ps_sim x)). apply IH in H. now rewrite !upd_length in H. }
          intros Er. apply G in Er. now rewrite !repeat_length in Er. }
        split; [apply Ln|]. split; [apply Ln|]. intros Hsl.
        apply dp_row_inv in Er; [|intros s Hs; rewrite repeat_length; auto|now rewrite !repeat_length].
        destruct Er as (_ & _ & E3 & E4). split; [exact E3|].
        intros s Hs. destruct (E4 s Hs) as [-> ->]. now rewrite !nth_repeat.
      + cbn [length] in Hi. specialize (HI i ltac:(lia)).
        destruct (nth i t d) as [r' i']. destruct (nth i rest ([], [])) as [row' bt'].
        destruct HI as (H1 & H2 & H3 & H4). repeat (split; auto).
        * intros s Hs. destruct (proj1 (H4 H) s Hs) as (deg & r & A & B & C).
          exists deg, r. split; [exact A|]. split; [exact B|]. rewrite C. destruct i; reflexivity.
        * apply (proj2 (H4 H) s H0).
        * apply (proj2 (H4 H) s H0).
  Qed.
  Lemma dp_rows_total degs nc sw : forall items prev,
    (forall ref idx, In (ref, idx) items -> exists sl, row_slides idx sw (Z.of_nat nc) = Ret sl /\
       forall s, In s sl -> exists deg r, nth_error degs s = Some deg /\ measure ref deg = Ret r) ->
    exists rows, dp_rows measure degs nc sw prev items = Ret rows.
  Proof.
    induction items as [|[ref idx] t IH]; intros prev H; cbn [dp_rows]; [now eauto|].
    destruct (H ref idx (or_introl eq_refl)) as (sl & -> & Hsl). cbn [bind].
    destruct (dp_row_total ref degs prev sl (repeat n0 nc) (repeat 0%Z nc) Hsl) as (row & bt & ->). cbn [bind].
    destruct (IH (Some (row, lower_limit idx sw))) as [rest ->]; [|cbn [bind]; now eauto].
    intros r i Hri. apply H. now right.
  Qed.

  (** *** backtracking; [BT i] are the back pointers of patch i *)
  Section Back.
  Variable S : mat T.
  Variables fd pd : T.
  Variable REF : nat -> mat T.
  Variable IDX : nat -> Z.
  Variable BT : nat -> list Z.

  (** offset of patch i when patch n is at [last] *)
  Fixpoint tr (n : nat) (last : Z) (i : nat) : Z :=
    if Nat.eqb i n then last
    else match n with O => last | Datatypes.S m => tr m (nth (Z.to_nat last) (BT n) 0%Z) i end.

  Lemma tr_same n last : tr n last n = last.
  Proof. destruct n; cbn; [reflexivity|]. now rewrite Nat.eqb_refl. Qed.
  Lemma tr_step n : forall last i, i < n -> tr n last i = nth (Z.to_nat (tr n last (Datatypes.S i))) (BT (Datatypes.S i)) 0%Z.
  Proof.
    induction n as [|n IH]; intros last i Hi; [lia|]. cbn [tr].
    destruct (Nat.eqb i (Datatypes.S n)) eqn:E1; [lia|].
    destruct (Nat.eqb (Datatypes.S i) (Datatypes.S n)) eqn:E2.
    - apply Nat.eqb_eq in E2. injection E2 as ->. now rewrite tr_same.
    - apply IH. lia.
  Qed.

  Definition back_items (n : nat) := map (fun i => (REF i, IDX i, BT i)) (rev (seq 0 n)).

  Lemma back_items_S n : back_items (Datatypes.S n) = (REF n, IDX n, BT n) :: back_items n.
  Proof. unfold back_items. rewrite seq_S, rev_app_distr. reflexivity. Qed.

  (** whether patch i is reported as lost *)
  Definition lost_at n last i := (tr n last i =? nth (Z.to_nat (tr n last i)) (BT i) 0)%Z.

  Lemma backtrack_inv n : forall last acc l,
    backtrack measure S fd pd (back_items (Datatypes.S n)) last acc = Ret l ->
    exists rs, l = rs ++ acc /\ length rs = Datatypes.S n /\
      forall i, i <= n -> (0 <= tr n last i < Z.of_nat (length (BT i)))%Z /\
        exists deg r, degraded_at S (REF i) (tr n last i) = Ret deg /\ measure (REF i) deg = Ret r /\
          nth_error rs i = Some (with_times r (lost_at n last i) (tr n last i) (IDX i) fd pd).
  Proof.
    induction n as [|n IH]; intros last acc l H; rewrite back_items_S in H; cbn [backtrack] in H.
    - destruct (degraded_at S (REF 0) last) as [deg| | |] eqn:E1; try discriminate. cbn [bind] in H.
      destruct (measure (REF 0) deg) as [r| | |] eqn:E2; try discriminate. cbn [bind] in H.
      destruct ((0 <=? last)%Z && (last <? Z.of_nat (length (BT 0)))%Z) eqn:E3; [|discriminate].
      cbn in H. injection H as <-. eexists [_]. split; [reflexivity|]. split; [reflexivity|].
      intros i Hi. assert (i = 0) by lia. subst i. cbn [tr Nat.eqb]. split; [lia|].
      exists deg, r. repeat split; auto.
    - destruct (degraded_at S (REF (Datatypes.S n)) last) as [deg| | |] eqn:E1; try discriminate. cbn [bind] in H.
      destruct (measure (REF (Datatypes.S n)) deg) as [r| | |] eqn:E2; try discriminate. cbn [bind] in H.
      destruct ((0 <=? last)%Z && (last <? Z.of_nat (length (BT (Datatypes.S n))))%Z) eqn:E3; [|discriminate].
      apply IH in H. destruct H as (rs & -> & L & HI).
      exists (rs ++ [with_times r (last =? nth (Z.to_nat last) (BT (Datatypes.S n)) 0)%Z last (IDX (Datatypes.S n)) fd pd]).
      split; [now rewrite <- app_assoc|]. split; [rewrite app_length, L; cbn [length]; lia|].
      intros i Hi. destruct (Nat.eq_dec i (Datatypes.S n)) as [->|].
      + unfold lost_at. rewrite tr_same. split; [lia|]. exists deg, r. repeat split; auto.
        rewrite nth_error_app2 by lia. rewrite L, Nat.sub_diag. reflexivity.
      + assert (E : tr (Datatypes.S n) last i = tr n (nth (Z.to_nat last) (BT (Datatypes.S n)) 0%Z) i).
        { cbn [tr]. destruct (Nat.eqb i (Datatypes.S n)) eqn:E; [lia|reflexivity]. }
        unfold lost_at. rewrite E. destruct (HI i ltac:(lia)) as [H1 (deg' & r' & H2 & H3 & H4)].
        split; [exact H1|]. exists deg', r'. repeat split; auto.
        rewrite nth_error_app1 by lia. exact H4.
  Qed.
  Lemma backtrack_total n : forall last acc,
    (forall i, i <= n -> (0 <= tr n last i < Z.of_nat (length (BT i)))%Z /\
       exists deg r, degraded_at S (REF i) (tr n last i) = Ret deg /\ measure (REF i) deg = Ret r) ->
    exists l, backtrack measure S fd pd (back_items (Datatypes.S n)) last acc = Ret l.
  Proof.
    induction n as [|n IH]; intros last acc H; rewrite back_items_S; cbn [backtrack].
    - destruct (H 0 ltac:(lia)) as [H1 (deg & r & H2 & H3)]. cbn [tr Nat.eqb] in *.
      rewrite H2. cbn [bind]. rewrite H3. cbn [bind].
      destruct ((0 <=? last)%Z && (last <? Z.of_nat (length (BT 0)))%Z) eqn:E3; [|lia]. cbn. now eauto.
    - destruct (H (Datatypes.S n) ltac:(lia)) as [H1 (deg & r & H2 & H3)]. rewrite tr_same in *.
      rewrite H2. cbn [bind]. rewrite H3. cbn [bind].
      destruct ((0 <=? last)%Z && (last <? Z.of_nat (length (BT (Datatypes.S n))))%Z) eqn:E3; [|lia].
      apply IH. intros i Hi. specialize (H i ltac:(lia)). cbn [tr] in H.
      destruct (Nat.eqb i (Datatypes.S n)) eqn:E; [lia|]. exact H.
  Qed.
  End Back.
End M.
