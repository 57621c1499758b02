(** FindMostOptimalDegPatches as a whole, whenever it returns (C24, C29). *)
From Coq Require Import ZArith List Bool Lia ZifyBool ZifyNat.
From Verif Require Import Base.Res Base.Num Base.Lists Base.Mat Model.Amatrix Model.MiscMath Model.Window
  Model.FilterBank Model.Spectrogram Model.Nsim Model.Fft Model.Alignment Model.Selector Spec.MatchSpec
  Proofs.SelectorP Proofs.MatchP.
Import ListNotations.
Open Scope nat_scope.
Ltac Zify.zify_post_hook ::= Z.div_mod_to_equations.

Lemma slide_loop_lt fuel : forall s hi nc l, slide_loop fuel s hi nc = Some l ->
  forall x, In x l -> (Z.of_nat x < nc)%Z.
Proof.
  induction fuel as [|f IH]; intros s hi nc l H x Hx; cbn [slide_loop] in H; [discriminate|].
  destruct (s <=? hi)%Z; [|injection H as <-; destruct Hx].
  destruct (s <? 0)%Z eqn:E; [exact (IH _ _ _ _ H x Hx)|].
  destruct (nc <=? s)%Z eqn:E2; [injection H as <-; destruct Hx|].
  destruct (slide_loop f (s + 1) hi nc) as [t|] eqn:Et; [|discriminate]. injection H as <-.
  destruct Hx as [<-|Hx]; [lia|exact (IH _ _ _ _ Et x Hx)].
Qed.
Lemma row_slides_lt idx sw nc l : row_slides idx sw nc = Ret l -> forall x, In x l -> (Z.of_nat x < nc)%Z.
Proof.
  unfold row_slides. destruct (fits_int _ && fits_int _); [|discriminate].
  destruct (slide_loop _ _ _ _) as [t|] eqn:E; [|discriminate]. intros [= <-]. exact (slide_loop_lt _ _ _ _ _ E).
Qed.

Section M.
  Context {T : Type} {N : Num T}.
  Variable measure : mat T -> mat T -> res (psr T).

  Lemma calc_max_le idx nf p n : calc_max_num_patches (T:=T) idx nf p = Ret n -> n <= length idx.
  Proof.
    unfold calc_max_num_patches. destruct idx as [|i t]; [intros [= <-]; cbn; lia|].
    rewrite <- rev_length. generalize (rev (i :: t)). intros l. induction l as [|x l IH]; cbn [max_num_patches_loop]; [discriminate|].
    destruct (ngtb _ _); [intros H; apply IH in H; cbn; lia|intros H; injection H as H; cbn [length]; lia].
  Qed.

  Lemma sequence_map_ret {A B} (f : A -> res B) (g : A -> B) l : (forall x, In x l -> f x = Ret (g x)) ->
    sequence (map f l) = Ret (map g l).
  Proof.
    induction l as [|x l IH]; intros H; [reflexivity|]. cbn [map sequence].
    rewrite (H x (or_introl eq_refl)). cbn [bind]. rewrite IH by (intros y Hy; apply H; now right). reflexivity.
  Qed.

  (** what the matching works on: patches of the spectrogram's height and of one width *)
  Record shapes (refs : list (mat T)) (S : mat T) (p : nat) : Prop := MkShapes {
    sh_some : refs <> [];
    sh_ref : forall ref, In ref refs -> nrows ref = nrows S /\ ncols ref = p;
    sh_p : (1 <= Z.of_nat p < 2 ^ 31)%Z;
    sh_nc : (1 <= Z.of_nat (ncols S) < 2 ^ 31)%Z }.

  Lemma degs_ret refs S p ref0 rest : shapes refs S p -> refs = ref0 :: rest ->
    sequence (map (fun o => degraded_at S ref0 (Z.of_nat o)) (seq 0 (ncols S))) =
    Ret (map (fun o => frames_at n0 S (Z.of_nat o) p) (seq 0 (ncols S))).
  Proof.
    intros [H1 H2 H3 H4] ->. apply sequence_map_ret. intros o Ho. apply in_seq in Ho.
    destruct (H2 ref0 (or_introl eq_refl)) as [Hr Hc].
    rewrite degraded_at_spec by lia. now rewrite Hc.
  Qed.

  Definition ref_at (refs : list (mat T)) i := nth i refs (MkMat 0 0 []).
  Definition idx_at (idx : list Z) i := nth i idx 0%Z.
  Definition rows_bt (rows : list (list T * list Z)) i := snd (nth i rows ([], [])).

  Lemma items_form (refs : list (mat T)) idx n : n <= length refs -> n <= length idx ->
    combine (firstn n refs) (firstn n idx) = map (fun i => (ref_at refs i, idx_at idx i)) (seq 0 n).
  Proof.
    intros H1 H2. rewrite (firstn_as_map refs n (MkMat 0 0 [])), (firstn_as_map idx n 0%Z) by assumption.
    apply combine_map_seq.
  Qed.
  Lemma back_form (refs : list (mat T)) idx (rows : list (list T * list Z)) n : length rows = n ->
    rev (combine (map (fun i => (ref_at refs i, idx_at idx i)) (seq 0 n)) (map snd rows)) =
    back_items (ref_at refs) (idx_at idx) (rows_bt rows) n.
  Proof.
    intros H. rewrite <- (map_nth_seq rows ([], [])) at 1. rewrite H, map_map, combine_map_seq.
    unfold back_items. rewrite map_rev. f_equal.
  Qed.

  (** the tables for the n scored patches *)
  Lemma find_inv refs idx S p fd radius l : shapes refs S p ->
    find_most_optimal_deg_patches measure refs idx S fd radius = Ret l ->
    exists n rows last,
      let sw := int_of (size_of (size_of radius * Z.of_nat p)) in
      calc_max_num_patches (T:=T) idx (Z.of_nat (ncols S)) (Z.of_nat p) = Ret (Datatypes.S n) /\
      Datatypes.S n <= length refs /\ Datatypes.S n <= length idx /\
      dp_rows measure (map (fun o => frames_at n0 S (Z.of_nat o) p) (seq 0 (ncols S))) (ncols S) sw None
        (map (fun i => (ref_at refs i, idx_at idx i)) (seq 0 (Datatypes.S n))) = Ret rows /\
      length rows = Datatypes.S n /\
      final_scan (fst (nth n rows ([], []))) (idx_at idx n) sw = Ret last /\
      backtrack measure S fd (nmul fd (nofZ (Z.of_nat p)))
        (back_items (ref_at refs) (idx_at idx) (rows_bt rows) (Datatypes.S n)) last [] = Ret l.
  Proof.
    intros Sh H. destruct refs as [|ref0 rest] eqn:Er; [now destruct (sh_some _ _ _ Sh)|]. rewrite <- Er in Sh.
    assert (Ep : ncols ref0 = p) by (apply (sh_ref _ _ _ Sh); subst; now left).
    unfold find_most_optimal_deg_patches in H. rewrite Ep in H.
    destruct (calc_max_num_patches idx (Z.of_nat (ncols S)) (Z.of_nat p)) as [n| | |] eqn:En; try discriminate.
    cbn [bind] in H. destruct (Nat.eqb n 0) eqn:E0; [discriminate|].
    rewrite (degs_ret _ S p ref0 rest Sh Er) in H. cbn [bind] in H.
    destruct (Nat.ltb (length (ref0 :: rest)) n) eqn:El; [discriminate|].
    destruct n as [|n]; [discriminate|]. rewrite items_form in H; [|lia|now apply calc_max_le in En].
    destruct (dp_rows _ _ _ _ _ _) as [rows| | |] eqn:Ed; try discriminate. cbn [bind] in H.
    pose proof (dp_rows_inv measure _ _ _ (MkMat 0 0 [], 0%Z) _ _ _ Ed) as [Lr _].
    rewrite map_length, seq_length in Lr.
    rewrite (back_form (ref0 :: rest) idx rows (Datatypes.S n) Lr) in H.
    rewrite (firstn_as_map idx _ 0%Z) in H by (now apply calc_max_le in En).
    rewrite last_map_seq in H.
    replace (last rows ([], [])) with (nth n rows ([], [])) in H.
    2:{ rewrite <- (map_nth_seq rows ([], [])), Lr. rewrite last_map_seq.
        rewrite nth_map_seq by lia. reflexivity. }
    destruct (final_scan _ _ _) as [last| | |] eqn:Ef; try discriminate. cbn [bind] in H.
    exists n, rows, last. cbv zeta. repeat split; auto; [lia|now apply calc_max_le in En].
  Qed.

  (** table equations for patch i *)
  Lemma table_inv degs nc sw refs idx rows n : 
    dp_rows measure degs nc sw None (map (fun i => (ref_at refs i, idx_at idx i)) (seq 0 n)) = Ret rows ->
    exists slides : nat -> list nat, forall i, i < n ->
      row_slides (idx_at idx i) sw (Z.of_nat nc) = Ret (slides i) /\
      length (fst (nth i rows ([], []))) = nc /\ length (rows_bt rows i) = nc /\
      (forall s, In s (slides i) -> s < nc) /\
      (forall s, In s (slides i) -> exists deg r, nth_error degs s = Some deg /\
         measure (ref_at refs i) deg = Ret r /\
         (nth s (fst (nth i rows ([], []))) n0, nth s (rows_bt rows i) 0%Z) =
         dp_cell (match i with O => None
                  | S j => Some (fst (nth j rows ([], [])), lower_limit (idx_at idx j) sw) end)
                 s (ps_sim r)) /\
      (forall s, ~ In s (slides i) ->
         nth s (fst (nth i rows ([], []))) n0 = n0 /\ nth s (rows_bt rows i) 0%Z = 0%Z).
  Proof.
    intros H. pose proof (dp_rows_inv measure _ _ _ (MkMat 0 0 [], 0%Z) _ _ _ H) as [L [slides HI]].
    rewrite map_length, seq_length in *. exists slides. intros i Hi. specialize (HI i Hi).
    rewrite nth_map_seq in HI by exact Hi. unfold rows_bt.
    destruct (nth i rows ([], [])) as [row bt]. cbn [fst snd].
    destruct HI as (H1 & H2 & H3 & H4).
    assert (Hs : forall s, In s (slides i) -> s < nc).
    { intros s Hs. pose proof (row_slides_lt _ _ _ _ H1 s Hs). lia. }
    destruct (H4 Hs) as [H5 H6]. repeat (split; auto).
    intros s Hin. destruct (H5 s Hin) as (deg & r & A & B & C). exists deg, r. repeat (split; auto).
    rewrite C. destruct i as [|j]; [reflexivity|]. rewrite nth_map_seq by lia. reflexivity.
  Qed.

  Lemma table_bt_range degs nc sw refs idx rows n : 
    dp_rows measure degs nc sw None (map (fun i => (ref_at refs i, idx_at idx i)) (seq 0 n)) = Ret rows ->
    forall i s, i < n -> (-1 <= nth s (rows_bt rows i) 0 <= Z.of_nat s)%Z.
  Proof.
    intros H. destruct (table_inv _ _ _ _ _ _ _ H) as [slides HI]. intros i s Hi.
    destruct (HI i Hi) as (_ & _ & _ & _ & H5 & H6).
    destruct (in_dec Nat.eq_dec s (slides i)) as [Hin|Hout].
    - destruct (H5 s Hin) as (deg & r & _ & _ & C).
      pose proof (dp_cell_range (match i with O => None
                  | S j => Some (fst (nth j rows ([], [])), lower_limit (idx_at idx j) sw) end) s (ps_sim r)) as R.
      rewrite <- C in R. exact R.
    - destruct (H6 s Hout) as [_ ->]. lia.
  Qed.

  Lemma matched_results refs idx S p fd radius l : shapes refs S p ->
    find_most_optimal_deg_patches measure refs idx S fd radius = Ret l ->
    exists (off : nat -> nat) (lost : nat -> bool), 1 <= length l /\
      length l <= length refs /\ length l <= length idx /\
      (forall i, i < length l -> off i < ncols S /\
         exists r, measure (ref_at refs i) (frames_at n0 S (Z.of_nat (off i)) p) = Ret r /\
           nth_error l i = Some (with_times r (lost i) (Z.of_nat (off i)) (idx_at idx i) fd
                                            (nmul fd (nofZ (Z.of_nat p))))) /\
      (forall i, Datatypes.S i < length l ->
         (lost (Datatypes.S i) = true -> off (Datatypes.S i) = off i) /\
         (lost (Datatypes.S i) = false -> off i < off (Datatypes.S i))).
  Proof.
    intros Sh H. destruct (find_inv _ _ _ _ _ _ _ Sh H) as (n & rows & last & Hn & Hr & Hi & Hd & Hl & Hf & Hb).
    cbv zeta in *. destruct (backtrack_inv _ _ _ _ _ _ _ _ _ _ _ Hb) as (rs & E & Lr & HI).
    rewrite app_nil_r in E. subst l.
    exists (fun i => Z.to_nat (tr (rows_bt rows) n last i)), (lost_at (rows_bt rows) n last). rewrite Lr.
    destruct (table_inv _ _ _ _ _ _ _ Hd) as [slides HT].
    split; [lia|]. split; [exact Hr|]. split; [exact Hi|]. split.
    - intros i Hin. destruct (HI i ltac:(lia)) as [Ho (deg & r & H1 & H2 & H3)].
      assert (Hlen : length (rows_bt rows i) = ncols S) by (apply HT; lia).
      rewrite Hlen in Ho. split; [lia|]. exists r. rewrite Z2Nat.id by lia.
      destruct (sh_ref _ _ _ Sh (ref_at refs i)) as [Hr1 Hr2]; [apply nth_In; lia|].
      pose proof (sh_p _ _ _ Sh). pose proof (sh_nc _ _ _ Sh).
      rewrite degraded_at_spec in H1 by lia. injection H1 as <-. rewrite Hr2 in H2.
      split; [exact H2|exact H3].
    - intros i Hin. destruct (HI i ltac:(lia)) as [Ho _]. destruct (HI (Datatypes.S i) ltac:(lia)) as [Ho' _].
      unfold lost_at. pose proof (tr_step measure (ref_at refs) (idx_at idx) (rows_bt rows) n last i ltac:(lia)) as Et.
      pose proof (table_bt_range _ _ _ _ _ _ _ Hd (Datatypes.S i)
        (Z.to_nat (tr (rows_bt rows) n last (Datatypes.S i))) ltac:(lia)) as Rg.
      rewrite <- Et in *. split; intros E; lia.
  Qed.
End M.
