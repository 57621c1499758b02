(** Results files read back (C57), written while crashing or concurrently (C56, C71). *)
From Coq Require Import ZArith List Bool Ascii String Lia ZifyBool ZifyNat Decimal DecimalString.
From Verif Require Import Base.Res Base.Num Base.Lists Model.Nsim Model.Mappers Model.Manager Model.Cli Spec.CliSpec Proofs.CliP Proofs.CliRunP.
Import ListNotations.
Open Scope nat_scope.
Open Scope string_scope.

(** *** joining and splitting *)
Lemma split_join c : forall l a, free_of c a -> Forall (free_of c) l -> split_at c (String.concat (String c "") (a :: l)) = a :: l.
Proof.
  induction l as [|b l IH]; intros a Ha Hl; [apply split_free; exact Ha|]. inversion Hl as [|? ? H1 H2]; subst.
  rewrite concat_cons. cbn [append]. rewrite split_app by exact Ha. f_equal. apply IH; assumption.
Qed.
Lemma lines_join : forall ls, Forall (free_of char_nl) ls -> text_lines (String.concat "" (map (fun l => l ++ String char_nl "") ls)) = ls.
Proof.
  intros ls H. unfold text_lines. fold (drop_empty (split_at char_nl (String.concat "" (map (fun l => l ++ String char_nl "") ls)))).
  induction H as [|l ls Hl _ IH]; [reflexivity|]. cbn [map]. rewrite concat0_cons, sapp_assoc. cbn [append]. rewrite split_app by exact Hl.
  rewrite drop_empty_cons by apply split_ne. now rewrite IH.
Qed.

Lemma digits_free c d : (nat_of_ascii c < 48 \/ 57 < nat_of_ascii c)%nat -> free_of c (NilEmpty.string_of_uint d).
Proof.
  intros H. induction d; cbn [NilEmpty.string_of_uint]; [intros []|..]; apply free_cons; (split; [intros <-; cbn in H; lia|assumption]).
Qed.
Lemma decimal_free c n : (nat_of_ascii c < 48 \/ 57 < nat_of_ascii c)%nat -> free_of c (NilZero.string_of_uint (Nat.to_uint n)).
Proof.
  intros H. unfold NilZero.string_of_uint. destruct (Nat.to_uint n) eqn:E; [apply free_cons; split; [intros <-; cbn in H; lia|intros []]|..];
    apply digits_free; exact H.
Qed.

Section Columns.
  Context {T : Type} {N : Num T}.
  Variable F : formats T.

  Lemma numbered_free c base n : (nat_of_ascii c < 48 \/ 57 < nat_of_ascii c)%nat -> free_of c base -> Forall (free_of c) (numbered base n).
  Proof.
    intros H B. apply Forall_forall. intros x Hx. apply in_map_iff in Hx. destruct Hx as (i & <- & _). apply free_app. split; [exact B|].
    apply decimal_free. exact H.
  Qed.
  Lemma names_free c n1 n2 n3 n4 : c = char_comma \/ c = char_nl -> Forall (free_of c) (column_names n1 n2 n3 n4).
  Proof.
    intros H. assert (D : (nat_of_ascii c < 48 \/ 57 < nat_of_ascii c)%nat) by (destruct H as [->| ->]; cbn; lia).
    unfold column_names. rewrite !Forall_app. split.
    - repeat constructor; destruct H as [->| ->]; unfold free_of; cbn; intros Q; repeat (destruct Q as [Q|Q]; [discriminate|]); exact Q.
    - repeat split; apply numbered_free; try exact D; destruct H as [->| ->]; unfold free_of; cbn; intros Q; repeat (destruct Q as [Q|Q]; [discriminate|]); exact Q.
  Qed.

  Lemma concat_free c sep : free_of c sep -> forall l, Forall (free_of c) l -> free_of c (String.concat sep l).
  Proof.
    intros S. induction l as [|a l IH]; intros H; [intros []|]. inversion H as [|? ? H1 H2]; subst. destruct l as [|b l]; [exact H1|].
    rewrite concat_cons. apply free_app. split; [exact H1|]. apply free_app. split; [exact S|]. apply IH. exact H2.
  Qed.
  Lemma columns_plain m c : c = char_comma \/ c = char_nl -> Forall plain_text (columns F m) -> Forall (free_of c) (columns F m).
  Proof. intros H. apply Forall_impl. intros s [H1 H2]. destruct H as [->| ->]; assumption. Qed.

  Lemma file_text (ms : list (sim_msg T)) m0 : results_file F None (m0 :: ms) =
    Some (String.concat "" (map (fun l => l ++ String char_nl "")
            (map (String.concat ",") (columns_for m0 :: map (columns F) (m0 :: ms))))).
  Proof.
    unfold results_file. f_equal. cbn [map]. rewrite !concat0_cons. unfold line. rewrite !map_map. reflexivity.
  Qed.
  Lemma read_back (ms : list (sim_msg T)) m0 s : Forall (fun m => Forall plain_text (columns F m)) (m0 :: ms) ->
    results_file F None (m0 :: ms) = Some s ->
    map (split_at char_comma) (text_lines s) = columns_for m0 :: map (columns F) (m0 :: ms).
  Proof.
    intros P E. rewrite file_text in E. assert (E' : String.concat "" (map (fun l => l ++ String char_nl "")
            (map (String.concat ",") (columns_for m0 :: map (columns F) (m0 :: ms)))) = s) by congruence. subst s. clear E. rewrite lines_join.
    - rewrite map_map. cbn [map]. f_equal.
      + apply (split_join char_comma); pose proof (names_free char_comma (List.length (ms_fvnsim m0)) (List.length (ms_fvnsim10 m0)) (List.length (ms_fstdnsim m0)) (List.length (ms_fvdegenergy m0)) (or_introl eq_refl)) as Q;
          unfold columns_for, column_names in *; cbn [Datatypes.app] in *; inversion Q; assumption.
      + assert (G : forall l, Forall (fun m => Forall plain_text (columns F m)) l -> map (fun x => split_at char_comma (String.concat "," x)) (map (columns F) l) = map (columns F) l).
        { intros l. induction 1 as [|m l H _ IH]; [reflexivity|]. cbn [map]. rewrite IH. f_equal.
          apply columns_plain with (c := char_comma) in H; [|left; reflexivity]. unfold columns in *. cbn [Datatypes.app] in *. inversion H; subst. apply (split_join char_comma); assumption. }
        apply (G (m0 :: ms) P).
    - apply Forall_forall. intros x Hx. apply in_map_iff in Hx. destruct Hx as (cols & <- & Hc). apply concat_free; [unfold free_of; cbn; intros [Q|[]]; discriminate|].
      destruct Hc as [<-|Hc]; [apply names_free; right; reflexivity|]. apply in_map_iff in Hc. destruct Hc as (m & <- & Hm).
      rewrite Forall_forall in P. apply columns_plain; [right; reflexivity|]. apply P. exact Hm.
  Qed.
  Lemma columns_number (m : sim_msg T) : List.length (columns F m) = List.length (columns_for m).
  Proof.
    unfold columns, columns_for, column_names, numbered. rewrite !app_length, !map_length, !app_length, !seq_length. cbn. lia.
  Qed.
  Lemma columns_bands n (m : sim_msg T) : has_bands n m -> List.length (columns F m) = (3 + 4 * n)%nat.
  Proof. intros (H1 & H2 & H3 & H4 & _). unfold columns. rewrite !app_length, map_length, !app_length. cbn. lia. Qed.
  (** a comma in a path adds a column *)
  Lemma split_length c : forall l, l <> [] -> List.length (split_at c (String.concat (String c "") l)) =
    list_sum (map (fun s => List.length (split_at c s)) l).
  Proof.
    assert (A : forall a b, List.length (split_at c (a ++ String c b)) = (List.length (split_at c a) + List.length (split_at c b))%nat).
    { induction a as [|x a IH]; intros b; cbn.
      - now rewrite Ascii.eqb_refl.
      - destruct (Ascii.eqb x c); cbn; [rewrite IH; lia|]. specialize (IH b). pose proof (split_ne c (a ++ String c b)). pose proof (split_ne c a).
        destruct (split_at c (a ++ String c b)), (split_at c a); cbn in *; try congruence; lia. }
    induction l as [|a l IH]; [congruence|]. intros _. destruct l as [|b l]; [cbn; lia|].
    rewrite concat_cons. cbn [append]. rewrite A, IH by discriminate. reflexivity.
  Qed.
  Lemma comma_in_path (m : sim_msg T) : ~ free_of char_comma (ms_ref_path m) ->
    (List.length (columns_for m) < List.length (split_at char_comma (String.concat "," (columns F m))))%nat.
  Proof.
    intros H. rewrite (split_length char_comma) by discriminate. rewrite <- columns_number.
    assert (G : forall l, (List.length l <= list_sum (map (fun s => List.length (split_at char_comma s)) l))%nat).
    { unfold list_sum. induction l as [|a l IH]; [cbn; lia|]. cbn [map fold_right List.length]. pose proof (split_ne char_comma a).
      destruct (split_at char_comma a); [congruence|]. cbn [List.length]. lia. }
    unfold columns. cbn [Datatypes.app].
    set (rest := ms_deg_path m :: fm_general F 9 (ms_moslqo m) :: _). specialize (G rest). clearbody rest.
    unfold list_sum in *. cbn [map fold_right List.length].
    assert (2 <= List.length (split_at char_comma (ms_ref_path m)))%nat.
    { destruct (split_first char_comma (ms_ref_path m)) as [[Q _]|(a & b & _ & _ & ->)]; [contradiction|]. cbn. pose proof (split_ne char_comma b). destruct (split_at char_comma b); [congruence|cbn; lia]. }
    lia.
  Qed.
End Columns.
