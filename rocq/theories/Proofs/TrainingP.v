(** Lemmas about the training files. *)
From Coq Require Import List String Ascii Lia Arith.
From Verif Require Import Base.Res Base.Num Model.Cli Model.Training Spec.CliSpec Spec.SvrSpec Proofs.CliP.
Import ListNotations.
Open Scope string_scope.

Lemma file_text_cons sep r rows : file_text sep (r :: rows) = row_text sep r ++ String newline (file_text sep rows).
Proof. unfold file_text. cbn [map]. rewrite concat0_cons, sapp_assoc. reflexivity. Qed.
Lemma row_text_cons sep a b l : row_text sep (a :: b :: l) = a ++ String sep (row_text sep (b :: l)).
Proof. reflexivity. Qed.
Lemma row_text_free c sep l : c <> sep -> Forall (free_of c) l -> free_of c (row_text sep l).
Proof.
  intros NE H. induction H as [|a l Ha Hl IH]; [intros []|]. destruct l as [|b l]; [exact Ha|].
  rewrite row_text_cons. apply free_app. split; [exact Ha|]. apply free_cons. split; [congruence|exact IH].
Qed.
Lemma getlines_app c a b : free_of c a -> getlines c (a ++ String c b) = a :: getlines c b.
Proof. intros H. rewrite !getlines_split, split_app by exact H. apply drop_empty_cons, split_ne. Qed.
Lemma getlines_one c a : free_of c a -> a <> "" -> getlines c a = [a].
Proof. intros H NE. rewrite getlines_split, split_free by exact H. unfold drop_empty. cbn. destruct a; congruence. Qed.
Lemma getlines_file sep rows : Forall (fun r => free_of newline (row_text sep r)) rows -> getlines newline (file_text sep rows) = map (row_text sep) rows.
Proof.
  induction 1 as [|r rows Hr _ IH]; [reflexivity|]. rewrite file_text_cons, getlines_app by exact Hr. cbn [map]. now rewrite IH.
Qed.
Lemma getlines_row sep l : Forall (fun s => free_of sep s /\ s <> "") l -> getlines sep (row_text sep l) = l.
Proof.
  induction 1 as [|a l [H1 H2] Hl IH]; [reflexivity|]. destruct l as [|b l]; [now apply getlines_one|].
  rewrite row_text_cons, getlines_app by exact H1. now rewrite IH.
Qed.

Section P.
  Context {T : Type}.
  Lemma read_items (atod : string -> option T) (show : T -> string) l : (forall v, In v l -> atod (show v) = Some v) ->
    flat_map (fun item => match atod item with Some v => [v] | None => [] end) (map show l) = l.
  Proof.
    induction l as [|v l IH]; intros H; [reflexivity|]. cbn [map flat_map]. rewrite H by now left. cbn [app]. rewrite IH; [reflexivity|].
    intros x Hx. apply H. now right.
  Qed.
  Lemma read_written (atod : string -> option T) (show : T -> string) sep (rows : list (list T)) : sep <> newline ->
    (forall v, atod (show v) = Some v) -> (forall v, free_of sep (show v) /\ free_of newline (show v) /\ show v <> "") ->
    read_training atod (Some (file_text sep (map (map show) rows))) sep = rows.
  Proof.
    intros NE HA HS. unfold read_training. rewrite getlines_file.
    - rewrite !map_map. rewrite <- (map_id rows) at 2. apply map_ext_in. intros r _. unfold read_line. rewrite getlines_row.
      + apply read_items. auto.
      + apply Forall_forall. intros s Hs. apply in_map_iff in Hs. destruct Hs as (v & <- & _). destruct (HS v) as (A & _ & C). auto.
    - apply Forall_forall. intros r Hr. apply in_map_iff in Hr. destruct Hr as (l & <- & _). apply row_text_free; [congruence|].
      apply Forall_forall. intros s Hs. apply in_map_iff in Hs. destruct Hs as (v & <- & _). apply HS.
  Qed.
  Lemma read_lines (atod : string -> option T) s sep : read_training atod (Some s) sep = map (read_line atod sep) (text_lines s).
  Proof. unfold read_training. now rewrite getlines_lines. Qed.
  Lemma read_blank (atod : string -> option T) (show : T -> string) sep (rows : list (list T)) : sep <> newline ->
    (forall v, atod (show v) = Some v) -> (forall v, free_of sep (show v) /\ free_of newline (show v) /\ show v <> "") ->
    read_training atod (Some (file_text sep (map (map show) rows) ++ String newline "")) sep = app rows [[]].
  Proof.
    intros NE HA HS. replace (file_text sep (map (map show) rows) ++ String newline "") with (file_text sep (map (map show) (app rows [[]]))).
    - now apply read_written.
    - rewrite map_app. induction (map (map show) rows) as [|r l IH]; [reflexivity|]. cbn [app]. rewrite !file_text_cons, IH.
      now rewrite sapp_assoc.
  Qed.
  Lemma first_column_last (rows : list (list T)) : first_column (app rows [[]]) = Ub.
  Proof. induction rows as [|[|x r] rows IH]; [reflexivity|reflexivity|]. cbn [app first_column]. now rewrite IH. Qed.
End P.
