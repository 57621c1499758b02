(** Batch files, results files and the main program (C52-C58). *)
From Coq Require Import ZArith List Bool Ascii String Lia.
From Verif Require Import Base.Res Base.Num Base.Lists Model.Nsim Model.Mappers Model.Manager Model.Cli Spec.CliSpec.
Import ListNotations.
Open Scope string_scope.

(** *** strings *)
Lemma sapp_assoc (a b c : string) : (a ++ b) ++ c = a ++ b ++ c.
Proof. induction a as [|x a IH]; cbn; [reflexivity|now rewrite IH]. Qed.
Lemma sapp_nil_r (a : string) : a ++ "" = a.
Proof. induction a as [|x a IH]; cbn; [reflexivity|now rewrite IH]. Qed.
Lemma chars_app a b : list_ascii_of_string (a ++ b) = (list_ascii_of_string a ++ list_ascii_of_string b)%list.
Proof. induction a as [|x a IH]; cbn; [reflexivity|now rewrite IH]. Qed.
Lemma free_app c a b : free_of c (a ++ b) <-> free_of c a /\ free_of c b.
Proof. unfold free_of. rewrite chars_app, in_app_iff. tauto. Qed.
Lemma free_cons c x a : free_of c (String x a) <-> x <> c /\ free_of c a.
Proof. unfold free_of. cbn. split; [intros H; split; intros E; apply H; [left|right]; auto|intros [H1 H2] [E|E]; auto]. Qed.
Lemma concat_cons s a b l : String.concat s (a :: b :: l) = a ++ s ++ String.concat s (b :: l).
Proof. reflexivity. Qed.
Lemma concat0_cons a l : String.concat "" (a :: l) = a ++ String.concat "" l.
Proof. destruct l; [cbn; now rewrite sapp_nil_r|reflexivity]. Qed.
Lemma concat0_app a b : String.concat "" (a ++ b) = String.concat "" a ++ String.concat "" b.
Proof. induction a as [|x a IH]; [reflexivity|]. cbn [app]. rewrite !concat0_cons, IH, sapp_assoc. reflexivity. Qed.
Lemma concat_comma a l : String.concat "," (a :: l) = a ++ String.concat "" (map (fun x => "," ++ x) l).
Proof.
  revert a. induction l as [|b l IH]; intros a; [cbn; now rewrite sapp_nil_r|].
  rewrite concat_cons, IH. cbn [map]. rewrite concat0_cons, sapp_assoc. reflexivity.
Qed.

(** *** getline and splitting *)
Definition drop_empty (l : list string) : list string :=
  match rev l with EmptyString :: t => rev t | l' => rev l' end.
Lemma drop_empty_cons x l : l <> [] -> drop_empty (x :: l) = x :: drop_empty l.
Proof.
  intros H. unfold drop_empty. cbn [rev]. destruct (rev l) as [|y t] eqn:E.
  - exfalso. apply H. apply (f_equal (@rev string)) in E. rewrite rev_involutive in E. exact E.
  - cbn [app]. destruct y; rewrite ?rev_app_distr; cbn [rev app]; rewrite ?rev_app_distr; reflexivity.
Qed.
Lemma split_ne c s : split_at c s <> [].
Proof. induction s as [|a s IH]; cbn; [discriminate|]. destruct (Ascii.eqb a c); [discriminate|]. destruct (split_at c s); [congruence|discriminate]. Qed.
Lemma getlines_from_split c : forall s cur, getlines_from c cur s =
  drop_empty (match split_at c s with [] => [] | h :: r => (cur ++ h) :: r end).
Proof.
  induction s as [|a s IH]; intros cur; cbn [getlines_from split_at].
  - rewrite sapp_nil_r. destruct cur; reflexivity.
  - destruct (Ascii.eqb a c) eqn:E.
    + rewrite IH, sapp_nil_r. pose proof (split_ne c s) as NE. destruct (split_at c s) as [|h r] eqn:S; [congruence|].
      rewrite (drop_empty_cons cur (h :: r)) by discriminate. reflexivity.
    + rewrite IH. destruct (split_at c s) as [|h r]; [reflexivity|]. rewrite sapp_assoc. reflexivity.
Qed.
Lemma getlines_split c s : getlines c s = drop_empty (split_at c s).
Proof. unfold getlines. rewrite getlines_from_split. destruct (split_at c s); reflexivity. Qed.
Lemma getlines_lines s : getlines newline s = text_lines s.
Proof. apply getlines_split. Qed.
Lemma split_free c a : free_of c a -> split_at c a = [a].
Proof.
  induction a as [|x a IH]; intros H; cbn; [reflexivity|]. apply free_cons in H. destruct H as [H1 H2].
  destruct (Ascii.eqb_spec x c); [congruence|]. now rewrite IH.
Qed.
Lemma split_app c a b : free_of c a -> split_at c (a ++ String c b) = a :: split_at c b.
Proof.
  induction a as [|x a IH]; intros H; cbn; [now rewrite Ascii.eqb_refl|]. apply free_cons in H. destruct H as [H1 H2].
  destruct (Ascii.eqb_spec x c); [congruence|]. now rewrite IH.
Qed.
(** the first piece *)
Lemma split_first c s : (free_of c s /\ split_at c s = [s]) \/ exists a b, free_of c a /\ s = a ++ String c b /\ split_at c s = a :: split_at c b.
Proof.
  induction s as [|x s IH]; [left; split; [intros []|reflexivity]|].
  destruct (Ascii.eqb_spec x c) as [->|NE].
  - right. exists "", s. split; [intros []|]. split; [reflexivity|]. cbn. now rewrite Ascii.eqb_refl.
  - destruct IH as [[F S]|(a & b & F & -> & S)].
    + left. split; [apply free_cons; auto|]. cbn. destruct (Ascii.eqb_spec x c); [congruence|]. now rewrite S.
    + right. exists (String x a), b. split; [apply free_cons; auto|]. split; [reflexivity|]. cbn.
      destruct (Ascii.eqb_spec x c); [congruence|]. now rewrite S.
Qed.

(** *** one line *)
Lemma last_pop s : s <> "" -> exists t c, s = t ++ String c "" /\ last_char s = Some c /\ pop_back s = t /\
  without_cr s = if Ascii.eqb c cr then t else s.
Proof.
  intros H. assert (Q : exists t c, s = t ++ String c "" /\ last_char s = Some c /\ pop_back s = t).
  { induction s as [|a s IH]; [congruence|]. destruct s as [|b s].
    - exists "", a. repeat split.
    - destruct IH as (t & c & E & E1 & E2); [discriminate|]. exists (String a t), c. rewrite E at 1. split; [reflexivity|].
      split; [exact E1|]. change (pop_back (String a (String b s))) with (String a (pop_back (String b s))). now rewrite E2. }
  destruct Q as (t & c & E & E1 & E2). exists t, c. repeat split; auto. unfold without_cr. rewrite E at 1. rewrite chars_app.
  cbn [list_ascii_of_string]. rewrite rev_app_distr. cbn [rev app]. rewrite rev_involutive, string_of_list_ascii_of_string. reflexivity.
Qed.

Lemma parse_line_pieces l : parse_line l = match getlines comma (without_cr l) with r :: d :: _ => Ret (r, d) | _ => Ub end.
Proof.
  unfold parse_line. destruct l as [|a l]; [reflexivity|].
  destruct (last_pop (String a l)) as (t & c & _ & -> & E2 & ->); [discriminate|]. rewrite <- E2. destruct (Ascii.eqb c cr); reflexivity.
Qed.
Lemma parse_line_names l : names_two l -> exists p, parse_line l = Ret p.
Proof.
  intros (r & rest & F & NE & E). rewrite parse_line_pieces, E, getlines_split. change ("," ++ rest) with (String comma rest).
  rewrite split_app by exact F. pose proof (split_ne comma rest) as SN. rewrite drop_empty_cons by exact SN.
  destruct (split_first comma rest) as [[Fr ->]|(a & b & _ & _ & ->)].
  - destruct rest; [congruence|]. eexists. reflexivity.
  - rewrite drop_empty_cons by apply split_ne. eexists. reflexivity.
Qed.
Lemma parse_line_ub l : ~ names_two l -> parse_line l = Ub.
Proof.
  intros H. rewrite parse_line_pieces, getlines_split.
  destruct (split_first comma (without_cr l)) as [[Fr ->]|(a & b & Fa & E & ->)].
  - unfold drop_empty. cbn [rev app]. destruct (without_cr l); reflexivity.
  - destruct b as [|x b]; [reflexivity|]. exfalso. apply H. exists a, (String x b). split; [exact Fa|]. split; [discriminate|exact E].
Qed.
Lemma names_two_dec l : names_two l \/ ~ names_two l.
Proof.
  destruct (parse_line l) as [p| | |] eqn:E.
  2-4: right; intros H; destruct (parse_line_names l H); congruence.
  left. rewrite parse_line_pieces, getlines_split in E.
  destruct (split_first comma (without_cr l)) as [[Fr S]|(a & b & Fa & EL & S)]; rewrite S in E.
  - unfold drop_empty in E. cbn [rev app] in E. destruct (without_cr l); discriminate.
  - destruct b as [|x b]; [discriminate|]. exists a, (String x b). split; [exact Fa|]. split; [discriminate|exact EL].
Qed.
Lemma parse_lines_all l : Forall names_two l -> exists ps, parse_lines l = Ret ps /\ List.length ps = List.length l.
Proof.
  induction 1 as [|x l H _ IH]; [exists []; auto|]. destruct IH as (ps & E & EL). destruct (parse_line_names x H) as [p Ep].
  exists (p :: ps). cbn [parse_lines]. rewrite Ep, E. split; [reflexivity|cbn; lia].
Qed.
Lemma parse_lines_ub l : Exists (fun x => ~ names_two x) l -> parse_lines l = Ub.
Proof.
  induction 1 as [x l H|x l _ IH]; cbn [parse_lines]; [now rewrite parse_line_ub|].
  destruct (names_two_dec x) as [H|H]; [|now rewrite parse_line_ub]. destruct (parse_line_names x H) as [p ->]. cbn [bind]. now rewrite IH.
Qed.
Lemma read_lines s : read_files_to_compare (Some s) = parse_lines (tl (text_lines s)).
Proof. unfold read_files_to_compare. rewrite getlines_lines. destruct (text_lines s); reflexivity. Qed.
Lemma read_defined s : (exists ps, read_files_to_compare (Some s) = Ret ps) <-> Forall names_two (tl (text_lines s)).
Proof.
  rewrite read_lines. split.
  - intros [ps E]. apply Forall_forall. intros x Hx. destruct (names_two_dec x) as [|H]; [assumption|].
    rewrite parse_lines_ub in E; [discriminate|]. apply Exists_exists. eauto.
  - intros H. destruct (parse_lines_all _ H) as (ps & E & _). eauto.
Qed.
Lemma read_undefined s : ~ Forall names_two (tl (text_lines s)) -> read_files_to_compare (Some s) = Ub.
Proof.
  intros H. rewrite read_lines. apply parse_lines_ub. revert H. induction (tl (text_lines s)) as [|x l IH]; intros H; [exfalso; apply H; constructor|].
  destruct (names_two_dec x) as [Q|Q]; [right; apply IH; intros F; apply H; constructor; assumption|left; exact Q].
Qed.

(** *** reading back what was written *)
Lemma batch_cons e final h p ps : batch_text e final h (p :: ps) = h ++ eol e ++ batch_text e final (pair_line p) ps.
Proof. unfold batch_text. cbn [map]. rewrite concat_cons, !sapp_assoc. reflexivity. Qed.
Definition cr_part (e : ending) : string := match e with LF => "" | CRLF => String char_cr "" end.
Lemma split_eol e h t : free_of char_nl h -> split_at char_nl (h ++ eol e ++ t) = (h ++ cr_part e) :: split_at char_nl t.
Proof.
  intros H. destruct e; cbn [eol cr_part append].
  - rewrite sapp_nil_r. apply split_app. exact H.
  - replace (h ++ String char_cr (String char_nl t)) with ((h ++ String char_cr "") ++ String char_nl t) by (rewrite sapp_assoc; reflexivity).
    apply split_app. apply free_app. split; [exact H|]. apply free_cons. split; [discriminate|intros []].
Qed.
Definition written (p : string * string) (l : string) : Prop := exists e, l = pair_line p ++ cr_part e.
Lemma clean_line p : clean_pair p -> free_of char_nl (pair_line p) /\ free_of char_cr (pair_line p) /\ pair_line p <> "".
Proof.
  intros ((A1 & A2 & A3) & (B1 & B2 & B3) & _). unfold pair_line. split; [|split].
  - apply free_app. split; [exact A1|]. apply free_cons. split; [discriminate|exact B1].
  - apply free_app. split; [exact A2|]. apply free_cons. split; [discriminate|exact B2].
  - destruct (fst p); discriminate.
Qed.
Lemma batch_lines e final : forall ps p, Forall clean_pair (p :: ps) ->
  exists ls, drop_empty (split_at char_nl (batch_text e final (pair_line p) ps)) = ls /\ Forall2 written (p :: ps) ls.
Proof.
  induction ps as [|q ps IH]; intros p H; inversion H as [|? ? Hp Hq]; subst; destruct (clean_line p Hp) as (F1 & _ & F2).
  - unfold batch_text. cbn [map String.concat]. destruct final.
    + replace (pair_line p ++ eol e) with (pair_line p ++ eol e ++ "") by now rewrite sapp_nil_r. rewrite split_eol by exact F1.
      eexists. split; [reflexivity|]. cbn. constructor; [exists e; reflexivity|constructor].
    + rewrite sapp_nil_r, split_free by exact F1. eexists. split; [reflexivity|]. unfold drop_empty. cbn [rev app].
      destruct (pair_line p) eqn:E; [congruence|]. constructor; [exists LF; cbn; rewrite E, sapp_nil_r; reflexivity|constructor].
  - rewrite batch_cons, split_eol by exact F1. rewrite drop_empty_cons by apply split_ne. destruct (IH q Hq) as (ls & -> & F).
    eexists. split; [reflexivity|]. constructor; [exists e; reflexivity|exact F].
Qed.
Lemma parse_written p l : clean_pair p -> written p l -> parse_line l = Ret p.
Proof.
  intros C [e ->]. destruct (clean_line p C) as (_ & F2 & F3). rewrite parse_line_pieces.
  assert (W : without_cr (pair_line p ++ cr_part e) = pair_line p).
  { destruct e; cbn [cr_part].
    - rewrite sapp_nil_r. destruct (last_pop (pair_line p) F3) as (t & c & E & _ & _ & ->). destruct (Ascii.eqb_spec c cr) as [->|]; [|reflexivity].
      exfalso. rewrite E in F2. apply free_app in F2. destruct F2 as [_ F2]. apply F2. left. reflexivity.
    - unfold without_cr. rewrite chars_app. cbn [list_ascii_of_string]. rewrite rev_app_distr. cbn [rev app]. cbn [Ascii.eqb]. 
      rewrite rev_involutive. change (Ascii.eqb char_cr char_cr) with true. cbn match. apply string_of_list_ascii_of_string. }
  rewrite W, getlines_split. unfold pair_line. change ("," ++ snd p) with (String comma (snd p)).
  destruct C as ((_ & _ & A3) & (_ & _ & B3) & B4). rewrite split_app by exact A3. rewrite split_free by exact B3.
  rewrite drop_empty_cons by discriminate. unfold drop_empty. cbn [rev app]. destruct (snd p) eqn:E; [congruence|].
  cbn [rev app]. rewrite <- E. destruct p; reflexivity.
Qed.
Lemma parse_written_all : forall ps ls, Forall clean_pair ps -> Forall2 written ps ls -> parse_lines ls = Ret ps.
Proof.
  induction ps as [|p ps IH]; intros ls C W; inversion W as [|? l ? ls' W1 W2]; subst; [reflexivity|]. inversion C as [|? ? C1 C2]; subst.
  cbn [parse_lines]. rewrite (parse_written p l C1 W1). cbn [bind]. rewrite (IH ls' C2 W2). reflexivity.
Qed.
Lemma batch_round_trip e final h pairs : free_of char_nl h -> Forall clean_pair pairs ->
  read_files_to_compare (Some (batch_text e final h pairs)) = Ret pairs.
Proof.
  intros H C. rewrite read_lines. unfold text_lines. fold (drop_empty (split_at char_nl (batch_text e final h pairs))).
  destruct pairs as [|p ps].
  - unfold batch_text. cbn [map String.concat]. destruct final.
    + replace (h ++ eol e) with (h ++ eol e ++ "") by now rewrite sapp_nil_r. rewrite split_eol by exact H. reflexivity.
    + rewrite sapp_nil_r, split_free by exact H. unfold drop_empty. cbn [rev app]. destruct h; reflexivity.
  - rewrite batch_cons, split_eol by exact H. rewrite drop_empty_cons by apply split_ne. cbn [tl].
    destruct (batch_lines e final ps p C) as (ls & -> & F). apply parse_written_all; assumption.
Qed.
