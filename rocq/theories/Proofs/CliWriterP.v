(** Writers that crash or run at the same time (C56, C71). *)
From Coq Require Import ZArith List Bool Ascii String Lia ZifyBool ZifyNat.
From Verif Require Import Base.Res Base.Num Base.Lists Model.Mappers Model.Manager Model.Cli Spec.CliSpec Proofs.CliP Proofs.CliRunP.
Import ListNotations.
Open Scope nat_scope.
Open Scope string_scope.

Section W.
  Context {T : Type} {N : Num T}.
  Variable F : formats T.
  Variable path : string.

  Lemma schedule_app s1 : forall s2 fs ws, schedule F path fs ws (s1 ++ s2)%list =
    let '(fs', ws') := schedule F path fs ws s1 in schedule F path fs' ws' s2.
  Proof.
    induction s1 as [|i s1 IH]; intros s2 fs ws; [reflexivity|]. cbn [app schedule]. destruct (nth_error ws i) as [w|]; [|apply IH].
    destruct (writer_step F path fs w) as [fs' w']. apply IH.
  Qed.

  (** *** one writer *)
  Lemma write_chars : forall k t fs s, fs path = Some s ->
    exists fs' pre post, schedule F path fs [WWrite t] (repeat 0 k) = (fs', [WWrite post]) /\ t = pre ++ post /\
      fs' path = Some (s ++ pre) /\ (forall q, q <> path -> fs' q = fs q) /\ (String.length t <= k -> post = "")%nat.
  Proof.
    induction k as [|k IH]; intros t fs s H.
    - exists fs, "", t. rewrite sapp_nil_r. repeat split; auto. intros HL. destruct t; [reflexivity|cbn in HL; lia].
    - cbn [repeat schedule nth_error]. destruct t as [|c t]; cbn [writer_step update_nth].
      + destruct (IH "" fs s H) as (fs' & pre & post & E & Ep & E1 & E2 & _). destruct pre; [|discriminate]. destruct post; [|discriminate].
        exists fs', "", "". rewrite E. repeat split; auto.
      + destruct (IH t (file_append fs path (String c "")) (s ++ String c "")) as (fs' & pre & post & E & Ep & E1 & E2 & E3).
        { rewrite append_at. unfold content_of. rewrite H. reflexivity. }
        exists fs', (String c pre), post. rewrite E. split; [reflexivity|]. split; [cbn; congruence|]. split; [rewrite E1, sapp_assoc; reflexivity|].
        split; [intros q Hq; rewrite E2 by exact Hq; now apply append_other|]. cbn. intros HL. apply E3. lia.
  Qed.
  Lemma text_steps k t fs : exists fs' w pre post, schedule F path fs [WOpen t] (repeat 0 k) = (fs', [w]) /\ t = pre ++ post /\
    (forall q, q <> path -> fs' q = fs q) /\ (k = 0 -> fs' path = fs path)%nat /\
    (1 <= k -> fs' path = Some (content_of fs path ++ pre))%nat /\ (1 + String.length t <= k -> post = "" /\ w = WWrite "")%nat.
  Proof.
    destruct k as [|k].
    - exists fs, (WOpen t), "", t. repeat split; auto; intros; lia.
    - cbn [repeat schedule nth_error writer_step update_nth].
      destruct (write_chars k t (file_append fs path "") (content_of fs path ++ "") (append_at _ _ _)) as (fs' & pre & post & E & Ep & E1 & E2 & E3).
      exists fs', (WWrite post), pre, post. rewrite E. split; [reflexivity|]. split; [exact Ep|].
      split; [intros q Hq; rewrite E2 by exact Hq; now apply append_other|]. split; [discriminate|].
      split; [intros _; rewrite E1, sapp_nil_r; reflexivity|]. intros HL. assert (post = "") as -> by (apply E3; lia). auto.
  Qed.
  Lemma crash k (m : sim_msg T) fs : exists fs' w pre post,
    schedule F path fs [WCheck m] (repeat 0 k) = (fs', [w]) /\ csv_text F fs path m = pre ++ post /\
    (forall q, q <> path -> fs' q = fs q) /\ (k <= 1 -> fs' path = fs path)%nat /\
    (2 <= k -> fs' path = Some (content_of fs path ++ pre))%nat /\
    (2 + String.length (csv_text F fs path m) <= k -> post = "" /\ finished w)%nat.
  Proof.
    destruct k as [|k].
    - exists fs, (WCheck m), "", (csv_text F fs path m). repeat split; auto; intros; lia.
    - cbn [repeat schedule nth_error writer_step update_nth].
      destruct (text_steps k (csv_text F fs path m) fs) as (fs' & w & pre & post & E & Ep & E1 & E2 & E3 & E4).
      exists fs', w, pre, post. rewrite E. split; [reflexivity|]. split; [exact Ep|]. split; [exact E1|]. split; [intros; apply E2; lia|].
      split; [intros; apply E3; lia|]. intros HL. apply E4. lia.
  Qed.
  Lemma next_row fs s (m : sim_msg T) : fs path = Some s -> csv_text F fs path m = line (columns F m).
  Proof. intros H. unfold csv_text, file_exists. rewrite H. cbn [append]. apply row_line. Qed.
  Lemma complete_write fs (m : sim_msg T) k : fm_open F path = true -> (2 + String.length (csv_text F fs path m) <= k)%nat ->
    fst (schedule F path fs [WCheck m] (repeat 0 k)) path = write_csv F fs path m path.
  Proof.
    intros O H. destruct (crash k m fs) as (fs' & w & pre & post & E & Ep & _ & _ & E3 & E4). rewrite E. cbn [fst].
    rewrite E3 by lia. destruct (E4 H) as [-> _]. unfold write_csv. rewrite O, append_at. rewrite sapp_nil_r in Ep. congruence.
  Qed.

  (** *** several writers *)
  Lemma sub_refl s : subsequence s s.
  Proof. induction s; [apply sub_nil|apply sub_keep; assumption]. Qed.
  Lemma sub_snoc_skip a b c : subsequence a b -> subsequence a (b ++ String c "").
  Proof. induction 1; cbn; [apply sub_skip, sub_nil|apply sub_skip; assumption|apply sub_keep; assumption]. Qed.
  Lemma sub_snoc_keep a b c : subsequence a b -> subsequence (a ++ String c "") (b ++ String c "").
  Proof. induction 1; cbn; [apply sub_keep, sub_nil|apply sub_skip; assumption|apply sub_keep; assumption]. Qed.

  (** how far a writer of [m] is: the text it has decided on, and the part already written *)
  Definition progress (had : bool) (m : sim_msg T) (w : writer T) (em : string) : Prop :=
    match w with
    | WCheck m' => m' = m /\ em = ""
    | WOpen t => em = "" /\ (t = csv_row F m \/ (had = false /\ t = csv_header m ++ csv_row F m))
    | WWrite t => em ++ t = csv_row F m \/ (had = false /\ em ++ t = csv_header m ++ csv_row F m)
    end.
  Definition invariant (fs0 : files) (ms : list (sim_msg T)) (fs : files) (ws : list (writer T)) : Prop :=
    exists t ems, content_of fs path = content_of fs0 path ++ t /\ List.length ems = List.length ms /\ List.length ws = List.length ms /\
      (forall i m w em, nth_error ms i = Some m -> nth_error ws i = Some w -> nth_error ems i = Some em ->
         progress (file_exists fs0 path) m w em /\ subsequence em t) /\
      String.length t = list_sum (map String.length ems) /\
      (file_exists fs0 path = true -> file_exists fs path = true) /\ (forall q, q <> path -> fs q = fs0 q).

  Lemma update_length {A} (l : list A) : forall i x, List.length (update_nth l i x) = List.length l.
  Proof. induction l; destruct i; cbn; auto. Qed.
  Lemma update_same {A} (l : list A) : forall i x y, nth_error l i = Some y -> nth_error (update_nth l i x) i = Some x.
  Proof. induction l; destruct i; cbn; intros; try discriminate; eauto. Qed.
  Lemma update_else {A} (l : list A) : forall i j x, i <> j -> nth_error (update_nth l i x) j = nth_error l j.
  Proof. induction l; destruct i, j; cbn; intros; auto; congruence. Qed.
  Lemma update_sum ems : forall i em c, nth_error ems i = Some em ->
    list_sum (map String.length (update_nth ems i (em ++ String c ""))) = S (list_sum (map String.length ems)).
  Proof.
    assert (A : forall s c, String.length (s ++ String c "") = S (String.length s)) by (induction s; cbn; auto).
    unfold list_sum. induction ems as [|e ems IH]; destruct i; cbn; intros em c H; try discriminate.
    - injection H as ->. rewrite A. lia.
    - rewrite (IH _ _ _ H). lia.
  Qed.
  Lemma length_snoc s c : String.length (s ++ String c "") = S (String.length s).
  Proof. induction s; cbn; auto. Qed.

  Lemma invariant_step fs0 ms fs ws i w : invariant fs0 ms fs ws -> nth_error ws i = Some w ->
    invariant fs0 ms (fst (writer_step F path fs w)) (update_nth ws i (snd (writer_step F path fs w))).
  Proof.
    intros (t & ems & I1 & I2 & I3 & I4 & I5 & I6 & I7) Hw.
    assert (Hi : (i < List.length ms)%nat) by (rewrite <- I3; apply nth_error_Some; congruence).
    destruct (nth_error ms i) as [m|] eqn:Hm; [|apply nth_error_None in Hm; lia].
    destruct (nth_error ems i) as [em|] eqn:Hem; [|apply nth_error_None in Hem; lia].
    destruct (I4 i m w em Hm Hw Hem) as [P S].
    destruct w as [m'|x|x]; cbn [writer_step fst snd progress] in *.
    - destruct P as [-> ->]. exists t, ems. split; [exact I1|]. split; [exact I2|]. split; [rewrite update_length; exact I3|]. split; [|split; [exact I5|split; [exact I6|exact I7]]].
      intros j mj wj ej H1 H2 H3. destruct (Nat.eq_dec i j) as [<-|NE].
      + rewrite (update_same _ _ _ _ Hw) in H2. injection H2 as <-. rewrite Hem in H3. injection H3 as <-. rewrite Hm in H1. injection H1 as <-.
        split; [|exact S]. cbn. split; [reflexivity|]. unfold csv_text. destruct (file_exists fs path) eqn:X; [left; reflexivity|].
        right. split; [|reflexivity]. destruct (file_exists fs0 path); [|reflexivity]. specialize (I6 eq_refl). congruence.
      + rewrite update_else in H2 by exact NE. eapply I4; eassumption.
    - destruct P as [-> P]. exists t, ems. split; [rewrite content_append, sapp_nil_r; exact I1|]. split; [exact I2|]. split; [rewrite update_length; exact I3|].
      split; [|split; [exact I5|split]].
      + intros j mj wj ej H1 H2 H3. destruct (Nat.eq_dec i j) as [<-|NE].
        * rewrite (update_same _ _ _ _ Hw) in H2. injection H2 as <-. rewrite Hem in H3. injection H3 as <-. rewrite Hm in H1. injection H1 as <-.
          split; [exact P|exact S].
        * rewrite update_else in H2 by exact NE. eapply I4; eassumption.
      + intros _. unfold file_exists. rewrite append_at. reflexivity.
      + intros q Hq. rewrite append_other by exact Hq. auto.
    - destruct x as [|c x]; cbn [fst snd].
      + exists t, ems. split; [exact I1|]. split; [exact I2|]. split; [rewrite update_length; exact I3|]. split; [|split; [exact I5|split; [exact I6|exact I7]]].
        intros j mj wj ej H1 H2 H3. destruct (Nat.eq_dec i j) as [<-|NE].
        * rewrite (update_same _ _ _ _ Hw) in H2. injection H2 as <-. rewrite Hem in H3. injection H3 as <-. rewrite Hm in H1. injection H1 as <-.
          split; [exact P|exact S].
        * rewrite update_else in H2 by exact NE. eapply I4; eassumption.
      + exists (t ++ String c ""), (update_nth ems i (em ++ String c "")).
        split; [rewrite content_append, I1, sapp_assoc; reflexivity|]. split; [rewrite update_length; exact I2|]. split; [rewrite update_length; exact I3|].
        split; [|split; [|split]].
        * intros j mj wj ej H1 H2 H3. destruct (Nat.eq_dec i j) as [<-|NE].
          -- rewrite (update_same _ _ _ _ Hw) in H2. injection H2 as <-. rewrite (update_same _ _ _ _ Hem) in H3. injection H3 as <-. rewrite Hm in H1. injection H1 as <-.
             split; [cbn; rewrite sapp_assoc; exact P|now apply sub_snoc_keep].
          -- rewrite update_else in H2 by exact NE. rewrite update_else in H3 by exact NE. destruct (I4 j mj wj ej H1 H2 H3). split; [assumption|now apply sub_snoc_skip].
        * rewrite length_snoc, (update_sum _ _ _ _ Hem), I5. reflexivity.
        * intros _. unfold file_exists. rewrite append_at. reflexivity.
        * intros q Hq. rewrite append_other by exact Hq. auto.
  Qed.
  Lemma invariant_schedule fs0 ms : forall s fs ws, invariant fs0 ms fs ws ->
    invariant fs0 ms (fst (schedule F path fs ws s)) (snd (schedule F path fs ws s)).
  Proof.
    induction s as [|i s IH]; intros fs ws H; [exact H|]. cbn [schedule]. destruct (nth_error ws i) as [w|] eqn:E; [|apply IH; exact H].
    pose proof (invariant_step fs0 ms fs ws i w H E) as P. destruct (writer_step F path fs w) as [fs' w']. apply IH. exact P.
  Qed.
  Lemma invariant_start fs ms : invariant fs ms fs (map WCheck ms).
  Proof.
    exists "", (map (fun _ => "") ms). rewrite !map_length, sapp_nil_r.
    split; [reflexivity|]. split; [reflexivity|]. split; [reflexivity|]. split; [|split; [|split; auto]].
    - intros i m w em H1 H2 H3. rewrite nth_error_map, H1 in H2. rewrite nth_error_map, H1 in H3. cbn in H2, H3. injection H2 as <-. injection H3 as <-.
      split; [split; reflexivity|constructor].
    - rewrite map_map. cbn. unfold list_sum. induction ms; cbn; auto.
  Qed.
  (** when all are done *)
  Lemma concurrent_done fs ms s fs' ws' : schedule F path fs (map WCheck ms) s = (fs', ws') -> Forall finished ws' ->
    exists t texts, content_of fs' path = content_of fs path ++ t /\
      Forall2 (fun m x => x = line (columns F m) \/ (fs path = None /\ x = line (columns_for m) ++ line (columns F m))) ms texts /\
      Forall (fun x => subsequence x t) texts /\ String.length t = list_sum (map String.length texts) /\
      (forall q, q <> path -> fs' q = fs q).
  Proof.
    intros E FIN. pose proof (invariant_schedule fs ms s fs (map WCheck ms) (invariant_start fs ms)) as I. rewrite E in I. cbn [fst snd] in I.
    destruct I as (t & ems & I1 & I2 & I3 & I4 & I5 & _ & I7). exists t, ems. split; [exact I1|].
    assert (G : forall i m em, nth_error ms i = Some m -> nth_error ems i = Some em ->
      (em = line (columns F m) \/ (fs path = None /\ em = line (columns_for m) ++ line (columns F m))) /\ subsequence em t).
    { intros i m em H1 H2. destruct (nth_error ws' i) as [w|] eqn:H3.
      2:{ apply nth_error_None in H3. assert (i < List.length ms)%nat by (apply nth_error_Some; congruence). lia. }
      destruct (I4 i m w em H1 H3 H2) as [P S]. split; [|exact S]. rewrite Forall_forall in FIN. apply nth_error_In in H3. apply FIN in H3.
      rewrite H3 in P. cbn [progress] in P. rewrite sapp_nil_r, header_line, row_line in P. destruct P as [P|[P1 P2]]; [left; exact P|right].
      split; [|exact P2]. unfold file_exists in P1. destruct (fs path); [discriminate|reflexivity]. }
    split; [|split; [|split; [exact I5|exact I7]]].
    - clear -G I2. revert ems I2 G. induction ms as [|m l IH]; intros [|e es] HL G; try discriminate; constructor.
      + destruct (G 0 m e eq_refl eq_refl). assumption.
      + apply IH; [cbn in HL; lia|]. intros i. apply (G (S i)).
    - apply Forall_forall. intros x Hx. apply In_nth_error in Hx. destruct Hx as [i Hi].
      destruct (nth_error ms i) as [m|] eqn:Hm; [destruct (G i m x Hm Hi); assumption|].
      apply nth_error_None in Hm. assert (i < List.length ems)%nat by (apply nth_error_Some; congruence). lia.
  Qed.

  (** *** two writers that both find no file *)
  Lemma two_open : forall k t fs w2 s, fs path = Some s -> k = String.length t ->
    exists fs', schedule F path fs [WWrite t; w2] (repeat 0 k) = (fs', [WWrite ""; w2]) /\ fs' path = Some (s ++ t).
  Proof.
    induction k as [|k IH]; intros t fs w2 s H HL; destruct t as [|c t]; try discriminate.
    - exists fs. rewrite sapp_nil_r. auto.
    - cbn [repeat schedule nth_error writer_step update_nth].
      destruct (IH t (file_append fs path (String c "")) w2 (s ++ String c "")) as (fs' & E & E1); [rewrite append_at; unfold content_of; rewrite H; reflexivity|cbn in HL; lia|].
      exists fs'. rewrite E, E1, sapp_assoc. auto.
  Qed.
  Lemma two_open' : forall k t fs w1 s, fs path = Some s -> k = String.length t ->
    exists fs', schedule F path fs [w1; WWrite t] (repeat 1 k) = (fs', [w1; WWrite ""]) /\ fs' path = Some (s ++ t).
  Proof.
    induction k as [|k IH]; intros t fs w1 s H HL; destruct t as [|c t]; try discriminate.
    - exists fs. rewrite sapp_nil_r. auto.
    - cbn [repeat schedule nth_error writer_step update_nth].
      destruct (IH t (file_append fs path (String c "")) w1 (s ++ String c "")) as (fs' & E & E1); [rewrite append_at; unfold content_of; rewrite H; reflexivity|cbn in HL; lia|].
      exists fs'. rewrite E, E1, sapp_assoc. auto.
  Qed.
  Lemma two_headers (m1 m2 : sim_msg T) fs : fs path = None -> exists s fs' ws',
    schedule F path fs [WCheck m1; WCheck m2] s = (fs', ws') /\ Forall finished ws' /\
    fs' path = Some (line (columns_for m1) ++ line (columns F m1) ++ line (columns_for m2) ++ line (columns F m2)).
  Proof.
    intros H. set (t1 := line (columns_for m1) ++ line (columns F m1)). set (t2 := line (columns_for m2) ++ line (columns F m2)).
    assert (C : forall m, csv_text F fs path m = line (columns_for m) ++ line (columns F m)).
    { intros m. unfold csv_text, file_exists. rewrite H, header_line, row_line. reflexivity. }
    exists ([0; 1; 0] ++ repeat 0 (String.length t1) ++ [1] ++ repeat 1 (String.length t2))%list.
    rewrite schedule_app. cbn [schedule nth_error writer_step update_nth]. rewrite !C. fold t1 t2. rewrite schedule_app.
    destruct (two_open (String.length t1) t1 (file_append fs path "") (WOpen t2) (content_of fs path ++ "") (append_at _ _ _) eq_refl) as (f1 & -> & E1).
    rewrite schedule_app. cbn [schedule nth_error writer_step update_nth].
    destruct (two_open' (String.length t2) t2 (file_append f1 path "") (WWrite "") (content_of f1 path ++ "") (append_at _ _ _) eq_refl) as (f2 & -> & E2).
    exists f2, [WWrite ""; WWrite ""]. split; [reflexivity|]. split; [repeat constructor|]. rewrite E2. unfold content_of at 1. rewrite E1.
    unfold content_of. rewrite H. cbn [append]. rewrite sapp_nil_r. unfold t1, t2. rewrite !sapp_assoc. reflexivity.
  Qed.

  (** *** the crash in terms of the lines *)
  Lemma csv_text_lines fs m : csv_text F fs path m = (match fs path with Some _ => "" | None => line (columns_for m) end) ++ line (columns F m).
  Proof. unfold csv_text, file_exists. rewrite row_line. destruct (fs path); [reflexivity|]. now rewrite header_line. Qed.
  Lemma crash_and_after k m m2 fs : fm_open F path = true ->
    exists fs' w pre post, schedule F path fs [WCheck m] (repeat 0 k) = (fs', [w]) /\
      (match fs path with Some _ => "" | None => line (columns_for m) end) ++ line (columns F m) = pre ++ post /\
      (forall q, q <> path -> fs' q = fs q) /\
      ((fs' path = fs path /\ k <= 1) \/
       (fs' path = Some (content_of fs path ++ pre) /\ write_csv F fs' path m2 path = Some (content_of fs path ++ pre ++ line (columns F m2)))).
  Proof.
    intros O. destruct (crash k m fs) as (fs' & w & pre & post & E1 & E2 & E3 & E4 & E5 & _). exists fs', w, pre, post.
    split; [exact E1|]. split; [rewrite <- csv_text_lines; exact E2|]. split; [exact E3|].
    destruct (Nat.le_gt_cases k 1) as [H|H]; [left; auto|right]. specialize (E5 ltac:(lia)). split; [exact E5|].
    rewrite write_csv_at by exact O. rewrite E5. unfold results_file. cbn [map String.concat]. now rewrite sapp_assoc.
  Qed.
End W.
