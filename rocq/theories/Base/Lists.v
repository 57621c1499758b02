(** Small list library. *)
From Coq Require Import ZArith List Lia Arith.
Import ListNotations.

Section Upd.
  Context {A : Type}.
  (** replace element [i]; no effect out of range (callers check the range) *)
  Fixpoint upd (l : list A) (i : nat) (v : A) : list A :=
    match l, i with
    | [], _ => []
    | _ :: t, O => v :: t
    | h :: t, S i' => h :: upd t i' v
    end.

  Lemma upd_length l i v : length (upd l i v) = length l.
  Proof. revert i; induction l as [|h t IH]; intros [|i]; simpl; auto. Qed.

  Lemma nth_upd l i j v d :
    nth j (upd l i v) d = if Nat.eqb i j then (if Nat.ltb i (length l) then v else d) else nth j l d.
  Proof.
    revert i j; induction l as [|h t IH]; intros [|i] [|j]; simpl; auto.
    - destruct (Nat.eqb i j); reflexivity.
    - rewrite IH. reflexivity.
  Qed.

  Lemma nth_upd_same l i v d : i < length l -> nth i (upd l i v) d = v.
  Proof. intros H; rewrite nth_upd, Nat.eqb_refl. apply Nat.ltb_lt in H; rewrite H; reflexivity. Qed.
  Lemma nth_upd_other l i j v d : i <> j -> nth j (upd l i v) d = nth j l d.
  Proof. intros H; rewrite nth_upd. apply Nat.eqb_neq in H; rewrite H; reflexivity. Qed.

  Lemma nth_map_seq (f : nat -> A) n i d : i < n -> nth i (map f (seq 0 n)) d = f i.
  Proof.
    intros H. rewrite nth_indep with (d' := f 0) by (rewrite map_length, seq_length; lia).
    rewrite map_nth, seq_nth by lia. reflexivity.
  Qed.

  Lemma nth_firstn (l : list A) n i d : i < n -> nth i (firstn n l) d = nth i l d.
  Proof.
    revert n i; induction l as [|h t IH]; intros [|n] [|i] H; simpl; auto; try lia.
    apply IH; lia.
  Qed.
  Lemma nth_skipn (l : list A) n i d : nth i (skipn n l) d = nth (n + i) l d.
  Proof.
    revert n i; induction l as [|h t IH]; intros [|n] i; simpl; auto.
    destruct i; reflexivity.
  Qed.

  Lemma list_ext (l l' : list A) d :
    length l = length l' -> (forall i, i < length l -> nth i l d = nth i l' d) -> l = l'.
  Proof. intros H H'. exact (nth_ext l l' d d H H'). Qed.
End Upd.

(** columns of equal length, flattened *)
Lemma flat_map_length_const {A B} (f : A -> list B) l n :
  (forall a, In a l -> length (f a) = n) -> length (flat_map f l) = length l * n.
Proof.
  induction l as [|a l IH]; intros H; simpl; auto.
  rewrite app_length, IH, (H a); auto.
  - left; reflexivity.
  - intros b Hb; apply H; right; assumption.
Qed.

Lemma nth_flat_map_const {A B} (f : A -> list B) l n c r da d :
  (forall a, In a l -> length (f a) = n) -> r < n -> c < length l ->
  nth (c * n + r) (flat_map f l) d = nth r (f (nth c l da)) d.
Proof.
  revert c; induction l as [|a l IH]; intros c H Hr Hc; simpl in *; [lia|].
  destruct c as [|c].
  - simpl. rewrite app_nth1; [reflexivity | rewrite H by auto; assumption].
  - rewrite app_nth2; rewrite (H a) by auto; [|simpl; lia].
    replace (S c * n + r - n) with (c * n + r) by (simpl; lia).
    apply IH; auto; lia.
Qed.

(** fold that may use the index *)
Lemma fold_left_ext {A B} (f g : A -> B -> A) l a :
  (forall x y, In y l -> f x y = g x y) -> fold_left f l a = fold_left g l a.
Proof.
  revert a; induction l as [|b l IH]; intros a H; simpl; auto.
  rewrite H by (left; reflexivity). apply IH. intros x y Hy; apply H; right; assumption.
Qed.
