(** Matrices: Armadillo's column-major storage (used through src/amatrix.cc). *)
From Coq Require Import ZArith List Lia Arith.
From Verif Require Import Base.Res Base.Lists.
Import ListNotations.

Record mat (T : Type) : Type := MkMat { nrows : nat; ncols : nat; elems : list T }.
Arguments MkMat {T} nrows ncols elems.
Arguments nrows {T} m.
Arguments ncols {T} m.
Arguments elems {T} m.

Section Mat.
  Context {T : Type}.
  Variable d : T.   (* value used by [mget] outside the matrix; never observed by checked accessors *)

  Definition wf (M : mat T) : Prop := length (elems M) = nrows M * ncols M.

  (** matrix with entry (r,c) = f r c *)
  Definition tab (nr nc : nat) (f : nat -> nat -> T) : mat T :=
    MkMat nr nc (flat_map (fun c => map (fun r => f r c) (seq 0 nr)) (seq 0 nc)).

  (** entry (r,c) of a matrix: column-major *)
  Definition mget (M : mat T) (r c : nat) : T := nth (c * nrows M + r) (elems M) d.

  Lemma tab_nrows nr nc f : nrows (tab nr nc f) = nr. Proof. reflexivity. Qed.
  Lemma tab_ncols nr nc f : ncols (tab nr nc f) = nc. Proof. reflexivity. Qed.

  Lemma tab_wf nr nc f : wf (tab nr nc f).
  Proof.
    unfold wf, tab; cbn [elems nrows ncols].
    rewrite (flat_map_length_const _ _ nr).
    - rewrite seq_length. apply Nat.mul_comm.
    - intros a _. rewrite map_length, seq_length. reflexivity.
  Qed.

  Lemma mget_tab nr nc f r c : r < nr -> c < nc -> mget (tab nr nc f) r c = f r c.
  Proof.
    intros Hr Hc. unfold mget, tab; cbn [elems nrows].
    rewrite (nth_flat_map_const _ _ nr c r 0 d).
    - rewrite seq_nth by lia. rewrite nth_map_seq by lia. reflexivity.
    - intros a _. rewrite map_length, seq_length. reflexivity.
    - assumption.
    - rewrite seq_length; assumption.
  Qed.

  (** extensionality *)
  Lemma mat_ext (A B : mat T) :
    wf A -> wf B -> nrows A = nrows B -> ncols A = ncols B ->
    (forall r c, r < nrows A -> c < ncols A -> mget A r c = mget B r c) -> A = B.
  Proof.
    intros HA HB Hr Hc H. destruct A as [ra ca ea], B as [rb cb eb].
    unfold wf, mget in *; cbn [nrows ncols elems] in *. subst rb cb. f_equal.
    apply (list_ext _ _ d); [congruence|].
    intros i Hi. rewrite HA in Hi.
    assert (0 < ra) as Hra by (destruct ra; simpl in Hi; lia).
    assert (i = (i / ra) * ra + i mod ra) as E.
    { rewrite (Nat.mul_comm (i / ra)). apply Nat.div_mod. lia. }
    rewrite E. apply H.
    - apply Nat.mod_upper_bound; lia.
    - apply Nat.div_lt_upper_bound; lia.
  Qed.

  Lemma tab_ext nr nc f g :
    (forall r c, r < nr -> c < nc -> f r c = g r c) -> tab nr nc f = tab nr nc g.
  Proof.
    intros H. apply mat_ext; try apply tab_wf; try reflexivity.
    cbn [nrows ncols tab]. intros r c Hr Hc. rewrite !mget_tab by assumption. auto.
  Qed.

  Lemma tab_mget M : wf M -> tab (nrows M) (ncols M) (mget M) = M.
  Proof.
    intros H. apply mat_ext; auto using tab_wf.
    cbn [nrows ncols tab]. intros r c Hr Hc. apply mget_tab; assumption.
  Qed.
End Mat.

Arguments wf {T} M.
Arguments tab {T} nr nc f.
Arguments mget {T} d M r c.

Section Map.
  Context {A B : Type}.
  Definition mmap (f : A -> B) (M : mat A) : mat B := MkMat (nrows M) (ncols M) (map f (elems M)).
  Lemma mmap_wf f M : wf M -> wf (mmap f M).
  Proof. unfold wf, mmap; cbn; rewrite map_length; auto. Qed.
  Lemma mget_mmap da db f M r c :
    wf M -> r < nrows M -> c < ncols M -> mget db (mmap f M) r c = f (mget da M r c).
  Proof.
    unfold wf, mget, mmap; cbn [nrows elems]. intros H Hr Hc.
    rewrite nth_indep with (d' := f da).
    - apply map_nth.
    - rewrite map_length, H. nia.
  Qed.
End Map.
