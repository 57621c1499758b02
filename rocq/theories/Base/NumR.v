(** Exact real arithmetic as an instance of the numeric interface. *)
From Coq Require Import ZArith Reals Lra.
From Verif Require Import Base.Num.

Definition Rltb (x y : R) : bool := if Rlt_dec x y then true else false.
Definition Rleb (x y : R) : bool := if Rle_dec x y then true else false.
Definition Reqb (x y : R) : bool := if Req_EM_T x y then true else false.

(** truncation towards zero / ceiling / round half away from zero *)
Definition Rfloor (x : R) : Z := (up x - 1)%Z.
Definition Rtrunc (x : R) : Z := if Rle_dec 0 x then Rfloor x else (- Rfloor (- x))%Z.
Definition Rceil (x : R) : Z := (- Rfloor (- x))%Z.
Definition Rround (x : R) : Z :=
  if Rle_dec 0 x then Rfloor (x + /2) else (- Rfloor (- x + /2))%Z.

(** DBL_MAX = (2^53 - 1) * 2^971 *)
Definition dbl_max_Z : Z := ((2 ^ 53 - 1) * 2 ^ 971)%Z.

#[global] Instance NumR : Num R := {
  nadd := Rplus; nsub := Rminus; nmul := Rmult; ndiv := Rdiv; nopp := Ropp;
  nabs := Rabs; nsqrt := sqrt;
  nltb := Rltb; nleb := Rleb; neqb := Reqb;
  nofZ := IZR;
  ntrunc := fun x => Some (Rtrunc x);
  nceil := fun x => Some (Rceil x);
  nround := fun x => Some (Rround x);
  nlowest := (- IZR dbl_max_Z)%R
}.

#[global] Instance LibmR : Libm R := {
  mexp := exp; mlog := ln;
  mlog10 := fun x => (ln x / ln 10)%R;
  mpow10 := fun x => exp (x * ln 10)%R;
  mcos := cos; msin := sin; mpi := PI
}.

Open Scope R_scope.

Lemma Rltb_true x y : Rltb x y = true <-> x < y.
Proof. unfold Rltb; destruct (Rlt_dec x y); split; intros; try lra; discriminate. Qed.
Lemma Rltb_false x y : Rltb x y = false <-> y <= x.
Proof. unfold Rltb; destruct (Rlt_dec x y); split; intros; try lra; try discriminate; reflexivity. Qed.
Lemma Rleb_true x y : Rleb x y = true <-> x <= y.
Proof. unfold Rleb; destruct (Rle_dec x y); split; intros; try lra; discriminate. Qed.
Lemma Rleb_false x y : Rleb x y = false <-> y < x.
Proof. unfold Rleb; destruct (Rle_dec x y); split; intros; try lra; try discriminate; reflexivity. Qed.
Lemma Reqb_true x y : Reqb x y = true <-> x = y.
Proof. unfold Reqb; destruct (Req_EM_T x y); split; intros; try lra; discriminate. Qed.

Lemma Rltb_spec x y : Bool.reflect (x < y) (Rltb x y).
Proof. unfold Rltb; destruct (Rlt_dec x y); constructor; assumption. Qed.
Lemma Rleb_spec x y : Bool.reflect (x <= y) (Rleb x y).
Proof. unfold Rleb; destruct (Rle_dec x y); constructor; assumption. Qed.

(** characterisation of the integer parts *)
Lemma Rfloor_spec x : IZR (Rfloor x) <= x < IZR (Rfloor x) + 1.
Proof.
  unfold Rfloor. destruct (archimed x) as [H1 H2].
  rewrite minus_IZR. split; lra.
Qed.
Lemma Rfloor_unique x z : IZR z <= x < IZR z + 1 -> Rfloor x = z.
Proof.
  intros [H1 H2]. destruct (Rfloor_spec x) as [H3 H4].
  assert (A : (IZR (Rfloor x) < IZR (z + 1))) by (rewrite plus_IZR; lra).
  assert (B : (IZR z < IZR (Rfloor x + 1))) by (rewrite plus_IZR; lra).
  apply lt_IZR in A. apply lt_IZR in B.
  apply Z.le_antisymm; [apply Z.lt_succ_r | apply Z.lt_succ_r];
    unfold Z.succ; assumption.
Qed.
Lemma Rfloor_IZR z : Rfloor (IZR z) = z.
Proof. apply Rfloor_unique; lra. Qed.
Lemma Rtrunc_nonneg x : 0 <= x -> Rtrunc x = Rfloor x.
Proof. unfold Rtrunc; destruct (Rle_dec 0 x); intros; [reflexivity | lra]. Qed.
Lemma Rtrunc_IZR z : Rtrunc (IZR z) = z.
Proof.
  unfold Rtrunc; destruct (Rle_dec 0 (IZR z)).
  - apply Rfloor_IZR.
  - rewrite <- opp_IZR, Rfloor_IZR. apply Z.opp_involutive.
Qed.
Lemma Rceil_spec x : IZR (Rceil x) - 1 < x <= IZR (Rceil x).
Proof.
  unfold Rceil. destruct (Rfloor_spec (- x)) as [H1 H2]. rewrite opp_IZR. split; lra.
Qed.
Lemma Rceil_IZR z : Rceil (IZR z) = z.
Proof. unfold Rceil. rewrite <- opp_IZR, Rfloor_IZR. apply Z.opp_involutive. Qed.
