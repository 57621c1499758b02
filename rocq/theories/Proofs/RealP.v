(** Facts about the exact-real instance of the numeric interface. *)
From Coq Require Import ZArith List Lia Reals Lra Bool Arith.
From Verif Require Import Base.Res Base.Num Base.NumR Base.Lists Base.Mat Model.Amatrix Model.MiscMath.
Import ListNotations.
Open Scope R_scope.

Lemma Rfloor_div a b : (0 < b)%Z -> Rfloor (IZR a / IZR b) = (a / b)%Z.
Proof.
  intros Hb. apply Rfloor_unique.
  assert (Hb' : 0 < IZR b) by (apply IZR_lt; assumption).
  pose proof (Z.div_mod a b ltac:(lia)) as D.
  pose proof (Z.mod_pos_bound a b Hb) as [M1 M2].
  apply IZR_le in M1. apply IZR_lt in M2.
  assert (E : IZR a / IZR b = IZR (a / b) + IZR (a mod b) / IZR b).
  { apply (f_equal IZR) in D. rewrite plus_IZR, mult_IZR in D. rewrite D at 1. field. lra. }
  rewrite E.
  split.
  - assert (0 <= IZR (a mod b) / IZR b) by (apply Rmult_le_pos; [assumption|left; apply Rinv_0_lt_compat; assumption]). lra.
  - assert (IZR (a mod b) / IZR b < 1). { apply Rmult_lt_reg_r with (IZR b); [assumption|]. field_simplify; lra. }
    lra.
Qed.

Lemma Rtrunc_div a b : (0 <= a)%Z -> (0 < b)%Z -> Rtrunc (IZR a / IZR b) = (a / b)%Z.
Proof.
  intros Ha Hb. rewrite Rtrunc_nonneg; [apply Rfloor_div; assumption|].
  apply Rmult_le_pos; [apply IZR_le; assumption|left; apply Rinv_0_lt_compat, IZR_lt; assumption].
Qed.

Lemma ntrunc_quarter w : (0 <= w)%Z -> ntrunc (nmul (nofZ w) (ndec 25 2)) = Some (w / 4)%Z.
Proof.
  intros Hw. unfold ndec. cbn [ntrunc nmul ndiv nofZ NumR]. f_equal.
  replace (IZR w * (25 / IZR (10 ^ 2))) with (IZR w / IZR 4) by (change (10 ^ 2)%Z with 100%Z; lra).
  apply Rtrunc_div; lia.
Qed.

Lemma ntrunc_p_quarter p w : (0 <= w)%Z ->
  ntrunc (nmul (nofnat p) (nmul (nofZ w) (ndec 25 2))) = Some (Z.of_nat p * w / 4)%Z.
Proof.
  intros Hw. unfold ndec, nofnat. cbn [ntrunc nmul ndiv nofZ NumR]. f_equal.
  replace (IZR (Z.of_nat p) * (IZR w * (25 / IZR (10 ^ 2)))) with (IZR (Z.of_nat p * w) / IZR 4)
    by (rewrite mult_IZR; change (10 ^ 2)%Z with 100%Z; lra).
  apply Rtrunc_div; lia.
Qed.

(** left-fold sums *)
Lemma fold_add_acc (l : list R) a : fold_left Rplus l a = a + fold_left Rplus l 0.
Proof.
  revert a; induction l as [|x l IH]; intros a; simpl; [lra|].
  rewrite IH, (IH (0 + x)). lra.
Qed.
Fixpoint rsum (l : list R) : R := match l with [] => 0 | x :: t => x + rsum t end.
Lemma nsum_rsum (l : list R) : nsum l = rsum l.
Proof.
  unfold nsum. change nadd with Rplus. change (n0 : R) with 0.
  induction l as [|x l IH]; [reflexivity|]. cbn [fold_left rsum]. rewrite fold_add_acc, IH. lra.
Qed.
Lemma rsum_app l m : rsum (l ++ m) = rsum l + rsum m.
Proof. induction l as [|x l IH]; simpl; [lra|rewrite IH; lra]. Qed.
Lemma rsum_nonneg l : (forall x, In x l -> 0 <= x) -> 0 <= rsum l.
Proof.
  induction l as [|x l IH]; intros H; simpl; [lra|].
  assert (0 <= x) by (apply H; left; reflexivity).
  assert (0 <= rsum l) by (apply IH; intros y Hy; apply H; right; assumption). lra.
Qed.
Lemma rsum_scale c l : rsum (map (fun x => c * x) l) = c * rsum l.
Proof. induction l as [|x l IH]; simpl; [lra|rewrite IH; lra]. Qed.
Lemma rsum_const c l : rsum (map (fun _ : nat => c) l) = INR (length l) * c.
Proof. induction l as [|x l IH]; [simpl; lra|]. cbn [map rsum length]. rewrite IH, S_INR. lra. Qed.
Lemma rsum_plus {A} (f g : A -> R) l : rsum (map (fun x => f x + g x) l) = rsum (map f l) + rsum (map g l).
Proof. induction l as [|x l IH]; simpl; [lra|rewrite IH; lra]. Qed.
Lemma rsum_le {A} (f g : A -> R) l : (forall x, In x l -> f x <= g x) -> rsum (map f l) <= rsum (map g l).
Proof.
  induction l as [|x l IH]; intros H; simpl; [lra|].
  assert (f x <= g x) by (apply H; left; reflexivity).
  assert (rsum (map f l) <= rsum (map g l)) by (apply IH; intros y Hy; apply H; right; assumption). lra.
Qed.

Lemma nofnat_INR n : nofnat n = INR n.
Proof. unfold nofnat. cbn [nofZ NumR]. symmetry. apply INR_IZR_INZ. Qed.

(** maxima and minima *)
Lemma nmax_Rmax a b : nmax a b = Rmax a b.
Proof.
  unfold nmax. cbn [nltb NumR]. destruct (Rltb_spec a b).
  - rewrite Rmax_right; lra.
  - rewrite Rmax_left; lra.
Qed.
Lemma nmin_Rmin a b : nmin a b = Rmin a b.
Proof.
  unfold nmin. cbn [nltb NumR]. destruct (Rltb_spec b a).
  - rewrite Rmin_right; lra.
  - rewrite Rmin_left; lra.
Qed.

Lemma max_elem_from_spec (l : list R) b :
  let m := max_elem_from b l in (m = b \/ In m l) /\ b <= m /\ forall x, In x l -> x <= m.
Proof.
  revert b; induction l as [|y l IH]; intros b; cbn [max_elem_from].
  - split; [left; reflexivity|]. split; [lra|]. intros x [].
  - destruct (IH (if nltb b y then y else b)) as (H1 & H2 & H3). cbn [nltb NumR] in *.
    destruct (Rltb_spec b y) as [G|G].
    + split; [destruct H1 as [H1|H1]; [right; left; rewrite H1; reflexivity | right; right; assumption]|].
      split; [lra|]. intros x [<-|Hx]; [assumption|auto].
    + split; [destruct H1 as [H1|H1]; [left; rewrite H1; reflexivity | right; right; assumption]|].
      split; [lra|]. intros x [<-|Hx]; [lra|auto].
Qed.
Lemma max_elem_spec (l : list R) m : max_elem l = Ret m -> In m l /\ forall x, In x l -> x <= m.
Proof.
  destruct l as [|a l]; [discriminate|]. cbn [max_elem]. intros [= <-].
  destruct (max_elem_from_spec l a) as (H1 & H2 & H3). split.
  - destruct H1 as [H1|H1]; [left; auto|right; assumption].
  - intros x [<-|Hx]; auto.
Qed.
Lemma min_elem_from_spec (l : list R) b :
  let m := min_elem_from b l in (m = b \/ In m l) /\ m <= b /\ forall x, In x l -> m <= x.
Proof.
  revert b; induction l as [|y l IH]; intros b; cbn [min_elem_from].
  - split; [left; reflexivity|]. split; [lra|]. intros x [].
  - destruct (IH (if nltb y b then y else b)) as (H1 & H2 & H3). cbn [nltb NumR] in *.
    destruct (Rltb_spec y b) as [G|G].
    + split; [destruct H1 as [H1|H1]; [right; left; rewrite H1; reflexivity | right; right; assumption]|].
      split; [lra|]. intros x [<-|Hx]; [assumption|auto].
    + split; [destruct H1 as [H1|H1]; [left; rewrite H1; reflexivity | right; right; assumption]|].
      split; [lra|]. intros x [<-|Hx]; [lra|auto].
Qed.
Lemma min_elem_spec (l : list R) m : min_elem l = Ret m -> In m l /\ forall x, In x l -> m <= x.
Proof.
  destruct l as [|a l]; [discriminate|]. cbn [min_elem]. intros [= <-].
  destruct (min_elem_from_spec l a) as (H1 & H2 & H3). split.
  - destruct H1 as [H1|H1]; [left; auto|right; assumption].
  - intros x [<-|Hx]; auto.
Qed.
