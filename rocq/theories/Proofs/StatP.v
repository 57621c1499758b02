(** The model's means and variances are the textbook ones, over exact reals. *)
From Coq Require Import ZArith List Bool Reals Lra Lia Arith.
From Verif Require Import Base.Res Base.Num Base.NumR Base.Lists Base.Mat Model.Amatrix
  Spec.StatSpec Proofs.RealP.
Import ListNotations.
Open Scope R_scope.

Lemma total_rsum l : total l = rsum l.
Proof. induction l as [|x l IH]; [reflexivity|]. unfold total in *. cbn. rewrite IH. reflexivity. Qed.
Lemma vmean_mean (l : list R) : vmean l = mean l.
Proof. unfold vmean. rewrite nsum_rsum, nofnat_INR. unfold mean. rewrite (total_rsum l). reflexivity. Qed.

Lemma rsum_dev l m : rsum (map (fun x => m - x) l) = INR (length l) * m - rsum l.
Proof.
  induction l as [|x l IH]; [cbn; lra|]. cbn [map rsum]. rewrite IH. cbn [length]. rewrite S_INR. cbn. lra.
Qed.
Lemma rsum_dev_mean l : (0 < length l)%nat -> rsum (map (fun x => mean l - x) l) = 0.
Proof.
  intros H. rewrite rsum_dev. unfold mean. rewrite total_rsum. assert (0 < INR (length l)) by (apply lt_0_INR; lia).
  field. lra.
Qed.

Lemma vvar_variance (l : list R) : vvar l = variance l.
Proof.
  unfold variance. destruct l as [|x [|y l]]; try reflexivity.
  unfold vvar. cbn [Nat.ltb Nat.leb length]. fold (length l).
  set (L := x :: y :: l). rewrite vmean_mean, !nsum_rsum, !nofnat_INR.
  assert (HL : (2 <= length L)%nat) by (cbn; lia).
  change (fun x0 : R => nsub (mean L) x0) with (fun x0 => mean L - x0).
  rewrite rsum_dev_mean by lia. rewrite map_map. change total with rsum.
  change (S (S (length l))) with (length L). 
  cbn [nsub ndiv nmul NumR].
  replace (INR (length L - 1)) with (INR (length L) - 1) by (rewrite minus_INR by lia; reflexivity).
  replace (map (fun x0 : R => nsq (mean L - x0)) L) with (map (fun x0 => (x0 - mean L) * (x0 - mean L)) L).
  2:{ apply map_ext. intros a. unfold nsq. cbn. lra. }
  f_equal. assert (2 <= INR (length L)) by (apply (le_INR 2); exact HL). field. lra.
Qed.
Lemma stddev_vvar (l : list R) : nsqrt (vvar l) = stddev l.
Proof. rewrite vvar_variance. reflexivity. Qed.

Lemma variance_nonneg l : 0 <= variance l.
Proof.
  unfold variance. destruct (Nat.ltb_spec (length l) 2) as [|H]; [lra|].
  apply Rmult_le_pos.
  - rewrite total_rsum. apply rsum_nonneg. intros x Hx. apply in_map_iff in Hx. destruct Hx as (a & <- & _).
    apply Rle_0_sqr.
  - left. apply Rinv_0_lt_compat. apply (le_INR 2) in H. cbn in H. lra.
Qed.
