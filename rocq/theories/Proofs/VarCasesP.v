(** The sample variance of at most 64 numbers is never negative in binary64 (C118): the statements. *)
From Coq Require Import ZArith List Bool Reals Lra Lia Floats.
From Flocq Require Import Core.Core IEEE754.BinarySingleNaN IEEE754.PrimFloat.
From Verif Require Import Base.Num Base.NumR Base.NumF Base.Mat Model.Amatrix Spec.VarSpec Proofs.B64P Proofs.BoundP Proofs.StableBankP Proofs.VarP.
Import ListNotations.

Lemma ordinary_moderate x : ordinary x -> moderate x.
Proof.
  assert (Z0 : (0 <= bpow radix2 100)%R) by apply bpow_ge_0.
  intros [H|[H1 H2]].
  - rewrite eqb_equiv in H. unfold moderate, bd, fin, FR.
    destruct (Prim2B x) as [s|[]| |s m e b]; try discriminate; [|destruct s; discriminate]. cbn. rewrite Rabs_R0. split; [split; [reflexivity|exact Z0]|left; reflexivity].
  - assert (Fx : fin x) by (revert H2; unfold fin; rewrite leb_equiv, abs_equiv; destruct (Prim2B x) as [s|[]| |s m e b]; [reflexivity|discriminate|discriminate|discriminate|reflexivity]).
    assert (FA : fin (PrimFloat.abs x) /\ FR (PrimFloat.abs x) = Rabs (FR x)) by (unfold fin, FR; rewrite abs_equiv; split; [rewrite is_finite_Babs; exact Fx|apply B2R_Babs]).
    destruct FA as [FA EA].
    assert (Fl : fin 0x1p-250) by reflexivity. assert (Fh : fin 0x1p100) by reflexivity.
    assert (El : FR 0x1p-250 = bpow radix2 (-250)) by (eapply FR_pow; reflexivity). assert (Eh : FR 0x1p100 = bpow radix2 100) by (eapply FR_pow; reflexivity).
    rewrite FR_leb in H1, H2 by assumption. rewrite EA, El in H1. rewrite EA, Eh in H2.
    destruct (Rle_bool_spec (bpow radix2 (-250)) (Rabs (FR x))); [|discriminate]. destruct (Rle_bool_spec (Rabs (FR x)) (bpow radix2 100)); [|discriminate].
    split; [split; assumption|right; assumption].
Qed.
Lemma nonnegative_of k x : bd k x -> (0 <= FR x)%R -> nonnegative x.
Proof.
  intros [Fx _] P. split; [rewrite is_finite_equiv; exact Fx|]. destruct (FR_ofZ 0 ltac:(lia)) as [E0 F0]. change 0%float with (F_ofZ 0). rewrite FR_leb by assumption. rewrite E0. apply Rle_bool_true, P.
Qed.
Lemma ordinary_all l : Forall ordinary l -> Forall moderate l.
Proof. intros H. eapply Forall_impl; [|exact H]. exact ordinary_moderate. Qed.
Lemma variance_ordinary l : (1 <= length l <= 64)%nat -> Forall ordinary l -> nonnegative (vvar l).
Proof. intros HL H. destruct (variance_nonneg l HL (ordinary_all l H)) as [B P]. exact (nonnegative_of _ _ B P). Qed.
Lemma deviations_ordinary (M : mat PrimFloat.float) : wf M -> (1 <= nrows M)%nat -> (1 <= ncols M)%nat -> Forall ordinary (elems M) ->
  ((ncols M <= 64)%nat -> Forall nonnegative (elems (m_stddev_rows M))) /\ ((nrows M <= 64)%nat -> Forall nonnegative (elems (m_stddev_cols M))).
Proof.
  intros W N1 N2 H.
  assert (AT : forall r c, (r < nrows M)%nat -> (c < ncols M)%nat -> ordinary (at_ M r c)).
  { intros r c Hr Hc. rewrite Forall_forall in H. apply H. unfold at_, mget. apply nth_In. unfold wf in W. rewrite W. nia. }
  split; intros H64.
  - unfold m_stddev_rows. replace (Nat.eqb (ncols M) 0) with false by (symmetry; apply Nat.eqb_neq; lia). cbn [tab elems seq flat_map]. rewrite app_nil_r.
    apply Forall_forall. intros x Hx. apply in_map_iff in Hx. destruct Hx as (r & <- & Hr). apply in_seq in Hr.
    destruct (deviation_finite (row_list M r)) as [B P].
    + unfold row_list. rewrite map_length, seq_length. lia.
    + apply ordinary_all, Forall_forall. intros y Hy. unfold row_list in Hy. apply in_map_iff in Hy. destruct Hy as (c & <- & Hc). apply in_seq in Hc. apply AT; lia.
    + exact (nonnegative_of _ _ B P).
  - unfold m_stddev_cols. replace (Nat.eqb (nrows M) 0) with false by (symmetry; apply Nat.eqb_neq; lia). cbn [tab elems].
    apply Forall_forall. intros x Hx. apply in_flat_map in Hx. destruct Hx as (c & Hc & Hx). apply in_seq in Hc. cbn [seq map In] in Hx. destruct Hx as [<-|[]].
    destruct (deviation_finite (col_list M c)) as [B P].
    + unfold col_list. rewrite map_length, seq_length. lia.
    + apply ordinary_all, Forall_forall. intros y Hy. unfold col_list in Hy. apply in_map_iff in Hy. destruct Hy as (r & <- & Hr). apply in_seq in Hr. apply AT; lia.
    + exact (nonnegative_of _ _ B P).
Qed.
