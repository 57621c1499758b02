(** Exact reals and binary64 meet the requirements of Proofs/OptimalP.v. *)
From Coq Require Import ZArith Bool Reals Lra Lia Floats.
From Flocq Require Import Core.Core IEEE754.BinarySingleNaN IEEE754.PrimFloat.
From Verif Require Import Base.Num Base.NumR Base.NumF Proofs.B64P Proofs.MatchP Proofs.OptimalP.
Open Scope R_scope.

(** *** exact reals *)
Lemma lowest_R : (nlowest : R) < - IZR (2 ^ 60) - 2.
Proof.
  cbn [nlowest NumR]. apply Ropp_lt_cancel. rewrite Ropp_involutive.
  replace (- (- IZR (2 ^ 60) - 2)) with (IZR (2 ^ 60 + 2)) by (rewrite plus_IZR; lra).
  apply IZR_lt. reflexivity.
Qed.
Lemma counts_exact_R : counts_exact (T:=R).
Proof.
  intros i h n _ _ _. unfold ngtb. cbn [nltb nsub nofZ NumR]. rewrite <- minus_IZR.
  destruct (Z.ltb_spec n (i - h)) as [H|H].
  - apply Rltb_true. now apply IZR_lt.
  - apply Rltb_false. now apply IZR_le.
Qed.
Definition scoresR : scores R.
Proof.
  refine (MkScores R NumR (fun x => x) (fun _ => True) _ _ _ _ _ _).
  - intros a b _ _. apply Rltb_true.
  - split; [exact I|reflexivity].
  - intros k s x Hk _ Hs _ Hx. split; [exact I|]. cbn [nadd NumR].
    eapply Rle_trans; [apply Rabs_triang|]. rewrite mult_IZR in *. rewrite plus_IZR. lra.
  - intros k s x y _ _ _ _ _ _ _ H. cbn [nadd NumR]. lra.
  - intros k s x _ _ _ _ _ H H'. cbn [nadd NumR]. lra.
  - pose proof lowest_R. split; [exact I|]. split; [lra|]. intros s _ Hs. split; [exact I|].
    cbn [nadd NumR]. apply Rabs_le_inv in Hs. lra.
Defined.

(** *** binary64 *)
Lemma rnd_le x y : x <= y -> rnd x <= rnd y.
Proof.
  apply round_le; [|apply valid_rnd_N]. apply (fexp_correct prec emax). exact Hprec64.
Qed.
Lemma rnd_abs y m : (Z.abs m < 2 ^ 53)%Z -> Rabs y <= IZR m -> Rabs (rnd y) <= IZR m.
Proof.
  intros Hm H. apply Rabs_le. apply Rabs_le_inv in H. destruct H as [H1 H2].
  apply rnd_le in H1. apply rnd_le in H2. rewrite rnd_Z in H2 by exact Hm.
  rewrite <- opp_IZR in H1. rewrite rnd_Z in H1 by lia. rewrite opp_IZR in H1. lra.
Qed.
Lemma rnd_FR x : rnd (FR x) = FR x.
Proof. apply round_generic; [apply valid_rnd_N|]. apply generic_format_B2R. Qed.

Definition fmax_finite : R := IZR (2 ^ 53 - 1) * bpow radix2 971.
Lemma fmax_eq : fmax = fmax_finite + bpow radix2 971.
Proof.
  unfold fmax, fmax_finite. change emax with (53 + 971)%Z. rewrite bpow_plus.
  change (bpow radix2 53) with (IZR (2 ^ 53)). rewrite minus_IZR. ring.
Qed.
Lemma rnd_near_max v : Rabs v <= fmax_finite + 2 -> Rabs (rnd v) < fmax.
Proof.
  intros H. assert (B : 2 < bpow radix2 970).
  { change 2 with (bpow radix2 1). apply bpow_lt. reflexivity. }
  assert (B2 : bpow radix2 971 = 2 * bpow radix2 970).
  { change 971%Z with (1 + 970)%Z. now rewrite bpow_plus. }
  rewrite fmax_eq. destruct (Req_dec v 0) as [->|Hv].
  { unfold rnd. rewrite round_0 by apply valid_rnd_N. rewrite Rabs_R0.
    assert (0 <= fmax_finite); [|lra]. unfold fmax_finite. apply Rmult_le_pos; [apply IZR_le; lia|apply bpow_ge_0]. }
  assert (E : Rabs (rnd v - v) <= / 2 * bpow radix2 971).
  { eapply Rle_trans; [apply error_le_half_ulp; apply (fexp_correct prec emax); exact Hprec64|].
    apply Rmult_le_compat_l; [lra|]. rewrite ulp_neq_0 by exact Hv. apply bpow_le. unfold cexp.
    assert (M : (mag radix2 v <= 1024)%Z).
    { apply mag_le_bpow; [exact Hv|]. change (bpow radix2 1024) with fmax. rewrite fmax_eq. lra. }
    unfold SpecFloat.fexp, SpecFloat.emin. change prec with 53%Z. change emax with 1024%Z. lia. }
  replace (rnd v) with (v + (rnd v - v)) by ring. eapply Rle_lt_trans; [apply Rabs_triang|]. lra.
Qed.

Lemma lowest_F : fin nlowest /\ FR nlowest = - fmax_finite.
Proof.
  split; [reflexivity|]. unfold FR. change (nlowest : PrimFloat.float) with F_lowest. unfold F_lowest.
  replace (Prim2B _) with (B754_finite (prec:=prec) (emax:=emax) true 9007199254740991 971 eq_refl) by (apply B2SF_inj; reflexivity).
  cbn [B2R]. unfold F2R. cbn [Fnum Fexp cond_Zopp]. unfold fmax_finite. change (2 ^ 53 - 1)%Z with 9007199254740991%Z.
  rewrite opp_IZR. ring.
Qed.
Lemma fmax_finite_big : IZR (2 ^ 62) + 2 < fmax_finite.
Proof.
  unfold fmax_finite. rewrite <- (Rmult_1_l (IZR (2 ^ 62) + 2)).
  apply Rmult_le_0_lt_compat; [lra| |apply IZR_lt; lia|].
  - assert (0 <= IZR (2 ^ 62)) by (apply IZR_le; lia). lra.
  - apply Rlt_trans with (bpow radix2 63); [|apply bpow_lt; lia].
    change (bpow radix2 63) with (IZR (2 ^ 63)). rewrite <- plus_IZR. apply IZR_lt. lia.
Qed.

Lemma add_bounded (k : Z) s x : (0 <= k < 2 ^ 50)%Z -> fin s -> Rabs (FR s) <= 2 -> fin x ->
  Rabs (FR x) <= IZR (2 * k) ->
  FR (PrimFloat.add s x) = rnd (FR s + FR x) /\ fin (PrimFloat.add s x) /\
  Rabs (rnd (FR s + FR x)) <= IZR (2 * (k + 1)).
Proof.
  intros Hk Fs Hs Fx Hx.
  assert (B : Rabs (rnd (FR s + FR x)) <= IZR (2 * (k + 1))).
  { apply rnd_abs; [lia|]. eapply Rle_trans; [apply Rabs_triang|]. rewrite mult_IZR in *. rewrite plus_IZR. lra. }
  destruct (FR_add s x Fs Fx) as [E F].
  - eapply Rle_lt_trans; [exact B|]. rewrite <- (Rabs_pos_eq (IZR (2 * (k + 1)))) by (apply IZR_le; lia).
    apply IZR_lt_fmax. lia.
  - auto.
Qed.

Definition scoresF : scores PrimFloat.float.
Proof.
  refine (MkScores PrimFloat.float NumF FR fin _ _ _ _ _ _).
  - intros a b Fa Fb. cbn [nltb NumF]. rewrite FR_ltb by assumption.
    destruct (Rlt_bool_spec (FR a) (FR b)); split; intros; auto; try discriminate; lra.
  - destruct (FR_ofZ 0 ltac:(lia)). auto.
  - intros k s x Hk Fs Hs Fx Hx. destruct (add_bounded k s x Hk Fs Hs Fx Hx) as (E & F & B).
    cbn [nadd NumF]. rewrite E. auto.
  - intros k s x y Hk Fs Hs Fx Hx Fy Hy H.
    destruct (add_bounded k s x Hk Fs Hs Fx Hx) as (Ex & _). destruct (add_bounded k s y Hk Fs Hs Fy Hy) as (Ey & _).
    cbn [nadd NumF]. rewrite Ex, Ey. apply rnd_le. lra.
  - intros k s x Hk Fs Hs Fx Hx Ps Px. destruct (add_bounded k s x Hk Fs Hs Fx Hx) as (E & _).
    cbn [nadd NumF]. rewrite E. apply Rlt_le_trans with (FR s); [exact Ps|].
    rewrite <- (rnd_FR s) at 1. apply rnd_le. lra.
  - destruct lowest_F as [Fl El]. pose proof fmax_finite_big as B. split; [exact Fl|]. rewrite El.
    assert (IZR (2 ^ 60) < IZR (2 ^ 62)) by (apply IZR_lt; reflexivity).
    split; [lra|]. intros s Fs Hs. apply Rabs_le_inv in Hs.
    destruct (FR_add s nlowest Fs Fl) as [E F].
    + apply rnd_near_max. rewrite El. apply Rabs_le. lra.
    + cbn [nadd NumF]. split; [exact F|]. rewrite E, El.
      apply Rle_lt_trans with (rnd (- IZR (2 ^ 62))); [apply rnd_le; lra|].
      rewrite (rnd_exact (-1) 62) by (lia || (change (bpow radix2 62) with (IZR (2 ^ 62)); lra)).
      apply Ropp_lt_contravar. apply IZR_lt. reflexivity.
Defined.
Lemma counts_exact_F : counts_exact (T:=PrimFloat.float).
Proof.
  intros i h n Hi Hh Hn. unfold ngtb. cbn [nltb nsub nofZ NumF].
  destruct (FR_ofZ i ltac:(lia)) as [Ri Fi]. destruct (FR_ofZ h ltac:(lia)) as [Rh Fh].
  destruct (FR_ofZ n ltac:(lia)) as [Rn Fn].
  destruct (FR_sub _ _ Fi Fh) as [E F].
  - rewrite Ri, Rh, <- minus_IZR, rnd_Z by lia. apply IZR_lt_fmax. lia.
  - rewrite FR_ltb by assumption. rewrite E, Ri, Rh, Rn, <- minus_IZR, rnd_Z by lia.
    destruct (Z.ltb_spec n (i - h)) as [H|H].
    + apply Rlt_bool_true. now apply IZR_lt.
    + apply Rlt_bool_false. now apply IZR_le.
Qed.
