(** Binary64 scores that may be as large as 2^162: the matching still returns (used for C99). *)
From Coq Require Import ZArith Bool Reals Lra Lia Floats.
From Flocq Require Import Core.Core IEEE754.BinarySingleNaN IEEE754.PrimFloat.
From Verif Require Import Base.Num Base.NumR Base.NumF Proofs.B64P Proofs.MatchP Proofs.OptimalP Proofs.ScoresP Proofs.BoundP.
Open Scope R_scope.

Lemma rnd_near_max_big v : Rabs v <= fmax_finite + bpow radix2 200 -> Rabs (rnd v) < fmax.
Proof.
  intros H. assert (B : bpow radix2 200 < bpow radix2 970) by (apply bpow_lt; reflexivity).
  pose proof (bpow_gt_0 radix2 970) as P970.
  assert (B2 : bpow radix2 971 = 2 * bpow radix2 970).
  { change 971%Z with (1 + 970)%Z. now rewrite bpow_plus. }
  rewrite fmax_eq. destruct (Req_dec v 0) as [->|Hv].
  { unfold rnd. rewrite round_0 by apply valid_rnd_N. rewrite Rabs_R0. pose proof (bpow_gt_0 radix2 970).
    assert (0 <= fmax_finite); [|lra]. unfold fmax_finite. apply Rmult_le_pos; [apply IZR_le; lia|apply bpow_ge_0]. }
  assert (E : Rabs (rnd v - v) <= / 2 * bpow radix2 971).
  { eapply Rle_trans; [apply error_le_half_ulp; apply (fexp_correct prec emax); exact Hprec64|].
    apply Rmult_le_compat_l; [lra|]. rewrite ulp_neq_0 by exact Hv. apply bpow_le. unfold cexp.
    assert (M : (mag radix2 v <= 1024)%Z).
    { apply mag_le_bpow; [exact Hv|]. change (bpow radix2 1024) with fmax. rewrite fmax_eq. lra. }
    unfold SpecFloat.fexp, SpecFloat.emin. change prec with 53%Z. change emax with 1024%Z. lia. }
  replace (rnd v) with (v + (rnd v - v)) by ring. eapply Rle_lt_trans; [apply Rabs_triang|]. lra.
Qed.

Definition sc : R := bpow radix2 (-162).
Lemma sc_pos0 : 0 < sc. Proof. apply bpow_gt_0. Qed.
Lemma sc_abs x k : Rabs (x * sc) <= IZR k <-> Rabs x <= IZR k * bpow radix2 162.
Proof.
  assert (E : sc * bpow radix2 162 = 1) by (unfold sc; rewrite <- bpow_plus; reflexivity).
  rewrite Rabs_mult, (Rabs_pos_eq sc) by (left; apply sc_pos0). pose proof sc_pos0 as P. pose proof (bpow_gt_0 radix2 162) as Q. split; intros H.
  - replace (Rabs x) with (Rabs x * sc * bpow radix2 162) by (rewrite Rmult_assoc, E; ring). apply Rmult_le_compat_r; lra.
  - replace (IZR k) with (IZR k * bpow radix2 162 * sc) by (rewrite Rmult_assoc, (Rmult_comm _ sc), E; ring). apply Rmult_le_compat_r; lra.
Qed.

Lemma add_bounded_big (k : Z) s x : (0 <= k < 2 ^ 50)%Z -> fin s -> Rabs (FR s * sc) <= 2 -> fin x -> Rabs (FR x * sc) <= IZR (2 * k) ->
  FR (PrimFloat.add s x) = rnd (FR s + FR x) /\ fin (PrimFloat.add s x) /\ Rabs (rnd (FR s + FR x) * sc) <= IZR (2 * (k + 1)).
Proof.
  intros Hk Fs Hs Fx Hx. rewrite (sc_abs _ 2) in Hs. rewrite sc_abs in Hx. rewrite sc_abs.
  assert (B : Rabs (rnd (FR s + FR x)) <= IZR (2 * (k + 1)) * bpow radix2 162).
  { apply rnd_scaled; [lia|lia|]. apply Rle_trans with (1 := Rabs_triang _ _). replace (2 * (k + 1))%Z with (2 + 2 * k)%Z by lia. rewrite plus_IZR. lra. }
  destruct (FR_add s x Fs Fx) as [E F]; [|auto].
  apply Rle_lt_trans with (1 := B). apply Rlt_le_trans with (bpow radix2 53 * bpow radix2 162).
  - apply Rmult_lt_compat_r; [apply bpow_gt_0|]. change (bpow radix2 53) with (IZR (2 ^ 53)). apply IZR_lt. lia.
  - unfold fmax. rewrite <- bpow_plus. apply bpow_le. change emax with 1024%Z. lia.
Qed.

Definition scoresBig : scores PrimFloat.float.
Proof.
  pose proof sc_pos0 as P.
  refine (MkScores PrimFloat.float NumF (fun x => FR x * sc) fin _ _ _ _ _ _).
  - intros a b Fa Fb. cbn [nltb NumF]. rewrite FR_ltb by assumption.
    destruct (Rlt_bool_spec (FR a) (FR b)) as [H|H]; split; intros G; try discriminate; try reflexivity.
    + apply Rmult_lt_compat_r; assumption.
    + exfalso. apply Rmult_lt_reg_r in G; [lra|exact P].
  - destruct (FR_ofZ 0 ltac:(lia)) as [E F]. split; [exact F|]. cbn [nofZ NumF]. change (@n0 PrimFloat.float NumF) with (F_ofZ 0). rewrite E. ring.
  - intros k s x Hk Fs Hs Fx Hx. destruct (add_bounded_big k s x Hk Fs Hs Fx Hx) as (E & F & B). cbn [nadd NumF]. rewrite E. auto.
  - intros k s x y Hk Fs Hs Fx Hx Fy Hy H.
    destruct (add_bounded_big k s x Hk Fs Hs Fx Hx) as (Ex & _). destruct (add_bounded_big k s y Hk Fs Hs Fy Hy) as (Ey & _).
    cbn [nadd NumF]. rewrite Ex, Ey. apply Rmult_le_compat_r; [lra|]. apply rnd_le. apply Rmult_le_reg_r in H; [lra|exact P].
  - intros k s x Hk Fs Hs Fx Hx Ps Px. destruct (add_bounded_big k s x Hk Fs Hs Fx Hx) as (E & _).
    cbn [nadd NumF]. rewrite E.
    assert (S1 : 0 < FR s) by (apply Rmult_lt_reg_r with sc; [exact P|lra]). assert (X1 : 0 <= FR x) by (apply Rmult_le_reg_r with sc; [exact P|lra]).
    apply Rmult_lt_0_compat; [|exact P]. apply Rlt_le_trans with (FR s); [exact S1|]. rewrite <- (rnd_FR s) at 1. apply rnd_le. lra.
  - destruct lowest_F as [Fl El]. split; [exact Fl|]. rewrite El.
    assert (BIG : bpow radix2 1023 <= fmax_finite).
    { unfold fmax_finite. change 1023%Z with (52 + 971)%Z. rewrite bpow_plus. apply Rmult_le_compat_r; [apply bpow_ge_0|]. change (bpow radix2 52) with (IZR (2 ^ 52)). apply IZR_le. lia. }
    assert (G : forall z, z <= - bpow radix2 1022 -> z * sc < - IZR (2 ^ 60)).
    { intros z Hz. apply Rle_lt_trans with (- bpow radix2 1022 * sc); [apply Rmult_le_compat_r; lra|]. unfold sc. rewrite Ropp_mult_distr_l_reverse, <- bpow_plus.
      apply Ropp_lt_contravar. change (IZR (2 ^ 60)) with (bpow radix2 60). apply bpow_lt. reflexivity. }
    assert (DB : bpow radix2 1023 = 2 * bpow radix2 1022) by (change 1023%Z with (1 + 1022)%Z; rewrite bpow_plus; reflexivity).
    pose proof (bpow_gt_0 radix2 1022) as P22.
    split; [apply G; lra|]. intros s Fs Hs. rewrite (sc_abs _ 2) in Hs.
    assert (H2 : 2 * bpow radix2 162 = bpow radix2 163) by (change 163%Z with (1 + 162)%Z; rewrite bpow_plus; reflexivity). rewrite H2 in Hs.
    assert (H3 : bpow radix2 163 <= bpow radix2 200) by (apply bpow_le; lia). assert (H4 : bpow radix2 163 <= bpow radix2 1022) by (apply bpow_le; lia).
    apply Rabs_le_inv in Hs.
    assert (FP : 0 <= fmax_finite) by (apply Rle_trans with (2 := BIG), bpow_ge_0).
    destruct (FR_add s nlowest Fs Fl) as [E F].
    + apply rnd_near_max_big. rewrite El. apply Rabs_le. lra.
    + cbn [nadd NumF]. split; [exact F|]. rewrite E, El. apply G.
      rewrite <- (rnd_exact (-1) 1022 (- bpow radix2 1022)) by (lia || lra). apply rnd_le. lra.
Defined.
