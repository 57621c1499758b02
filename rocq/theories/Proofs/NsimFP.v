(** The structure denominator of the similarity map in binary64. *)
From Coq Require Import ZArith List Bool Reals Lra Lia Floats.
From Flocq Require Import Core.Core IEEE754.BinarySingleNaN IEEE754.PrimFloat.
From Verif Require Import Base.Res Base.Num Base.NumF Model.Nsim Proofs.B64P Proofs.ScoresP.
Open Scope R_scope.

Lemma c3_value : fin (nsim_c3 (T:=PrimFloat.float)) /\ 0 < FR (nsim_c3 (T:=PrimFloat.float)) < 1.
Proof.
  assert (F : fin (nsim_c3 (T:=PrimFloat.float))) by (vm_compute; reflexivity).
  assert (F0 : fin 0%float) by reflexivity. assert (F1 : fin 1%float) by reflexivity.
  assert (E0 : FR 0%float = 0) by reflexivity.
  assert (E1 : FR 1%float = 1). { destruct (FR_ofZ 1) as [A _]; [cbn; lia|]. exact A. }
  split; [exact F|]. split.
  - assert (H : PrimFloat.ltb 0 nsim_c3 = true) by reflexivity. rewrite (FR_ltb _ _ F0 F), E0 in H.
    revert H. case Rlt_bool_spec; [auto|discriminate].
  - assert (H : PrimFloat.ltb nsim_c3 1 = true) by reflexivity. rewrite (FR_ltb _ _ F F1), E1 in H.
    revert H. case Rlt_bool_spec; [auto|discriminate].
Qed.
Lemma sqrt_finite x : fin x -> PrimFloat.ltb x 0%float = false -> fin (PrimFloat.sqrt x) /\ 0 <= FR (PrimFloat.sqrt x) <= bpow radix2 512.
Proof.
  intros F H. split.
  - unfold fin in *. rewrite sqrt_equiv. destruct (Bsqrt_correct prec emax Hprec64 Hmax64 mode_NE (Prim2B x)) as (_ & E & _).
    etransitivity; [exact E|]. clear E. rewrite ltb_equiv in H. change (Prim2B 0%float) with (B754_zero false : binary_float prec emax) in H at 1.
    destruct (Prim2B x) as [s|s| |[|] m e Hb]; try reflexivity; try discriminate F. cbv in H. discriminate H.
  - rewrite FR_sqrt. split.
    + apply round_ge_generic; [apply (fexp_correct prec emax); exact Hprec64|apply valid_rnd_N|apply generic_format_0|apply sqrt_pos].
    + apply round_le_generic; [apply (fexp_correct prec emax); exact Hprec64|apply valid_rnd_N| |].
      * apply generic_format_bpow. reflexivity || (vm_compute; discriminate).
      * rewrite <- (sqrt_Rsqr (bpow radix2 512)) by apply bpow_ge_0. apply sqrt_le_1_alt. unfold Rsqr. rewrite <- bpow_plus.
        apply Rle_trans with (Rabs (FR x)); [apply Rle_abs|]. apply Rlt_le. unfold FR. apply (abs_B2R_lt_emax prec emax).
Qed.
Lemma denominator_positive (d : PrimFloat.float) : neqb d d = true ->
  nleb nsim_c3 (structure_denominator d) = true /\ nltb n0 (structure_denominator d) = true.
Proof.
  intros ND. unfold structure_denominator.
  assert (C : nltb n0 (nsim_c3 (T:=PrimFloat.float)) = true) by reflexivity.
  assert (K : forall y, fin y -> FR nsim_c3 <= FR y -> nleb nsim_c3 y = true /\ nltb n0 y = true).
  { intros y Fy Hy. destruct c3_value as (Fc & Hc). change (nleb nsim_c3 y) with (PrimFloat.leb nsim_c3 y).
    change (nltb n0 y) with (PrimFloat.ltb n0 y). rewrite (FR_leb _ _ Fc Fy).
    assert (F0 : fin (n0 (T:=PrimFloat.float)) /\ FR (n0 (T:=PrimFloat.float)) = 0).
    { destruct (FR_ofZ 0) as [A B]; [cbn; lia|]. split; [exact B|exact A]. }
    rewrite (FR_ltb _ _ (proj1 F0) Fy). split; [apply Rle_bool_true; exact Hy|apply Rlt_bool_true; rewrite (proj2 F0); lra]. }
  destruct (nltb d n0) eqn:N; [split; [reflexivity|exact C]|].
  destruct (is_finite (Prim2B d)) eqn:Fd.
  - destruct (sqrt_finite d Fd N) as (Fs & Hs). destruct c3_value as (Fc & Hc).
    assert (H9 : 0 <= FR (PrimFloat.sqrt d) + FR nsim_c3 <= bpow radix2 513).
    { replace (bpow radix2 513) with (bpow radix2 512 + bpow radix2 512).
      - assert (1 <= bpow radix2 512) by (apply (bpow_le radix2 0); lia). lra.
      - replace 513%Z with (512 + 1)%Z by reflexivity. rewrite bpow_plus. change (bpow radix2 1) with 2. ring. }
    destruct (FR_add (PrimFloat.sqrt d) nsim_c3 Fs Fc) as (E & Fa).
    { unfold fmax. rewrite Rabs_pos_eq.
      - apply Rle_lt_trans with (bpow radix2 513).
        + apply round_le_generic; [apply (fexp_correct prec emax); exact Hprec64|apply valid_rnd_N| |apply H9].
          apply generic_format_bpow. vm_compute; discriminate.
        + apply bpow_lt. reflexivity.
      - apply round_ge_generic; [apply (fexp_correct prec emax); exact Hprec64|apply valid_rnd_N|apply generic_format_0|apply H9]. }
    apply K; [exact Fa|]. change (nadd (nsqrt d) nsim_c3) with (PrimFloat.add (PrimFloat.sqrt d) nsim_c3). rewrite E.
    apply round_ge_generic; [apply (fexp_correct prec emax); exact Hprec64|apply valid_rnd_N|apply generic_format_B2R|lra].
  - assert (I : d = infinity).
    { change (nltb d n0) with (PrimFloat.ltb d 0%float) in N. change (neqb d d) with (PrimFloat.eqb d d) in ND.
      rewrite ltb_equiv in N. rewrite eqb_equiv in ND. rewrite <- (B2Prim_Prim2B d).
      destruct (Prim2B d) as [s|[|]| |s m e Hb]; try discriminate. reflexivity. }
    subst d. split; reflexivity.
Qed.
