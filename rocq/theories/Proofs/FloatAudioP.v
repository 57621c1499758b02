(** 16-bit samples and level matching in binary64 (C44, C46). *)
From Coq Require Import ZArith List Bool Reals Lra Floats Lia.
From Flocq Require Import Core.Core.
From Verif Require Import Base.Res Base.Num Base.NumF Model.Amatrix Model.MiscMath Model.FilterBank Model.MiscAudio
  Proofs.B64P.
Import ListNotations.
#[local] Notation float := PrimFloat.float.
Open Scope Z_scope.

Lemma int16_exact z : -32768 <= z < 32768 ->
  ntrunc (nmul (abs_scale (T:=float) z) (nofZ 32768)) = Some z /\
  nleb (nofZ (-1)) (abs_scale (T:=float) z) = true /\ nltb (abs_scale (T:=float) z) n1 = true.
Proof.
  intros H. cbn [ntrunc nmul nleb nltb nofZ n1 NumF].
  destruct (FR_ofZ z ltac:(lia)) as [Rz Fz]. destruct (FR_ofZ 32768 ltac:(lia)) as [Rk Fk].
  destruct (FR_ofZ (-1) ltac:(lia)) as [Ro Fo]. destruct (FR_ofZ 1 ltac:(lia)) as [R1' F1].
  assert (Hd : rnd (IZR z / 32768) = (IZR z / 32768)%R).
  { apply (rnd_exact z (-15)); [change (bpow radix2 (-15)) with (/ 32768)%R; reflexivity|lia|lia]. }
  assert (HR : (-1 <= IZR z / 32768 < 1)%R).
  { destruct H as [H1 H2]. apply IZR_le in H1. apply IZR_lt in H2. lra. }
  assert (Hs : FR (abs_scale z) = (IZR z / 32768)%R /\ fin (abs_scale z)).
  { unfold abs_scale. cbn [ndiv nofZ NumF]. destruct (FR_div (F_ofZ z) (F_ofZ 32768)) as [E F]; auto.
    - rewrite Rk. lra.
    - rewrite Rz, Rk, Hd. apply Rlt_trans with (Rabs (IZR 2)); [|apply IZR_lt_fmax; lia].
      rewrite (Rabs_pos_eq 2) by lra. apply Rabs_def1; lra.
    - rewrite E, Rz, Rk. auto. }
  destruct Hs as [Rs Fs]. split; [|split].
  - assert (E : (IZR z / 32768 * 32768 = IZR z)%R) by field.
    destruct (FR_mul (abs_scale z) (F_ofZ 32768)) as [Em Fm]; auto; rewrite Rs, Rk, E, ?rnd_Z in * by lia.
    + apply IZR_lt_fmax. lia.
    + now rewrite F_trunc_spec, Em, Ztrunc_IZR.
  - rewrite FR_leb, Ro, Rs by auto. apply Rle_bool_true. lra.
  - rewrite FR_ltb, R1', Rs by auto. apply Rlt_bool_true. lra.
Qed.

(** a silent degraded signal; the first two hypotheses are what C99 Annex F prescribes for log10(0) and
    pow(10, inf) *)
Lemma silent_nan (L : Libm float) (ref : audio float) (n : Z) :
  mlog10 0%float = neg_infinity -> mpow10 infinity = infinity -> is_finite (sound_pressure_level ref) = true ->
  exists x, au_data (scale_to_match_spl ref (MkAudio [0; 0]%float n)) = [x; x] /\ is_nan x = true.
Proof.
  intros H1 H2 H3. unfold scale_to_match_spl. cbn [au_data map].
  set (f := spl_scale_factor _ _). exists (nmul 0%float f). split; [reflexivity|].
  assert (E : f = infinity).
  { unfold f, spl_scale_factor. revert H3. generalize (sound_pressure_level ref). intros v Hv.
    unfold sound_pressure_level. cbn [au_data].
    change (ndiv (nsqrt (ndiv (nsum (map nsq [0; 0]%float)) (nofnat (length [0; 0]%float)))) kSplReferencePoint)
      with 0%float.
    rewrite H1. replace (ndiv _ _) with infinity; [exact H2|]. symmetry.
    cbn [nmul nsub ndiv nofZ NumF].
    apply Prim2SF_inj. rewrite div_spec, sub_spec, mul_spec.
    change (Prim2SF neg_infinity) with (S754_infinity true). change (Prim2SF infinity) with (S754_infinity false).
    change (Prim2SF (F_ofZ 20)) with (S754_finite false 5629499534213120 (-48)).
    assert (NF : match Prim2SF v with S754_zero _ | S754_finite _ _ _ => True | _ => False end).
    { revert Hv. unfold is_finite, is_nan, is_infinity.
      rewrite !eqb_spec, abs_spec. change (Prim2SF infinity) with (S754_infinity false).
      destruct (Prim2SF v) as [s|[]| |s m e]; cbn; try discriminate; auto. }
    destruct (Prim2SF v) as [s|s| |s m e]; try contradiction; reflexivity. }
  rewrite E. reflexivity.
Qed.
