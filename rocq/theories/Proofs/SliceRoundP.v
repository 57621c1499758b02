(** The audio taken for the second alignment of a matched pair (C96). *)
From Coq Require Import ZArith List Bool Reals Lra Lia Floats.
From Coq Require Import Psatz.
From Flocq Require Import Core.Core IEEE754.BinarySingleNaN IEEE754.PrimFloat.
From Verif Require Import Base.Res Base.Num Base.NumR Base.NumF Base.Lists Base.Mat Model.Amatrix Model.FilterBank Model.Alignment Model.Nsim Model.Selector
  Spec.AlignSpec Spec.MatchSpec Proofs.RealP Proofs.B64P Proofs.RoundP Proofs.AlignP Proofs.AlignCasesP Proofs.MatchAllP Proofs.MatchP.
Import ListNotations.
Open Scope R_scope.

Lemma near_ofZ z M : (Z.abs z < 2 ^ 53)%Z -> IZR (Z.abs z) <= M -> near (F_ofZ z) (IZR z) 0 M.
Proof.
  intros H HM. destruct (FR_ofZ z H) as [E F]. split; [exact F|]. rewrite E. split; [rewrite Rminus_diag_eq, Rabs_R0 by reflexivity; lra|]. rewrite Rabs_Zabs. exact HM.
Qed.

Section Times.
  Variables (k n h sr : Z).
  Hypotheses (Hk : (0 <= k)%Z) (Hn : (1 <= n)%Z) (Hh : (1 <= h)%Z) (Hs : (1 <= sr < 2 ^ 31)%Z) (Hb : ((k + n) * h < 2 ^ 31)%Z).
  Let fd : PrimFloat.float := PrimFloat.div (F_ofZ h) (F_ofZ sr).
  Let t1 := PrimFloat.mul (F_ofZ k) fd.
  Let t2 := PrimFloat.add t1 (PrimFloat.mul fd (F_ofZ n)).
  Let G : R := IZR h / IZR sr.
  Let A : R := IZR (k + n).

  Lemma kn_bounds : (k < 2 ^ 31)%Z /\ (n < 2 ^ 31)%Z /\ (h < 2 ^ 31)%Z.
  Proof. clear - Hk Hn Hh Hb. split; [|split]; nia. Qed.
  Lemma G_bounds : 1 / 3000000000 <= G <= 3000000000.
  Proof.
    clear - Hh Hs Hb Hk Hn. pose proof kn_bounds as (_ & _ & K). assert (1 <= IZR h <= 3000000000) by (split; apply IZR_le; lia). assert (1 <= IZR sr <= 3000000000) by (split; apply IZR_le; lia).
    assert (E : G * IZR sr = IZR h) by (unfold G; field; lra). split; apply Rmult_le_reg_r with (IZR sr); lra.
  Qed.
  Lemma A_bounds : 1 <= A <= 3000000000 /\ A * G * IZR sr <= 2147483648 /\ 0 <= IZR k <= A /\ 0 <= IZR n <= A.
  Proof.
    clear - Hh Hs Hb Hk Hn. unfold A. split; [split; apply IZR_le; nia|]. split.
    - unfold G. replace (IZR (k + n) * (IZR h / IZR sr) * IZR sr) with (IZR ((k + n) * h)) by (rewrite mult_IZR; field; apply Rgt_not_eq, IZR_lt; lia). apply IZR_le. lia.
    - repeat split; apply IZR_le; lia.
  Qed.
  Lemma near_fd : near fd G (u * G) G.
  Proof.
    pose proof G_bounds. pose proof tiny_small. pose proof big_large. pose proof u_pos. pose proof kn_bounds.
    assert (1 <= IZR sr) by (apply IZR_le; lia). assert (0 <= IZR h) by (apply IZR_le; lia).
    apply (near_div _ (IZR h) 0 (IZR h) _ (IZR sr) 0 (IZR sr) 1 G 0); try lra.
    - apply near_ofZ; [lia|apply IZR_le; lia].
    - apply near_ofZ; [lia|apply IZR_le; lia].
    - rewrite Rabs_pos_eq by lra. unfold G. right. field. lra.
  Qed.
  Lemma near_t1 : near t1 (IZR k * G) (3 * u * A * G) (A * G).
  Proof.
    pose proof G_bounds. pose proof A_bounds as (A1 & A2 & A3 & A4). pose proof tiny_small. pose proof big_large. pose proof u_pos. pose proof u_small. pose proof kn_bounds.
    assert (AG : 1 / 3000000000 <= A * G <= 9000000000000000000) by (split; nra).
    assert (KG : IZR k * G <= A * G) by (apply Rmult_le_compat_r; lra).
    apply near_weaken with (3 * u * A * G) (IZR k * G); [|lra|lra].
    apply (near_mul _ (IZR k) 0 (IZR k) _ G (u * G) G (u * A * G) (2 * A * G)).
    - apply near_ofZ; [lia|rewrite Z.abs_eq by lia; lra].
    - exact near_fd.
    - rewrite !Rmult_0_l, Rplus_0_l, Rplus_0_r. replace (IZR k * (u * G)) with (u * (IZR k * G)) by ring. rewrite (Rmult_assoc u). apply Rmult_le_compat_l; lra.
    - rewrite Rplus_0_r. replace (IZR k * (G + u * G)) with (IZR k * G * (1 + u)) by ring. assert (0 <= IZR k * G) by (apply Rmult_le_pos; lra). nra.
    - lra.
    - lra.
    - right. ring.
  Qed.
  Lemma near_pd : near (PrimFloat.mul fd (F_ofZ n)) (G * IZR n) (3 * u * A * G) (A * G).
  Proof.
    pose proof G_bounds. pose proof A_bounds as (A1 & A2 & A3 & A4). pose proof tiny_small. pose proof big_large. pose proof u_pos. pose proof u_small. pose proof kn_bounds.
    assert (AG : 1 / 3000000000 <= A * G <= 9000000000000000000) by (split; nra).
    assert (KG : G * IZR n <= A * G) by (rewrite Rmult_comm; apply Rmult_le_compat_r; lra).
    apply near_weaken with (3 * u * A * G) (G * IZR n); [|lra|lra].
    apply (near_mul _ G (u * G) G _ (IZR n) 0 (IZR n) (u * A * G) (2 * A * G)).
    - exact near_fd.
    - apply near_ofZ; [lia|rewrite Z.abs_eq by lia; lra].
    - rewrite !Rmult_0_r, !Rplus_0_r. replace (u * G * IZR n) with (u * (G * IZR n)) by ring. rewrite (Rmult_assoc u). apply Rmult_le_compat_l; lra.
    - rewrite Rplus_0_r. replace ((G + u * G) * IZR n) with (G * IZR n * (1 + u)) by ring. assert (0 <= G * IZR n) by (apply Rmult_le_pos; lra). nra.
    - lra.
    - lra.
    - right. ring.
  Qed.
  Lemma near_t2 : near t2 (A * G) (10 * u * A * G) (2 * A * G).
  Proof.
    pose proof G_bounds. pose proof A_bounds as (A1 & A2 & A3 & A4). pose proof tiny_small. pose proof big_large. pose proof u_pos. pose proof u_small.
    assert (AG : 1 / 3000000000 <= A * G <= 9000000000000000000) by (split; nra).
    replace (A * G) with (IZR k * G + G * IZR n) at 1 by (unfold A; rewrite plus_IZR; ring). replace (2 * A * G) with (A * G + A * G) by ring.
    apply (near_add _ _ (3 * u * A * G) _ _ _ (3 * u * A * G) _ (4 * A * G)); [exact near_t1|exact near_pd| | |lra|].
    - replace (3 * u * A * G) with (3 * u * (A * G)) by ring. nra.
    - lra.
    - right. ring.
  Qed.
  (** multiplied with the sample rate *)
  Lemma near_samples t r : near t r (10 * u * A * G) (2 * A * G) -> near (PrimFloat.mul t (F_ofZ sr)) (r * IZR sr) (1 / 1000) (2 * A * G * IZR sr).
  Proof.
    intros H. pose proof G_bounds. pose proof A_bounds as (A1 & A2 & A3 & A4). pose proof tiny_small. pose proof big_large. pose proof u_pos. pose proof u_small.
    assert (1 <= IZR sr) by (apply IZR_le; lia). assert (AG : 1 / 3000000000 <= A * G) by nra. assert (AGS : 1 / 3000000000 <= A * G * IZR sr) by nra.
    apply (near_mul _ r (10 * u * A * G) (2 * A * G) _ (IZR sr) 0 (IZR sr) (10 * u * (A * G * IZR sr)) (3 * (A * G * IZR sr))); [exact H|apply near_ofZ; [lia|rewrite Z.abs_eq by lia; lra]| | | |lra|].
    - right. ring.
    - replace ((2 * A * G + 10 * u * A * G) * (IZR sr + 0)) with (A * G * IZR sr * (2 + 10 * u)) by ring. nra.
    - lra.
    - replace (10 * u * (A * G * IZR sr) + u * (3 * (A * G * IZR sr))) with (13 * u * (A * G * IZR sr)) by ring. nra.
  Qed.
  Lemma index_of t X B : near t (IZR X) (1 / 1000) B -> (0 <= X < 2 ^ 31)%Z -> exists i, to_int t = Ret i /\ (0 <= i)%Z /\ (X - 1 <= i <= X)%Z.
  Proof.
    intros (F & H & _) HX. apply Rabs_le_inv in H. exists (Ztrunc (FR t)).
    assert (B1 : (X - 1 <= Ztrunc (FR t) <= X)%Z /\ (0 <= Ztrunc (FR t))%Z).
    { destruct (Z.eq_dec X 0) as [->|N].
      - assert (Z0 : Ztrunc (FR t) = 0%Z); [|lia]. destruct (Rle_lt_dec 0 (FR t)).
        + rewrite Ztrunc_floor by lra. apply Zfloor_imp. cbn. lra.
        + rewrite Ztrunc_ceil by lra. apply Zceil_imp. cbn. lra.
      - assert (1 <= IZR X) by (apply IZR_le; lia). rewrite Ztrunc_floor by lra.
        assert (X - 1 <= Zfloor (FR t))%Z by (apply Zfloor_lub; rewrite minus_IZR; lra).
        assert (Zfloor (FR t) < X + 1)%Z by (apply lt_IZR; rewrite plus_IZR; pose proof (Zfloor_lb (FR t)); lra). lia. }
    split; [|lia]. unfold to_int. cbn [ntrunc NumF]. rewrite F_trunc_spec by exact F. replace (_ && _)%bool with true; [reflexivity|]. symmetry. apply andb_true_iff. lia.
  Qed.
  Lemma A_samples : A * G * IZR sr = IZR ((k + n) * h).
  Proof. clear - Hs. unfold A, G. rewrite mult_IZR. field. apply Rgt_not_eq, IZR_lt. lia. Qed.
  Lemma start_index : exists i, to_int (PrimFloat.mul t1 (F_ofZ sr)) = Ret i /\ (0 <= i)%Z /\ (k * h - 1 <= i <= k * h)%Z.
  Proof.
    apply index_of with (B := 2 * A * G * IZR sr); [|clear - Hk Hn Hh Hb; nia].
    pose proof G_bounds. pose proof A_bounds as (A1 & A2 & A3 & A4). pose proof u_pos. assert (0 <= A * G) by nra.
    replace (IZR (k * h)) with (IZR k * G * IZR sr) by (unfold G; rewrite mult_IZR; field; apply Rgt_not_eq, IZR_lt; lia).
    apply near_samples. apply near_weaken with (1 := near_t1); [replace (3 * u * A * G) with (3 * u * (A * G)) by ring; replace (10 * u * A * G) with (10 * u * (A * G)) by ring; nra|lra].
  Qed.
  Lemma end_near : near (PrimFloat.mul t2 (F_ofZ sr)) (IZR ((k + n) * h)) (1 / 1000) (2 * A * G * IZR sr).
  Proof. rewrite <- A_samples. apply near_samples. exact near_t2. Qed.
  Lemma end_index : exists j, to_int (PrimFloat.mul t2 (F_ofZ sr)) = Ret j /\ (0 <= j)%Z /\ ((k + n) * h - 1 <= j <= (k + n) * h)%Z.
  Proof. apply index_of with (B := 2 * A * G * IZR sr); [exact end_near|]. clear - Hk Hn Hh Hb. nia. Qed.
  Lemma start_nonneg : nltb t1 n0 = false.
  Proof.
    pose proof near_t1 as (F & H & _). change (@n0 PrimFloat.float NumF) with PrimFloat.zero. cbn [nltb NumF]. rewrite FR_ltb; [|exact F|reflexivity]. apply Raux.Rlt_bool_false. change (FR PrimFloat.zero) with 0.
    pose proof G_bounds. pose proof A_bounds as (A1 & A2 & A3 & A4). pose proof u_small. pose proof u_pos.
    destruct (Z.eq_dec k 0) as [E|N].
    - pose proof near_fd as (FF & _). destruct (FR_ofZ 0) as [Z1 Z2]; [lia|]. destruct (FR_mul (F_ofZ 0) fd Z2 FF) as [M1 _].
      + rewrite Z1, Rmult_0_l. change 0 with (IZR 0). rewrite rnd_Z by lia. apply IZR_lt_fmax. lia.
      + unfold t1. rewrite E, M1, Z1, Rmult_0_l. change 0 with (IZR 0). rewrite rnd_Z by lia. lra.
    - assert (1 <= IZR k) by (apply IZR_le; lia). apply Rabs_le_inv in H.
      assert (3 * u * A * G <= IZR k * G); [|lra]. apply Rmult_le_compat_r; [lra|]. apply Rle_trans with 1; [|lra]. nra.
  Qed.
  Lemma slice_near (s : audio PrimFloat.float) : au_sr s = sr -> (2 <= n * h)%Z -> ((k + n) * h < Z.of_nat (length (au_data s)) <= 2 ^ 31)%Z ->
    exists i j, (0 <= i)%Z /\ (k * h - 1 <= i <= k * h)%Z /\ ((k + n) * h - 1 <= j <= (k + n) * h)%Z /\
      slice s t1 t2 = Ret (MkAudio (AlignSpec.interval (au_data s) i j) sr) /\
      to_int (PrimFloat.mul t1 (F_ofZ sr)) = Ret i /\ to_int (PrimFloat.mul t2 (F_ofZ sr)) = Ret j.
  Proof.
    intros ES H2 HL. destruct start_index as (i & I1 & I2 & I3). destruct end_index as (j & J1 & J2 & J3). exists i, j. split; [exact I2|]. split; [exact I3|]. split; [exact J3|].
    split; [|split; [exact I1|exact J1]]. rewrite <- ES. apply slice_spec.
    - rewrite ES. exact I1.
    - rewrite ES. exact J1.
    - clear - I3 J3 H2. nia.
    - clear - J3 HL Hk Hn Hh H2. nia.
    - lia.
    - rewrite start_nonneg. symmetry. apply Z.ltb_ge. exact I2.
    - lia.
    - rewrite ES. set (L := Z.of_nat (length (au_data s))) in *. assert (E := end_near). pose proof A_bounds as (A1 & A2 & A3 & A4). pose proof G_bounds. pose proof tiny_small. pose proof big_large. pose proof u_pos. pose proof u_small.
      assert (LB : 0 <= IZR L <= 2147483648) by (split; apply IZR_le; lia).
      assert (LX : IZR ((k + n) * h) <= IZR L - 1) by (rewrite <- minus_IZR; apply IZR_le; lia).
      pose proof (near_sub _ _ (1 / 1000) _ (F_ofZ L) (IZR L) 0 2147483648 10000000000 (1 / 100) E ltac:(apply near_ofZ; [lia|rewrite Z.abs_eq by lia; lra]) ltac:(lra) ltac:(lra) ltac:(lra) ltac:(lra)) as (FD & D & _).
      apply Rabs_le_inv in D. change (@n0 PrimFloat.float NumF) with PrimFloat.zero. cbn [nltb nsub nmul nofZ NumF]. rewrite FR_ltb; [|reflexivity|exact FD]. apply Raux.Rlt_bool_false. change (FR PrimFloat.zero) with 0. lra.
  Qed.
End Times.
