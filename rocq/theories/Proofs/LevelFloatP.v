(** The sound pressure level and the scaling of integer recordings in binary64 (C101). *)
From Coq Require Import ZArith List Bool Reals Lra Lia Floats Psatz.
From Flocq Require Import Core.Core IEEE754.BinarySingleNaN IEEE754.PrimFloat.
From Interval Require Import Tactic.
From Verif Require Import Base.Res Base.Num Base.NumF Base.Lists Base.Mat Model.Amatrix Model.MiscMath Model.Window Model.FilterBank Model.MiscAudio Spec.UndefinedSpec Spec.StableSpec Spec.LibmSpec Spec.PcmSpec
  Proofs.B64P Proofs.RoundP Proofs.BoundP Proofs.ScoresP Proofs.FiniteNsimP Proofs.FinitePrepP Proofs.StableP Proofs.StableBankP Proofs.RelP Proofs.ErbNormP.
Import ListNotations.
Open Scope R_scope.
Notation F := PrimFloat.float.

Lemma FR_31 : FR 0x1p-31 = bpow radix2 (-31). Proof. eapply FR_pow; reflexivity. Qed.
Lemma pcm_real x : pcm x -> bd 0 x /\ (FR x = 0 \/ bpow radix2 (-31) <= Rabs (FR x)).
Proof.
  intros [W H]. pose proof (within_1 x W) as B. split; [exact B|]. destruct B as [Fx _]. destruct H as [H|H].
  - left. assert (F0 : fin 0) by reflexivity. rewrite eqb_spec in H. assert (EB := Beqb_correct prec emax _ _ Fx F0). unfold Beqb in EB. rewrite !B2SF_Prim2B in EB. rewrite EB in H. change (B2R (Prim2B 0)) with 0 in H. revert H. case Req_bool_spec; [auto|discriminate].
  - right. assert (F0 : fin 0x1p-31) by reflexivity. assert (FA : fin (PrimFloat.abs x)) by (unfold fin in *; rewrite abs_equiv, is_finite_Babs; exact Fx).
    rewrite FR_leb in H by assumption. rewrite FR_31 in H. replace (FR (PrimFloat.abs x)) with (Rabs (FR x)) in H by (unfold FR; rewrite abs_equiv, B2R_Babs; reflexivity). revert H. case Raux.Rle_bool_spec; [auto|discriminate].
Qed.
Lemma rnd_low e z : (-1074 <= e)%Z -> bpow radix2 e <= z -> bpow radix2 e <= rnd z.
Proof. intros He H. apply rnd_le in H. rewrite (rnd_exact 1 e (bpow radix2 e)) in H; [exact H|ring|lia|exact He]. Qed.
Lemma rnd_zero : rnd 0 = 0. Proof. rewrite (rnd_exact 0 0 0); [reflexivity|ring|lia|lia]. Qed.
Lemma square_cases x : pcm x -> bd 0 (@nsq F NumF x) /\ 0 <= FR (@nsq F NumF x) /\ (FR x = 0 /\ FR (@nsq F NumF x) = 0 \/ bpow radix2 (-62) <= FR (@nsq F NumF x)).
Proof.
  intros H. apply pcm_real in H. destruct H as [B C]. destruct (square_far 0 x ltac:(lia) B) as [BS PS]. split; [exact BS|]. split; [exact PS|]. destruct B as [Fx Bx].
  destruct (FR_mul x x Fx Fx) as [E _].
  { apply (rnd_fmax _ 1); [|pose proof tiny_small; lra|pose proof big_large; lra]. rewrite Rabs_mult. change (bpow radix2 0) with 1 in Bx. pose proof (Rabs_pos (FR x)). nra. }
  unfold nsq. cbn [nmul NumF]. rewrite E. destruct C as [C|C]; [left; split; [exact C|]; rewrite C, Rmult_0_l; apply rnd_zero|right].
  apply rnd_low; [lia|]. change (-62)%Z with (-31 + -31)%Z. rewrite bpow_plus, <- (Rabs_pos_eq (FR x * FR x)) by nra. rewrite Rabs_mult. apply Rmult_le_compat; try apply bpow_ge_0; assumption.
Qed.
Lemma sum_zero l : Forall (fun y => fin y /\ FR y = 0) l -> forall x, fin x -> FR x = 0 -> fin (fold_left PrimFloat.add l x) /\ FR (fold_left PrimFloat.add l x) = 0.
Proof.
  induction 1 as [|y l [Fy Ey] H IH]; intros x Fx Ex; cbn [fold_left]; [auto|]. destruct (FR_add x y Fx Fy) as [E Fs].
  - rewrite Ex, Ey, Rplus_0_r, rnd_zero, Rabs_R0. unfold fmax. apply bpow_gt_0.
  - apply IH; [exact Fs|]. rewrite E, Ex, Ey, Rplus_0_r. apply rnd_zero.
Qed.
Lemma sum_ge : forall (l : list F) x m, (0 <= m)%Z -> (m + Z.of_nat (length l) < 2 ^ 53)%Z -> Forall (bd 0) l -> Forall (fun y => 0 <= FR y) l ->
  fin x -> (0 <= FR x <= IZR m)%R -> FR x <= FR (fold_left PrimFloat.add l x) /\ Forall (fun y => FR y <= FR (fold_left PrimFloat.add l x)) l.
Proof.
  induction l as [|y l IH]; intros x m Hm HN HF HP Fx Hx; [cbn [fold_left]; split; [apply Rle_refl|constructor]|].
  inversion HF as [|? ? [Fy Hy] F2]; subst. inversion HP as [|? ? Py P2]; subst. cbn [fold_left length] in *. change (bpow radix2 0) with 1 in Hy. rewrite Rabs_pos_eq in Hy by exact Py.
  assert (Ax : Rabs (FR x) <= IZR m * bpow radix2 0) by (change (bpow radix2 0) with 1; rewrite Rabs_pos_eq; lra).
  destruct (bd_fold 0 ltac:(lia) ltac:(lia) [y] x m Hm ltac:(cbn [length]; lia) ltac:(constructor; [split; [exact Fy|change (bpow radix2 0) with 1; rewrite Rabs_pos_eq; lra]|constructor]) Fx Ax) as [Fs Bs]. cbn [fold_left length] in Fs, Bs.
  assert (MB : IZR m + 1 <= 9007199254740992) by (rewrite <- plus_IZR; apply IZR_le; lia).
  destruct (FR_add x y Fx Fy) as [E _]; [apply (rnd_fmax _ 9007199254740992); [rewrite Rabs_pos_eq; lra|pose proof tiny_small; lra|pose proof big_large; lra]|].
  assert (G1 : FR x <= FR (x + y)%float) by (rewrite E, <- (rnd_FR x) at 1; apply rnd_le; lra).
  assert (G2 : FR y <= FR (x + y)%float) by (rewrite E, <- (rnd_FR y) at 1; apply rnd_le; lra).
  assert (Ps : 0 <= FR (x + y)%float) by lra. rewrite Rabs_pos_eq in Bs by exact Ps. change (bpow radix2 0) with 1 in Bs.
  destruct (IH (x + y)%float (m + 1)%Z) as [I1 I2]; try assumption; try lia; [change (Z.of_nat 1) with 1%Z in Bs; lra|]. split; [lra|]. constructor; [lra|exact I2].
Qed.

Section Level.
  Context {L : Libm F} (A : accurate L).
  Lemma ref_rel : rel 1 (kSplReferencePoint : F) (2 / 100000).
  Proof. apply (divw 0 0); try lra; [apply (rel_ofZ 2); lia|apply (rel_ofZ 100000); lia|unfold mid, lo30, hi30; lra]. Qed.
  Lemma ln10_b : 23 / 10 <= ln 10 <= 231 / 100. Proof. split; interval. Qed.
  Lemma spl_cases (s : audio F) : Forall pcm (au_data s) -> (1 <= Z.of_nat (length (au_data s)) < 2 ^ 30)%Z ->
    (Forall (fun x => FR x = 0) (au_data s) /\ sound_pressure_level s = neg_infinity) \/ (fin (sound_pressure_level s) /\ -300 <= FR (sound_pressure_level s) <= 110 /\ Exists (fun x => FR x <> 0) (au_data s)).
  Proof.
    intros HP HL. unfold sound_pressure_level. set (q := map (@nsq F NumF) (au_data s)).
    assert (Q1 : Forall (bd 0) q) by (apply Forall_map; eapply Forall_impl; [|exact HP]; intros x Hx; apply (square_cases x Hx)).
    assert (Q2 : Forall (fun y => 0 <= FR y) q) by (apply Forall_map; eapply Forall_impl; [|exact HP]; intros x Hx; apply (square_cases x Hx)).
    assert (LQ : length q = length (au_data s)) by apply map_length.
    destruct (FR_ofZ 0 ltac:(lia)) as [E0 F0]. destruct (FR_ofZ (Z.of_nat (length (au_data s))) ltac:(lia)) as [EL FL]. set (n := Z.of_nat (length (au_data s))) in *.
    assert (NB : 1 <= IZR n <= 1073741824) by (split; apply IZR_le; lia).
    destruct (bd_fold 0 ltac:(lia) ltac:(lia) q (F_ofZ 0) 0 ltac:(lia) ltac:(lia) Q1 F0 ltac:(rewrite E0, Rabs_R0; lra)) as [FS BS].
    change (fold_left PrimFloat.add q (F_ofZ 0)) with (nsum q) in *. rewrite LQ in BS. fold n in BS. change (bpow radix2 0) with 1 in BS. rewrite Rmult_1_r in BS.
    destruct (sum_ge q (F_ofZ 0) 0 ltac:(lia) ltac:(lia) Q1 Q2 F0 ltac:(rewrite E0; lra)) as [S0 SG]. change (fold_left PrimFloat.add q (F_ofZ 0)) with (nsum q) in *. rewrite E0 in S0. rewrite Rabs_pos_eq, Z.add_0_l in BS by exact S0.
    assert (Q : 0 <= FR (nsum q) / IZR n <= 1).
    { split; [apply Rmult_le_pos; [exact S0|left; apply Rinv_0_lt_compat; lra]|]. apply Rmult_le_reg_r with (IZR n); [lra|]. unfold Rdiv. rewrite Rmult_assoc, Rinv_l; lra. }
    change (nofnat (length (au_data s))) with (F_ofZ n). cbn [ndiv nsqrt nmul NumF].
    destruct (FR_div (nsum q) (F_ofZ n) FS) as [Em Fm]; [rewrite EL; lra|apply (rnd_fmax _ 1); [rewrite EL, Rabs_pos_eq; lra|pose proof tiny_small; lra|pose proof big_large; lra]|]. rewrite EL in Em.
    set (m := PrimFloat.div (nsum q) (F_ofZ n)) in *. assert (M0 : 0 <= FR m) by (rewrite Em; apply rnd_nonneg; lra).
    assert (Ep := FR_sqrt m). assert (Fp := fin_sqrt m Fm M0). set (p := PrimFloat.sqrt m) in *.
    pose proof ref_rel as [Fr Hr]. assert (RB : 199 / 10000000 <= FR kSplReferencePoint <= 201 / 10000000) by (pose proof dl_pos; assert (1 * dl * (2 / 100000) <= 1 / 1000000000) by lra; abs_all; lra).
    destruct (Forall_Exists_dec (fun x => FR x = 0) (fun x => Req_EM_T (FR x) 0) (au_data s)) as [Z|NZ].
    - left. split; [exact Z|]. assert (SZ : FR (nsum q) = 0).
      { apply (sum_zero q); [|exact F0|exact E0]. unfold q. apply Forall_map. rewrite Forall_forall in *. intros x Hx. destruct (square_cases x (HP x Hx)) as ([Fx2 _] & _ & [[_ C]|C]); [split; assumption|].
        exfalso. specialize (Z x Hx). destruct (pcm_real x (HP x Hx)) as [[Fx _] _]. destruct (FR_mul x x Fx Fx) as [E _]; [rewrite Z, Rmult_0_l, rnd_zero, Rabs_R0; unfold fmax; apply bpow_gt_0|].
        unfold nsq in C. cbn [nmul NumF] in C. rewrite E, Z, Rmult_0_l, rnd_zero in C. pose proof (bpow_gt_0 radix2 (-62)). lra. }
      assert (MZ : FR m = 0) by (rewrite Em, SZ; unfold Rdiv; rewrite Rmult_0_l; apply rnd_zero). assert (PZ : FR p = 0) by (rewrite Ep, MZ, R_sqrt.sqrt_0; apply rnd_zero).
      destruct (FR_div p kSplReferencePoint Fp) as [Ed Fd]; [lra|rewrite PZ; unfold Rdiv; rewrite Rmult_0_l, rnd_zero, Rabs_R0; unfold fmax; apply bpow_gt_0|].
      rewrite (log10_zero L A _ Fd); [reflexivity|]. rewrite Ed, PZ. unfold Rdiv. rewrite Rmult_0_l. apply rnd_zero.
    - right. assert (SL : bpow radix2 (-62) <= FR (nsum q)).
      { rewrite Exists_exists in NZ. destruct NZ as (x & Hx & NX). rewrite Forall_forall in HP, SG. destruct (square_cases x (HP x Hx)) as (_ & _ & [[C _]|C]); [contradiction|].
        apply Rle_trans with (1 := C). apply SG. unfold q. apply (in_map (@nsq F NumF)), Hx. }
      assert (ML : bpow radix2 (-92) <= FR m).
      { rewrite Em. apply rnd_low; [lia|]. apply Rmult_le_reg_r with (IZR n); [lra|]. unfold Rdiv. rewrite Rmult_assoc, Rinv_l, Rmult_1_r by lra. apply Rle_trans with (2 := SL). change (-62)%Z with (-92 + 30)%Z. rewrite bpow_plus. apply Rmult_le_compat_l; [apply bpow_ge_0|]. cbn. lra. }
      assert (MU : FR m <= 1) by (rewrite Em; apply Rle_trans with (rnd 1); [apply rnd_le; lra|right; apply (rnd_exact 1 0 1); [cbn; ring|lia|lia]]).
      assert (PL : bpow radix2 (-46) <= FR p).
      { rewrite Ep. apply rnd_low; [lia|]. rewrite <- (R_sqrt.sqrt_square (bpow radix2 (-46))) by apply bpow_ge_0. apply R_sqrt.sqrt_le_1_alt. rewrite <- bpow_plus. exact ML. }
      assert (PU : FR p <= 1). { rewrite Ep. apply Rle_trans with (rnd 1); [apply rnd_le; rewrite <- R_sqrt.sqrt_1; apply R_sqrt.sqrt_le_1_alt; exact MU|right; apply (rnd_exact 1 0 1); [cbn; ring|lia|lia]]. }
      assert (P0 : 0 < FR p) by (pose proof (bpow_gt_0 radix2 (-46)); lra).
      assert (DB : bpow radix2 (-46) <= FR p / FR kSplReferencePoint <= 65536).
      { split; apply Rmult_le_reg_r with (FR (kSplReferencePoint : F)); try lra; unfold Rdiv; rewrite Rmult_assoc, Rinv_l, Rmult_1_r by lra; [|lra].
        apply Rle_trans with (2 := PL). rewrite <- (Rmult_1_r (bpow radix2 (-46))) at 2. apply Rmult_le_compat_l; [apply bpow_ge_0|lra]. }
      destruct (FR_div p kSplReferencePoint Fp) as [Ed Fd]; [lra|apply (rnd_fmax _ 65536); [rewrite Rabs_pos_eq; [lra|pose proof (bpow_gt_0 radix2 (-46)); lra]|pose proof tiny_small; lra|pose proof big_large; lra]|].
      set (d := PrimFloat.div p kSplReferencePoint) in *.
      assert (D1 : bpow radix2 (-46) <= FR d) by (rewrite Ed; apply rnd_low; [lia|apply DB]).
      assert (D2 : FR d <= 65536) by (rewrite Ed; apply Rle_trans with (rnd 65536); [apply rnd_le, DB|right; apply (rnd_exact 1 16 65536); [cbn; ring|lia|lia]]).
      assert (D0 : 0 < FR d) by (pose proof (bpow_gt_0 radix2 (-46)); lra).
      destruct (acc_log10 L A d Fd D0) as [Fl Hl].
      assert (LB : -32 <= ln (FR d) <= 23 / 2).
      { split; [apply Rle_trans with (ln (bpow radix2 (-46))); [|apply Rcomplements.ln_le; [apply bpow_gt_0|exact D1]]|apply Rle_trans with (ln 65536); [apply Rcomplements.ln_le; lra|interval]].
        change (bpow radix2 (-46)) with (/ 70368744177664). interval. }
      assert (LL : Rabs (ln (FR d) / ln 10) <= 14).
      { pose proof ln10_b. unfold Rdiv. rewrite Rabs_mult, (Rabs_pos_eq (/ ln 10)) by (left; apply Rinv_0_lt_compat; lra). apply Rmult_le_reg_r with (ln 10); [lra|]. rewrite Rmult_assoc, Rinv_l, Rmult_1_r by lra. apply Rabs_le. lra. }
      destruct (FR_ofZ 20 ltac:(lia)) as [E20 F20].
      assert (BL : Rabs (FR (mlog10 d)) <= 29 / 2) by (pose proof dl_pos; tri).
      assert (BB : Rabs (FR (F_ofZ 20) * FR (mlog10 d)) <= 290) by (rewrite E20, Rabs_mult, (Rabs_pos_eq 20) by lra; lra).
      destruct (op_err (PrimFloat.mul (F_ofZ 20) (mlog10 d)) _ 290 (FR_mul _ _ F20 Fl) BB) as [Fz Ez]; [pose proof tiny_small; lra|pose proof big_large; lra|]. split; [exact Fz|].
      change (nofZ 20) with (F_ofZ 20). assert (LL2 : -14 <= ln (FR d) / ln 10 <= 51 / 10).
      { pose proof ln10_b. split; apply Rmult_le_reg_r with (ln 10); try lra; unfold Rdiv; rewrite Rmult_assoc, Rinv_l, Rmult_1_r by lra; lra. }
      pose proof u_small. pose proof u_pos. pose proof dl_pos. rewrite E20 in Ez. split; [|exact NZ]. abs_all. split; lra.
  Qed.
End Level.
