(** A concrete search for the best lag with 32-bit transforms (C108). *)
From Coq Require Import ZArith List Bool Lia Arith Reals Lra Psatz Floats.
From Flocq Require Import Core.Core.
From Verif Require Import Base.Res Base.Num Base.NumF Model.Fft
  Spec.FftSpec Spec.FftAccSpec Proofs.B64P Proofs.FftErrP Proofs.XcorrLagP.
Import ListNotations.
Open Scope R_scope.

Definition late : list PrimFloat.float := [0; 0; 0; 1; 2; -3; 0; 0; 0; 0; 0; 0]%float.
Definition early : list PrimFloat.float := [1; 2; -3; 0; 0; 0; 0; 0; 0; 0; 0; 0]%float.
Lemma exact_values : exact late = [0; 0; 0; 1; 2; -3; 0; 0; 0; 0; 0; 0] /\ exact early = [1; 2; -3; 0; 0; 0; 0; 0; 0; 0; 0; 0].
Proof.
  assert (E0 : FR 0%float = 0) by reflexivity. assert (E1 : FR 1%float = 1) by (change 1%float with (F_ofZ 1); apply FR_ofZ; lia). assert (E2 : FR 2%float = 2) by (change 2%float with (F_ofZ 2); apply FR_ofZ; lia). assert (E3 : FR (-3)%float = -3) by (change (-3)%float with (F_ofZ (-3)); apply FR_ofZ; lia).
  unfold exact, late, early. cbn [map]. rewrite E0, E1, E2, E3. split; reflexivity.
Qed.
Lemma sizes : size (exact late) = R_sqrt.sqrt 14 /\ size (exact early) = R_sqrt.sqrt 14.
Proof. destruct exact_values as [-> ->]. unfold size, smp. cbn [length sum nth]. split; f_equal; ring. Qed.
Lemma size_range l : size l = R_sqrt.sqrt 14 -> bpow radix2 (-20) <= size l <= bpow radix2 20.
Proof.
  intros ->. assert (1 <= R_sqrt.sqrt 14) by (rewrite <- R_sqrt.sqrt_1 at 1; apply R_sqrt.sqrt_le_1_alt; lra). assert (R_sqrt.sqrt 14 <= 4) by (replace 4 with (R_sqrt.sqrt (4 * 4)) by (apply R_sqrt.sqrt_square; lra); apply R_sqrt.sqrt_le_1_alt; lra).
  assert (bpow radix2 (-20) <= 1) by (change 1 with (bpow radix2 0); apply bpow_le; lia). assert (4 <= bpow radix2 20) by (change 4 with (bpow radix2 2); apply bpow_le; lia). lra.
Qed.
Ltac calc := cbv [Z.sub Z.opp sum smpZ smp nth Z.ltb Z.compare Z.add Z.of_nat Z.to_nat Pos.compare Pos.compare_cont Pos.to_nat Pos.iter_op Pos.of_succ_nat Pos.succ Pos.add Pos.add_carry Z.pos_sub Z.double Z.pred_double Z.succ_double Pos.pred_double Nat.add CompOpp]; lra.
Lemma peak : cross_correlation (exact late) (exact early) 3 = 14 /\ forall g, (-11 <= g <= 11)%Z -> g <> 3%Z -> cross_correlation (exact late) (exact early) g <= 0.
Proof.
  destruct exact_values as [-> ->]. unfold cross_correlation. cbn [length]. split; [calc|].
  intros g Hg N. assert (C : In g (map (fun i => Z.of_nat i - 11)%Z (seq 0 23))) by (apply in_map_iff; exists (Z.to_nat (g + 11)); split; [lia|apply in_seq; lia]). cbn [seq map] in C.
  repeat (destruct C as [C|C]; [subst g; first [exfalso; lia|calc]|]). destruct C.
Qed.
Lemma lag_three : find_lowest_lag_index single_fft late early = Ret 3%Z.
Proof.
  destruct sizes as [Z1 Z2]. destruct peak as [P1 P2].
  apply (lag_exact (bpow radix2 (-22)) single_fft late early single_accurate) with (N1 := size (exact late)) (N2 := size (exact early)).
  - split; apply bpow_le; lia.
  - cbn. lia.
  - cbn. lia.
  - unfold late. repeat constructor.
  - unfold early. repeat constructor.
  - apply Rle_refl.
  - apply Rle_refl.
  - apply size_range, Z1.
  - apply size_range, Z2.
  - cbn. lia.
  - intros g' Hg N. assert (G : cross_correlation (exact late) (exact early) g' <= 0) by (apply P2; [change (Z.of_nat (Nat.max (length late) (length early))) with 12%Z in Hg; lia|exact N]). rewrite P1, Z1, Z2, R_sqrt.sqrt_sqrt by lra. assert (bpow radix2 (-22) <= 1 / 1000000) by (cbn; lra). lra.
Qed.
