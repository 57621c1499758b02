(** The mean of a recording and the recording without it, in binary64 (C109). *)
From Coq Require Import ZArith List Bool Lia Arith Reals Lra Psatz Floats.
From Coq Require Import ZifyBool ZifyNat.
From Flocq Require Import Core.Core IEEE754.BinarySingleNaN IEEE754.PrimFloat.
From Verif Require Import Base.Res Base.Num Base.NumR Base.NumF Base.Lists Base.Cplx Model.MiscMath Model.Fft
  Spec.FftSpec Spec.FftAccSpec Spec.EnvelopeSpec Proofs.RealP Proofs.FftP Proofs.DftP Proofs.XcorrP Proofs.B64P Proofs.RoundP Proofs.FftNormP Proofs.FftAccP Proofs.FftErrP Proofs.EnvelopeP Proofs.FftDualP.
Import ListNotations.
Open Scope R_scope.
Ltac Zify.zify_post_hook ::= Z.div_mod_to_equations.
Local Notation F := PrimFloat.float.
Local Notation p2 := (bpow radix2).

Lemma sum_app1 (l : list F) x f : sum (length (l ++ [x])) (fun i => f (smp (exact (l ++ [x])) i)) = sum (length l) (fun i => f (smp (exact l) i)) + f (FR x).
Proof.
  rewrite app_length. cbn [length]. rewrite Nat.add_1_r. cbn [sum]. f_equal.
  - apply sum_ext. intros i Hi. rewrite !exact_nth, app_nth1 by exact Hi. reflexivity.
  - rewrite exact_nth, nth_middle. reflexivity.
Qed.
Lemma sum_err : forall l : list F, Forall fin l -> (Z.of_nat (length l) <= 2 ^ 50)%Z -> sum (length l) (fun i => Rabs (smp (exact l) i)) <= p2 800 ->
  fin (nsum l) /\ Rabs (FR (nsum l) - sum (length l) (fun i => smp (exact l) i)) <= INR (length l) * (2 * u * (sum (length l) (fun i => Rabs (smp (exact l) i)) + tiny)).
Proof.
  pose proof u_pos as U. assert (TP : 0 < tiny) by apply bpow_gt_0.
  induction l as [|x l IH] using rev_ind; intros Fl HL HB.
  - cbn [length sum]. split; [reflexivity|]. unfold nsum. cbn [fold_left INR]. change (FR n0) with 0. rewrite Rminus_0_r, Rabs_R0, Rmult_0_l. lra.
  - apply Forall_app in Fl. destruct Fl as [Fl Fx]. inversion Fx as [|? ? Fx' _]; subst. rewrite (sum_app1 l x Rabs) in *. rewrite (sum_app1 l x (fun r => r)).
    set (T := sum (length l) (fun i => Rabs (smp (exact l) i))) in *. set (S := sum (length l) (fun i => smp (exact l) i)) in *.
    assert (T0 : 0 <= T) by (apply sum_nonneg; intros; apply Rabs_pos). assert (ST : Rabs S <= T) by apply sum_abs. pose proof (Rabs_pos (FR x)) as XP.
    rewrite app_length in *. cbn [length] in *. destruct (IH Fl ltac:(lia) ltac:(lra)) as [F1 E1]. clear IH. unfold nsum in *. rewrite fold_left_app. cbn [fold_left]. set (y := fold_left nadd l n0) in *.
    assert (NB : INR (length l) * (2 * u) <= 1). { rewrite INR_IZR_INZ. apply Rle_trans with (IZR (2 ^ 50) * (2 * p2 (-53))); [apply Rmult_le_compat; [apply IZR_le; lia|lra|apply IZR_le; lia|right; reflexivity]|]. change (IZR (2 ^ 50)) with (p2 50). change 2 with (p2 1). rewrite <- !bpow_plus. change 1 with (p2 0). apply bpow_le. lia. }
    assert (E2 : Rabs (FR y - S) <= T + tiny). { apply Rle_trans with (1 := E1). replace (INR (length l) * (2 * u * (T + tiny))) with (INR (length l) * (2 * u) * (T + tiny)) by ring. pose proof (pos_INR (length l)). nra. }
    assert (B : Rabs (FR y + FR x) <= 2 * (T + Rabs (FR x)) + tiny). { replace (FR y + FR x) with ((FR y - S) + (S + FR x)) by ring. apply Rle_trans with (1 := Rabs_triang _ _). pose proof (Rabs_triang S (FR x)). lra. }
    destruct (op_val (@nadd F _ y x) (FR y + FR x)) as [G1 G2].
    + intros H. apply FR_add; assumption.
    + apply Rle_trans with (1 := B). pose proof tiny_small. assert (1 <= p2 800) by (change 1 with (p2 0); apply bpow_le; lia). apply Rle_trans with (4 * p2 800); [lra|]. change 4 with (p2 2). rewrite <- bpow_plus. apply bpow_le. lia.
    + split; [exact G1|]. rewrite plus_INR. change (INR 1) with 1. replace (FR (nadd y x) - (S + FR x)) with ((FR (nadd y x) - (FR y + FR x)) + (FR y - S)) by ring. apply Rle_trans with (1 := Rabs_triang _ _).
      assert (A1 : u * (Rabs (FR y + FR x) + tiny) <= 2 * u * (T + Rabs (FR x) + tiny)). { replace (2 * u * (T + Rabs (FR x) + tiny)) with (u * (2 * (T + Rabs (FR x)) + 2 * tiny)) by ring. apply Rmult_le_compat_l; lra. }
      assert (A2 : INR (length l) * (2 * u * (T + tiny)) <= INR (length l) * (2 * u * (T + Rabs (FR x) + tiny))). { apply Rmult_le_compat_l; [apply pos_INR|]. apply Rmult_le_compat_l; lra. }
      lra.
Qed.

Section Mean.
  Variables (s : list F) (N e : R).
  Hypothesis Fs : Forall fin s.
  Local Notation n := (length s).
  Hypothesis Hn : (2 <= n)%nat. Hypothesis Hb : (Z.of_nat n <= 2 ^ 26)%Z.
  Hypothesis Hs : size (exact s) <= N. Hypothesis HN : p2 (-16) <= N <= p2 16.
  Hypothesis E : p2 (-23) <= e <= p2 (-10).
  Local Notation rn := (R_sqrt.sqrt (INR n)).
  Local Notation mu := (average (exact s)).
  Local Notation m := (vec_mean s).

  Lemma n_facts : 1 < INR n /\ INR n <= p2 26 /\ rn * rn = INR n /\ 1 <= rn <= p2 13 /\ n2 n (smp (exact s)) <= N.
  Proof.
    assert (A1 : 1 < INR n) by (change 1 with (INR 1); apply lt_INR; lia). assert (A2 : INR n <= p2 26) by (rewrite INR_IZR_INZ; apply IZR_le in Hb; exact Hb).
    split; [exact A1|]. split; [exact A2|]. split; [apply sqrt_sqrt; lra|]. split; [split|].
    - rewrite <- sqrt_1 at 1. apply sqrt_le_1_alt. lra.
    - replace (p2 13) with (R_sqrt.sqrt (p2 26)) by (replace 26%Z with (13 + 13)%Z by reflexivity; rewrite bpow_plus; apply sqrt_square, bpow_ge_0). apply sqrt_le_1_alt, A2.
    - rewrite size_n2 by (rewrite exact_length; lia). exact Hs.
  Qed.
  Lemma abs_total : sum n (fun i => Rabs (smp (exact s) i)) <= rn * N.
  Proof.
    destruct n_facts as (_ & _ & _ & _ & A). rewrite (sum_ext n _ (fun i => 1 * Rabs (smp (exact s) i))) by (intros; ring). apply Rle_trans with (1 := cauchy n (fun _ => 1) (fun i => Rabs (smp (exact s) i))).
    rewrite n2_const, n2_abs by lra. rewrite Rmult_1_r. apply Rmult_le_compat_l; [apply sqrt_pos|exact A].
  Qed.
  Lemma N_pos : 0 < N. Proof. pose proof (bpow_gt_0 radix2 (-16)). lra. Qed.
  Lemma e_pos' : 0 < e. Proof. pose proof (bpow_gt_0 radix2 (-23)). lra. Qed.
  Lemma tiny_N : tiny <= u * N.
  Proof. apply Rle_trans with (p2 (-53) * p2 (-16)); [rewrite <- bpow_plus; apply bpow_le; lia|]. apply Rmult_le_compat; try apply bpow_ge_0; [right; reflexivity|lra]. Qed.
  Lemma mean_real : mu = sum n (fun i => smp (exact s) i) / INR n.
  Proof. unfold average. rewrite exact_length. reflexivity. Qed.
  Lemma mean_near : fin m /\ rn * Rabs (FR m - mu) <= 32 / 100 * e * N /\ rn * Rabs mu <= N.
  Proof.
    destruct n_facts as (A1 & A2 & A3 & (A4 & A5) & A6). pose proof abs_total as AT. pose proof N_pos as NP. pose proof e_pos' as EP. pose proof u_pos as U. assert (TP : 0 < tiny) by apply bpow_gt_0. pose proof tiny_N as TN. pose proof u_small as US.
    set (T := sum n (fun i => Rabs (smp (exact s) i))) in *. set (S := sum n (fun i => smp (exact s) i)). assert (T0 : 0 <= T) by (apply sum_nonneg; intros; apply Rabs_pos). assert (ST : Rabs S <= T) by apply sum_abs.
    assert (TB : T <= p2 100). { apply Rle_trans with (1 := AT). apply Rle_trans with (p2 13 * p2 16); [apply Rmult_le_compat; lra|]. rewrite <- bpow_plus. apply bpow_le. lia. }
    destruct (sum_err s Fs ltac:(lia)) as [F1 E1]. { apply Rle_trans with (1 := TB). apply bpow_le. lia. } fold T S in E1. set (y := nsum s) in *.
    assert (FN : FR (@nofnat F _ n) = INR n). { unfold nofnat. change (@nofZ F _) with F_ofZ. rewrite INR_IZR_INZ. apply FR_ofZ. lia. }
    assert (IN : 0 < / INR n <= 1). { split; [apply Rinv_0_lt_compat; lra|]. rewrite <- Rinv_1. apply Rinv_le_contravar; lra. }
    assert (E1' : Rabs (FR y / INR n - S / INR n) <= 2 * u * (T + tiny)).
    { replace (FR y / INR n - S / INR n) with ((FR y - S) * / INR n) by (unfold Rdiv; ring). rewrite Rabs_mult, (Rabs_pos_eq (/ INR n)) by lra. apply Rle_trans with (INR n * (2 * u * (T + tiny)) * / INR n); [apply Rmult_le_compat_r; lra|]. right. field. lra. }
    assert (SN : Rabs (S / INR n) <= T). { unfold Rdiv. rewrite Rabs_mult, (Rabs_pos_eq (/ INR n)) by lra. pose proof (Rabs_pos S). nra. }
    assert (YB : Rabs (FR y / INR n) <= 2 * T + tiny). { replace (FR y / INR n) with ((FR y / INR n - S / INR n) + S / INR n) by ring. apply Rle_trans with (1 := Rabs_triang _ _). nra. }
    destruct (op_val m (FR y / INR n)) as [G1 G2].
    - intros H. unfold vec_mean. change (@nsum F _ s) with y. rewrite <- FN in *. apply FR_div; [exact F1|rewrite FN; lra|exact H].
    - apply Rle_trans with (1 := YB). pose proof tiny_small. apply Rle_trans with (4 * p2 100); [assert (1 <= p2 100) by (change 1 with (p2 0); apply bpow_le; lia); lra|]. change 4 with (p2 2). rewrite <- bpow_plus. apply bpow_le. lia.
    - split; [exact G1|]. rewrite mean_real. fold S. split.
      + assert (D : Rabs (FR m - S / INR n) <= 4 * u * (T + tiny)). { replace (FR m - S / INR n) with ((FR m - FR y / INR n) + (FR y / INR n - S / INR n)) by ring. apply Rle_trans with (1 := Rabs_triang _ _). nra. }
        assert (D2 : rn * Rabs (FR m - S / INR n) <= rn * (4 * u * (rn * N + u * N))). { apply Rmult_le_compat_l; [lra|]. apply Rle_trans with (1 := D). apply Rmult_le_compat_l; lra. }
        assert (D3 : rn * (4 * u * (rn * N + u * N)) <= 5 * u * (INR n * N)). { replace (INR n * N) with (rn * rn * N) by (rewrite A3; reflexivity). replace (rn * (4 * u * (rn * N + u * N))) with (4 * u * (rn * rn * N) + 4 * u * u * (rn * N)) by ring. assert (RN : 0 < rn * N) by (apply Rmult_lt_0_compat; lra).
          assert (Q1 : 1 * (rn * N) <= rn * (rn * N)) by (apply Rmult_le_compat_r; lra). assert (Q2 : 4 * u * (rn * N) <= 1 * (rn * N)) by (apply Rmult_le_compat_r; lra).
          assert (Q3 : u * (4 * u * (rn * N)) <= u * (rn * (rn * N))) by (apply Rmult_le_compat_l; lra). lra. }
        assert (D4 : 5 * u * (INR n * N) <= 5 * p2 (-27) * N). { replace (5 * u * (INR n * N)) with (5 * (u * INR n) * N) by ring. apply Rmult_le_compat_r; [lra|]. apply Rmult_le_compat_l; [lra|]. replace (-27)%Z with (-53 + 26)%Z by reflexivity. rewrite bpow_plus. change u with (p2 (-53)). apply Rmult_le_compat_l; [apply bpow_ge_0|exact A2]. }
        assert (D5 : 5 * p2 (-27) <= 32 / 100 * e). { assert (p2 (-27) = p2 (-23) * / 16) by (replace (-27)%Z with (-23 + -4)%Z by reflexivity; rewrite bpow_plus; f_equal). lra. }
        assert (5 * p2 (-27) * N <= 32 / 100 * e * N) by (apply Rmult_le_compat_r; lra). lra.
      + unfold Rdiv. rewrite Rabs_mult, (Rabs_pos_eq (/ INR n)) by lra. apply Rle_trans with (rn * ((rn * N) * / INR n)); [apply Rmult_le_compat_l; [lra|]; apply Rmult_le_compat_r; lra|]. right. replace (rn * (rn * N * / INR n)) with ((rn * rn) * N * / INR n) by ring. rewrite A3. field. lra.
  Qed.

  Lemma centred_norm : n2 n (centred (exact s)) <= N.
  Proof.
    destruct n_facts as (A1 & A2 & A3 & _ & A6). apply Rle_trans with (2 := A6). apply sqrt_le_1_alt.
    rewrite (sum_ext n _ (fun i => smp (exact s) i * smp (exact s) i + (- 2 * mu * smp (exact s) i + mu * mu))).
    2:{ intros i Hi. unfold centred. rewrite exact_length. replace (Nat.ltb i n) with true by lia. ring. }
    rewrite !sum_plus, sum_scal, sum_const. assert (SE : sum n (smp (exact s)) = INR n * mu) by (rewrite mean_real; change (sum n (fun i => smp (exact s) i)) with (sum n (smp (exact s))); field; lra).
    change (sum n (fun i => smp (exact s) i)) with (sum n (smp (exact s))). rewrite SE. assert (0 <= INR n * (mu * mu)) by (apply Rmult_le_pos; [lra|apply Rle_0_sqr]). lra.
  Qed.

  Definition without_mean : list F := map (fun x => nsub x m) s.
  Lemma without_length : length without_mean = n. Proof. apply map_length. Qed.
  Lemma without_near : Forall fin without_mean /\ n2 n (fun i => smp (exact without_mean) i - centred (exact s) i) <= 33 / 100 * e * N.
  Proof.
    destruct n_facts as (A1 & A2 & A3 & (A4 & A5) & A6). destruct mean_near as (Fm & M1 & M2). pose proof N_pos as NP. pose proof e_pos' as EP. pose proof u_pos as U. assert (TP : 0 < tiny) by apply bpow_gt_0. pose proof tiny_N as TN. pose proof u_small as US.
    set (D := Rabs (FR m - mu)) in *. assert (D0 : 0 <= D) by apply Rabs_pos. pose proof (Rabs_pos mu) as MU0.
    assert (MB : Rabs (FR m) <= Rabs mu + D). { replace (FR m) with (mu + (FR m - mu)) by ring. apply Rabs_triang. }
    assert (ES : e <= 1 / 1000) by (assert (p2 (-10) <= 1 / 1000) by (cbn; lra); lra).
    assert (MB2 : Rabs (FR m) <= 2 * N). { apply Rle_trans with (1 := MB). nra. }
    assert (V : forall i, (i < n)%nat -> fin (nth i without_mean n0) /\ Rabs (smp (exact without_mean) i - centred (exact s) i) <= u * Rabs (smp (exact s) i) + (u * (Rabs mu + D + tiny) + D)).
    { intros i Hi. assert (XE : nth i without_mean n0 = nsub (nth i s n0) m). { unfold without_mean. set (g := fun x : F => nsub x m). rewrite (nth_indep _ n0 (g n0)) by (rewrite map_length; exact Hi). apply (map_nth g). }
      rewrite exact_nth, XE. assert (Fx : fin (nth i s n0)) by (rewrite Forall_forall in Fs; apply Fs, nth_In, Hi).
      assert (XB : Rabs (FR (nth i s n0)) <= N). { rewrite <- exact_nth. apply Rle_trans with (2 := A6). apply n2_term, Hi. }
      assert (DB : Rabs (FR (nth i s n0) - FR m) <= Rabs (FR (nth i s n0)) + Rabs (FR m)) by (unfold Rminus; rewrite <- (Rabs_Ropp (FR m)); apply Rabs_triang).
      destruct (op_val (nsub (nth i s n0) m) (FR (nth i s n0) - FR m)) as [G1 G2].
      - intros H. apply FR_sub; assumption.
      - apply Rle_trans with (1 := DB). apply Rle_trans with (4 * p2 16); [lra|]. change 4 with (p2 2). rewrite <- bpow_plus. apply bpow_le. lia.
      - split; [exact G1|]. unfold centred. rewrite exact_length, exact_nth. replace (Nat.ltb i n) with true by lia.
        replace (FR (nsub (nth i s n0) m) - (FR (nth i s n0) - mu)) with ((FR (nsub (nth i s n0) m) - (FR (nth i s n0) - FR m)) + - (FR m - mu)) by ring. apply Rle_trans with (1 := Rabs_triang _ _). rewrite Rabs_Ropp. fold D.
        assert (u * (Rabs (FR (nth i s n0) - FR m) + tiny) <= u * (Rabs (FR (nth i s n0)) + (Rabs mu + D + tiny))) by (apply Rmult_le_compat_l; lra). lra. }
    split.
    - rewrite Forall_forall. intros x Hx. destruct (In_nth _ _ n0 Hx) as (i & Hi & <-). rewrite without_length in Hi. apply V, Hi.
    - apply Rle_trans with (1 := n2_le _ _ _ (fun i Hi => proj2 (V i Hi))). apply Rle_trans with (1 := n2_plus n (fun i => u * Rabs (smp (exact s) i)) (fun _ => u * (Rabs mu + D + tiny) + D)).
      assert (0 <= u * (Rabs mu + D + tiny)) by (apply Rmult_le_pos; lra). rewrite n2_scal, n2_const, n2_abs by lra.
      assert (UE : u <= e / 8000). { change u with (p2 (-53)). apply Rle_trans with (p2 (-23) / 8000); [|lra]. replace (-53)%Z with (-23 + -30)%Z by reflexivity. rewrite bpow_plus. unfold Rdiv. apply Rmult_le_compat_l; [apply bpow_ge_0|]. cbn. lra. }
      assert (Q1 : u * n2 n (smp (exact s)) <= e / 8000 * N) by (apply Rmult_le_compat; try apply n2_pos; lra).
      assert (Q2 : rn * tiny <= N). { apply Rle_trans with (p2 13 * (u * N)); [apply Rmult_le_compat; lra|]. replace (p2 13 * (u * N)) with (p2 13 * u * N) by ring. rewrite <- (Rmult_1_l N) at 2. apply Rmult_le_compat_r; [lra|]. change u with (p2 (-53)). rewrite <- bpow_plus. change 1 with (p2 0). apply bpow_le. lia. }
      assert (Q3 : rn * (u * (Rabs mu + D + tiny) + D) = u * (rn * Rabs mu + rn * D + rn * tiny) + rn * D) by ring. rewrite Q3.
      assert (Q4 : u * (rn * Rabs mu + rn * D + rn * tiny) <= e / 8000 * (3 * N)). { apply Rmult_le_compat; [lra| |exact UE|]. - assert (0 <= rn * Rabs mu) by (apply Rmult_le_pos; lra). assert (0 <= rn * D) by (apply Rmult_le_pos; lra). assert (0 <= rn * tiny) by (apply Rmult_le_pos; lra). lra. - nra. }
      assert (0 < e * N) by nra. lra.
  Qed.
  Lemma u_e' : u <= e / 8000.
  Proof. pose proof e_pos'. change u with (p2 (-53)). apply Rle_trans with (p2 (-23) / 8000); [|lra]. replace (-53)%Z with (-23 + -30)%Z by reflexivity. rewrite bpow_plus. unfold Rdiv. apply Rmult_le_compat_l; [apply bpow_ge_0|]. cbn. lra. Qed.
End Mean.
