(** The envelope and the first alignment with an FFT of limited accuracy (C109). *)
From Coq Require Import ZArith List Bool Lia Arith Reals Lra Psatz Floats.
From Coq Require Import ZifyBool ZifyNat.
From Flocq Require Import Core.Core IEEE754.BinarySingleNaN IEEE754.PrimFloat.
From Verif Require Import Base.Res Base.Num Base.NumR Base.NumF Base.Lists Base.Cplx Model.Amatrix Model.MiscMath Model.Fft Model.FilterBank Model.Alignment
  Spec.FftSpec Spec.FftAccSpec Spec.EnvAccSpec Spec.EnvelopeSpec Proofs.RealP Proofs.FftP Proofs.DftP Proofs.XcorrP Proofs.B64P Proofs.RoundP Proofs.FftNormP Proofs.FftAccP Proofs.FftErrP Proofs.XcorrErrP Proofs.XcorrLagP Proofs.EnvelopeP Proofs.FftDualP Proofs.HilbertP Proofs.MeanErrP Proofs.EnvErrP Proofs.AlignP Proofs.AlignCasesP.
Import ListNotations.
Open Scope R_scope.
Ltac Zify.zify_post_hook ::= Z.div_mod_to_equations.
Local Notation F := PrimFloat.float.
Local Notation p2 := (bpow radix2).

(** the exact envelope in terms of the transforms *)
Lemma rectified_t0 (s : list F) h : (2 <= length s)%nat -> (Z.of_nat (length s) <= 2 ^ 26)%Z -> fm_size (make_fft_manager (length s)) = (2 * h)%nat -> (1 <= h)%nat ->
  length (rectified (exact s)) = length s /\ forall j, (j < length s)%nat -> smp (rectified (exact s)) j = Rabs (t0 s h j) + average (exact s).
Proof.
  intros Hn Hb Hfm Hh. assert (NL : (length s <= 2 * h)%nat) by (rewrite <- Hfm; apply fm_size_ge; lia). pose proof (exact_length s) as LE.
  split; [unfold rectified; rewrite map_length, seq_length; exact LE|]. intros j Hj.
  pose proof (envelope_rectified (exact s) ltac:(lia)) as ER. unfold calc_upper_env in ER.
  set (xr := map (fun x => nsub x (vec_mean (exact s))) (exact s)) in ER. assert (Lx : length xr = length s) by (unfold xr; rewrite map_length; exact LE).
  assert (LB : length (buffer ideal_fft h xr) = (2 * h)%nat) by (unfold buffer; rewrite app_length, map_length, repeat_length; lia).
  assert (PB : pf_fwd ideal_fft (buffer ideal_fft h xr) = packed_dft (2 * h) (smp (buffer ideal_fft h xr))) by (cbn [pf_fwd ideal_fft]; rewrite LB; reflexivity).
  destruct (hilbert_packed ideal_fft h xr ltac:(rewrite Lx; exact Hfm) Hh ltac:(lia) ltac:(rewrite PB; apply packed_length)) as (q & Lq & Q & HH). rewrite HH in ER. cbn [bind] in ER. rewrite map_map in ER. rewrite Lx in ER, Q.
  apply (f_equal (fun z => match z with Ret y => y | _ => [] end)) in ER. rewrite <- ER. clear ER HH.
  cbn [pf_bwd pf_f32 ideal_fft]. rewrite map_id, Lq. set (f := fun v : R => nadd (nabs (cre (nmul v (ndiv n1 (nofnat (2 * h))), n0))) (vec_mean (exact s))).
  unfold smp at 1. rewrite (nth_indep _ 0 (f 0)) by (rewrite map_length, firstn_length, inverse_length; lia). rewrite (map_nth f).
  assert (FV : nth j (firstn (length s) (inverse_packed (2 * h) (smp q))) 0 = nth j (inverse_packed (2 * h) (smp q)) 0).
  { rewrite <- (firstn_skipn (length s) (inverse_packed (2 * h) (smp q))) at 2. rewrite app_nth1; [reflexivity|]. rewrite firstn_length, inverse_length. lia. }
  rewrite FV. unfold f. cbn [cre fst]. rewrite mean_average, nofnat_INR. change (@nadd R _) with Rplus. change (@nabs R _) with Rabs. change (@nmul R _) with Rmult. change (@ndiv R _) with Rdiv. change (@n1 R _) with 1. f_equal. f_equal. unfold t0.
  rewrite (inverse_ext h (smp q) (p0 s h) j Hh ltac:(lia)); [unfold Rdiv; ring|]. intros i Hi. unfold smp. change 0 with (@n0 R _). rewrite Q by exact Hi. change (@n0 R _) with 0. unfold p0. change (@nmul R _) with Rmult. rewrite Rmult_comm. f_equal.
  rewrite PB. change (nth i (packed_dft (2 * h) (smp (buffer ideal_fft h xr))) 0) with (smp (packed_dft (2 * h) (smp (buffer ideal_fft h xr))) i). apply packed_ext; [exact Hh|exact Hi|]. intros m Hm. unfold buffer, smp. cbn [pf_f32 ideal_fft]. rewrite map_id. unfold centred. rewrite LE.
  destruct (Nat.ltb_spec m (length s)) as [C|C].
  - rewrite app_nth1 by lia. unfold xr. set (g := fun x : R => nsub x (vec_mean (exact s))). rewrite (nth_indep _ 0 (g 0)) by (rewrite map_length; lia). rewrite (map_nth g). unfold g. rewrite mean_average. reflexivity.
  - rewrite app_nth2 by lia. apply nth_repeat.
Qed.

Section Env.
  Variables (e : R) (pf : pffft F).
  Hypothesis A : accurate_transforms e pf.
  Hypothesis E : p2 (-23) <= e <= p2 (-10).
  Lemma envelope_near (s : list F) N : Forall fin s -> (2 <= length s)%nat -> (Z.of_nat (length s) <= 2 ^ 26)%Z -> size (exact s) <= N -> p2 (-16) <= N <= p2 16 ->
    exists v, calc_upper_env pf s = Ret v /\ length v = length s /\ Forall fin v /\ length (rectified (exact s)) = length s /\
      n2 (length s) (fun i => smp (exact v) i - smp (rectified (exact s)) i) <= 18 * e * N /\ n2 (length s) (smp (rectified (exact s))) <= 5 * N.
  Proof.
    intros Fs Hn Hb Hs HN. destruct (fm_power (length s) ltac:(lia)) as (k & Hk & Hfm).
    assert (HH : exists h, (2 ^ k)%nat = (2 * h)%nat /\ (1 <= h)%nat). { destruct k as [|k']; [lia|]. exists (2 ^ k')%nat. split; [reflexivity|]. assert (2 ^ k' <> 0)%nat by (apply Nat.pow_nonzero; lia). lia. }
    destruct HH as (h & EM & Hh). rewrite EM in Hfm.
    destruct (hilbert_near e pf A E s N Fs Hn Hb Hs HN k h Hk EM Hfm) as (t & HT & Lt & Ft & Et). pose proof (t0_norm s N Hn Hb Hs k h Hk EM Hfm) as TN0. destruct (mean_near s N e Fs Hn Hb Hs HN E) as (Fm & Mm & Mu).
    destruct (rectified_t0 s h Hn Hb Hfm Hh) as [LR RV]. destruct (n_facts s N Hn Hb Hs) as (_ & _ & _ & (RN1 & RN2) & _). assert (STI : R_sqrt.sqrt (INR (2 * h)) * tiny <= 1 / 1000 * e * N) by (eapply small_tiny; eassumption).
    assert (NL : (length s <= 2 * h)%nat) by (rewrite <- Hfm; apply fm_size_ge; lia). pose proof (N_pos N HN) as NP. pose proof (e_pos e (E' e E)) as EP. pose proof (e_small e (E' e E)) as ES. pose proof (u_e' e E) as UE. pose proof u_pos as U. assert (TP : 0 < tiny) by apply bpow_gt_0. assert (EN : 0 < e * N) by nra.
    assert (TN : n2 (length s) (t0 s h) <= 4 * N) by (apply Rle_trans with (2 := TN0); apply n2_mono, NL).
    set (n := length s) in *. set (rn := R_sqrt.sqrt (INR n)) in *. set (mu := average (exact s)) in *. set (m := vec_mean s) in *. set (D := Rabs (FR m - mu)) in *. assert (D0 : 0 <= D) by apply Rabs_pos. pose proof (Rabs_pos mu) as MU0.
    assert (MB : Rabs (FR m) <= Rabs mu + D). { replace (FR m) with (mu + (FR m - mu)) by ring. apply Rabs_triang. }
    assert (RT : rn * tiny <= 1 / 1000 * e * N). { apply Rle_trans with (2 := STI). apply Rmult_le_compat_r; [lra|]. apply sqrt_le_1_alt, le_INR, NL. }
    assert (NT : n2 n (smp (exact t)) <= 402 / 100 * N). { apply Rle_trans with (1 := n2_near _ _ _ _ Et). nra. }
    set (v := map (fun z => nadd (nabs z) m) t). assert (Lv : length v = n) by (unfold v; rewrite map_length; exact Lt).
    assert (VV : forall j, (j < n)%nat -> fin (nth j v n0) /\ Rabs (smp (exact v) j - smp (rectified (exact s)) j) <= Rabs (smp (exact t) j - t0 s h j) + (u * Rabs (smp (exact t) j) + (D + u * (Rabs mu + D + tiny)))).
    { intros j Hj. assert (V : nth j v n0 = nadd (nabs (nth j t n0)) m). { unfold v. set (f := fun z : F => nadd (nabs z) m). rewrite (nth_indep _ n0 (f n0)) by (rewrite map_length; lia). apply (map_nth f). }
      destruct (abs_val (nth j t n0)) as [AV1 AV2]. assert (Ftj : fin (nth j t n0)) by (rewrite Forall_forall in Ft; apply Ft, nth_In; lia). specialize (AV2 Ftj).
      assert (TJ : Rabs (smp (exact t) j) <= 402 / 100 * N) by (apply Rle_trans with (2 := NT); apply n2_term, Hj). rewrite exact_nth in TJ.
      assert (SB : Rabs (FR (nabs (nth j t n0)) + FR m) <= Rabs (FR (nth j t n0)) + (Rabs mu + D)). { apply Rle_trans with (1 := Rabs_triang _ _). rewrite AV1, Rabs_Rabsolu. lra. }
      assert (MU1 : Rabs mu + D <= 2 * N) by nra.
      rewrite exact_nth, V. destruct (op_val (nadd (nabs (nth j t n0)) m) (FR (nabs (nth j t n0)) + FR m)) as [G1 G2].
      - intros H. apply FR_add; assumption.
      - apply Rle_trans with (1 := SB). apply Rle_trans with (8 * p2 16); [lra|]. change 8 with (p2 3). rewrite <- bpow_plus. apply bpow_le. lia.
      - split; [exact G1|]. rewrite RV by exact Hj. fold mu. rewrite exact_nth.
        replace (FR (nadd (nabs (nth j t n0)) m) - (Rabs (t0 s h j) + mu)) with ((FR (nadd (nabs (nth j t n0)) m) - (FR (nabs (nth j t n0)) + FR m)) + ((Rabs (FR (nth j t n0)) - Rabs (t0 s h j)) + (FR m - mu))) by (rewrite AV1; ring).
        apply Rle_trans with (1 := Rabs_triang _ _). pose proof (Rabs_triang (Rabs (FR (nth j t n0)) - Rabs (t0 s h j)) (FR m - mu)) as T1. fold D in T1. pose proof (Rabs_triang_inv2 (FR (nth j t n0)) (t0 s h j)) as T2.
        assert (u * (Rabs (FR (nabs (nth j t n0)) + FR m) + tiny) <= u * (Rabs (FR (nth j t n0)) + (Rabs mu + D + tiny))) by (apply Rmult_le_compat_l; lra). lra. }
    exists v. split; [|split; [exact Lv|split; [|split; [exact LR|split]]]].
    - unfold calc_upper_env. fold m. change (map (fun x => nsub x m) s) with (without_mean s). rewrite HT. cbn [bind]. apply (f_equal (@Ret _)). rewrite map_map. reflexivity.
    - rewrite Forall_forall. intros y Hy. destruct (In_nth _ _ n0 Hy) as (j & Hj & <-). rewrite Lv in Hj. apply VV, Hj.
    - apply Rle_trans with (1 := n2_le _ _ _ (fun i Hi => proj2 (VV i Hi))). apply Rle_trans with (1 := n2_plus n (fun j => Rabs (smp (exact t) j - t0 s h j)) (fun j => u * Rabs (smp (exact t) j) + (D + u * (Rabs mu + D + tiny)))).
      rewrite (n2_abs n (fun j => smp (exact t) j - t0 s h j)). pose proof (n2_plus n (fun j => u * Rabs (smp (exact t) j)) (fun _ => D + u * (Rabs mu + D + tiny))) as P. assert (0 <= u * (Rabs mu + D + tiny)) by (apply Rmult_le_pos; lra). rewrite n2_scal, n2_const, n2_abs in P by lra. fold rn in P.
      assert (Q1 : u * n2 n (smp (exact t)) <= e / 8000 * (402 / 100 * N)) by (apply Rmult_le_compat; try apply n2_pos; lra).
      assert (Q3 : rn * (D + u * (Rabs mu + D + tiny)) = rn * D + u * (rn * Rabs mu + rn * D + rn * tiny)) by ring. rewrite Q3 in P.
      assert (Q4 : u * (rn * Rabs mu + rn * D + rn * tiny) <= e / 8000 * (3 * N)). { apply Rmult_le_compat; [lra| |exact UE|]. - assert (0 <= rn * Rabs mu) by (apply Rmult_le_pos; lra). assert (0 <= rn * D) by (apply Rmult_le_pos; lra). assert (0 <= rn * tiny) by (apply Rmult_le_pos; lra). lra. - nra. }
      lra.
    - rewrite (n2_ext n _ (fun j => Rabs (t0 s h j) + mu)) by (intros j Hj; apply RV, Hj). apply Rle_trans with (1 := n2_plus n (fun j => Rabs (t0 s h j)) (fun _ => mu)). rewrite n2_abs. rewrite <- (n2_abs n (fun _ => mu)), n2_const by lra. fold rn. lra.
  Qed.

  Lemma distance_n2 (a b : list R) n : length a = n -> distance a b = n2 n (fun i => smp a i - smp b i).
  Proof. intros <-. unfold distance, n2. f_equal. apply sum_ext. intros; ring. Qed.
  Lemma envelope_distance (s : list F) : Forall fin s -> (2 <= length s)%nat -> (Z.of_nat (length s) <= 2 ^ 26)%Z -> p2 (-16) <= size (exact s) <= p2 16 ->
    exists v, calc_upper_env pf s = Ret v /\ length v = length s /\ Forall fin v /\ distance (exact v) (rectified (exact s)) <= 18 * e * size (exact s).
  Proof.
    intros Fs Hn Hb Hs. destruct (envelope_near s _ Fs Hn Hb (Rle_refl _) Hs) as (v & V & Lv & Fv & _ & D & _). exists v. split; [exact V|]. split; [exact Lv|]. split; [exact Fv|]. rewrite (distance_n2 _ _ (length s)) by (rewrite exact_length; exact Lv). exact D.
  Qed.

  Local Notation in_range s := (Forall fin s /\ (2 <= length s)%nat /\ (Z.of_nat (length s) <= 2 ^ 26)%Z /\ p2 (-16) <= size (exact s) <= p2 16).
  Lemma alignment_lag (s1 s2 : list F) g : in_range s1 -> in_range s2 -> let n := Nat.max (length s1) (length s2) in (9 <= n)%nat ->
    (- (Z.of_nat n - 1) <= g <= Z.of_nat n - 1)%Z ->
    (forall g', (- (Z.of_nat n - 1) <= g' <= Z.of_nat n - 1)%Z -> g' <> g ->
       cross_correlation (rectified (exact s1)) (rectified (exact s2)) g' + 1700 * e * (size (exact s1) * size (exact s2)) < cross_correlation (rectified (exact s1)) (rectified (exact s2)) g) ->
    exists v1 v2, calc_upper_env pf s1 = Ret v1 /\ calc_upper_env pf s2 = Ret v2 /\ find_lowest_lag_index pf v1 v2 = Ret g.
  Proof.
    intros (F1 & A1 & B1 & S1) (F2 & A2 & B2 & S2) n Hn Hg H. set (N1 := size (exact s1)) in *. set (N2 := size (exact s2)) in *.
    destruct (envelope_near s1 N1 F1 A1 B1 (Rle_refl _) S1) as (v1 & V1 & L1 & G1 & LR1 & D1 & R1). destruct (envelope_near s2 N2 F2 A2 B2 (Rle_refl _) S2) as (v2 & V2 & L2 & G2 & LR2 & D2 & R2).
    exists v1, v2. split; [exact V1|]. split; [exact V2|].
    pose proof (N_pos N1 S1) as NP1. pose proof (N_pos N2 S2) as NP2. pose proof (e_pos e (E' e E)) as EP. pose proof (e_small e (E' e E)) as ES. assert (NN : 0 < N1 * N2) by nra. assert (ENN : 0 < e * (N1 * N2)) by nra.
    assert (Z1 : size (exact v1) <= 502 / 100 * N1). { rewrite <- (size_n2 _ (length s1)) by (rewrite exact_length; lia). apply Rle_trans with (1 := n2_near _ _ _ _ D1). nra. }
    assert (Z2 : size (exact v2) <= 502 / 100 * N2). { rewrite <- (size_n2 _ (length s2)) by (rewrite exact_length; lia). apply Rle_trans with (1 := n2_near _ _ _ _ D2). nra. }
    assert (BN : forall z, p2 (-16) <= z <= p2 16 -> p2 (-20) <= 502 / 100 * z <= p2 20). { intros z Hz. assert (p2 (-20) <= p2 (-16)) by (apply bpow_le; lia). assert (8 * p2 16 <= p2 20) by (change 8 with (p2 3); rewrite <- bpow_plus; apply bpow_le; lia). pose proof (bpow_gt_0 radix2 (-16)). lra. }
    assert (CD : forall g', Rabs (cross_correlation (exact v1) (exact v2) g' - cross_correlation (rectified (exact s1)) (rectified (exact s2)) g') <= 181 * e * (N1 * N2)).
    { intros g'. apply Rle_trans with (1 := cross_diff (exact v1) (exact v2) (rectified (exact s1)) (rectified (exact s2)) g' ltac:(rewrite exact_length; lia) ltac:(rewrite exact_length; lia)). set (K := Nat.max _ _).
      assert (T1 : n2 K (fun i => smp (exact v1) i - smp (rectified (exact s1)) i) <= 18 * e * N1) by (rewrite (n2_zero_tail (length s1) K); [exact D1|unfold K; rewrite !exact_length; lia|intros i Hi; rewrite !smp_out by (rewrite ?exact_length; lia); ring]).
      assert (T2 : n2 K (fun i => smp (exact v2) i - smp (rectified (exact s2)) i) <= 18 * e * N2) by (rewrite (n2_zero_tail (length s2) K); [exact D2|unfold K; rewrite !exact_length; lia|intros i Hi; rewrite !smp_out by (rewrite ?exact_length; lia); ring]).
      assert (T3 : n2 K (smp (exact v2)) <= 502 / 100 * N2) by (rewrite size_n2 by (unfold K; lia); exact Z2).
      assert (T4 : n2 K (smp (rectified (exact s1))) <= 5 * N1) by (rewrite (n2_zero_tail (length s1) K); [exact R1|unfold K; rewrite !exact_length; lia|intros i Hi; apply smp_out; lia]).
      assert (T5 : n2 K (fun i => smp (exact v1) i - smp (rectified (exact s1)) i) * n2 K (smp (exact v2)) <= 18 * e * N1 * (502 / 100 * N2)) by (apply Rmult_le_compat; try apply n2_pos; assumption).
      assert (T6 : n2 K (smp (rectified (exact s1))) * n2 K (fun i => smp (exact v2) i - smp (rectified (exact s2)) i) <= 5 * N1 * (18 * e * N2)) by (apply Rmult_le_compat; try apply n2_pos; assumption). lra. }
    assert (LN : Nat.max (length v1) (length v2) = n) by (unfold n; rewrite L1, L2; reflexivity).
    apply (lag_exact e pf v1 v2 (transforms_fft _ _ A) (E' e E) ltac:(rewrite LN; exact Hn) ltac:(rewrite LN; unfold n; lia) G1 G2 _ _ Z1 Z2 (BN _ S1) (BN _ S2)); rewrite LN; [exact Hg|].
    intros g' Hg' NE. specialize (H g' Hg' NE). pose proof (CD g) as C1. pose proof (CD g') as C2. apply Raux.Rabs_le_inv in C1, C2. lra.
  Qed.
  Lemma lag_applied (ref deg : audio F) g : (Z.of_nat (length (au_data ref)) <= 2 ^ 26)%Z -> (Z.of_nat (length (au_data deg)) <= 2 ^ 26)%Z ->
    (- Z.of_nat (length (au_data deg)) < g < Z.of_nat (length (au_data ref)))%Z -> apply_lag ref deg g = Ret (moved_by g ref deg).
  Proof.
    intros Hr Hd Hg. unfold apply_lag, nofnat, moved_by. rewrite half_exact_F by lia.
    destruct (Z.eqb_spec g 0) as [->|G0]; cbn [orb]; [reflexivity|]. destruct (Z.ltb_spec (Z.of_nat (length (au_data ref))) (2 * Z.abs g)) as [C|C]; cbn [orb]; [reflexivity|].
    destruct (Z.ltb_spec g 0) as [G1|G1]; [|reflexivity]. rewrite size_small by (unfold two64; lia). rewrite v_rows_ret by lia. cbn [bind].
    rewrite firstn_all2 by (rewrite skipn_length; lia). replace (Z.abs g) with (- g)%Z by lia. reflexivity.
  Qed.
  Lemma alignment_shift (ref deg : audio F) g : in_range (au_data ref) -> in_range (au_data deg) -> let n := Nat.max (length (au_data ref)) (length (au_data deg)) in (9 <= n)%nat ->
    (- Z.of_nat (length (au_data deg)) < g < Z.of_nat (length (au_data ref)))%Z ->
    (forall g', (- (Z.of_nat n - 1) <= g' <= Z.of_nat n - 1)%Z -> g' <> g ->
       cross_correlation (rectified (exact (au_data ref))) (rectified (exact (au_data deg))) g' + 1700 * e * (size (exact (au_data ref)) * size (exact (au_data deg)))
         < cross_correlation (rectified (exact (au_data ref))) (rectified (exact (au_data deg))) g) ->
    globally_align pf ref deg = Ret (moved_by g ref deg).
  Proof.
    intros H1 H2 n Hn Hg H. destruct (alignment_lag _ _ g H1 H2 Hn ltac:(fold n; lia) H) as (v1 & v2 & V1 & V2 & G). unfold globally_align. rewrite V1, V2. cbn [bind]. rewrite G. cbn [bind]. apply lag_applied; try exact Hg; [apply H1|apply H2].
  Qed.
End Env.

(** *** the library of C108 is accurate in the mean square *)
Lemma single_transforms : accurate_transforms (p2 (-22)) single_fft.
Proof.
  constructor; [exact single_accurate|]. intros k l Hk Ll Fl Sl. cbn [pf_bwd single_fft]. rewrite !Ll in *.
  assert (E2 : p2 (-22) = 2 * p2 (-23)) by (replace (-22)%Z with (1 + -23)%Z by reflexivity; rewrite bpow_plus; change (p2 1) with 2; reflexivity). assert (P23 : 0 < p2 (-23)) by apply bpow_gt_0.
  assert (HH : exists h, (2 ^ k)%nat = (2 * h)%nat /\ (1 <= h)%nat). { destruct k as [|k']; [lia|]. exists (2 ^ k')%nat. split; [reflexivity|]. assert (2 ^ k' <> 0)%nat by (apply Nat.pow_nonzero; lia). lia. }
  destruct HH as (h & EM & Hh). destruct (root_of_size k Hk) as ((R1 & R2) & (M1 & M2) & _ & SQ). rewrite EM in *. set (X := inverse_packed (2 * h) (smp (exact l))). assert (LX : length X = (2 * h)%nat) by apply inverse_length.
  set (N := n2 (2 * h) (smp (exact l))) in *. pose proof (n2_pos (2 * h) (smp (exact l)) : 0 <= N) as NP. set (r := R_sqrt.sqrt (INR (2 * h))) in *.
  assert (NX : n2 (2 * h) (smp X) <= 2 * r * N) by (apply inverse_norm, Hh).
  assert (XV : forall j, (j < 2 * h)%nat -> Rabs (FR (nth j (map single X) 0%float) - smp X j) <= p2 (-23) * Rabs (smp X j) + p2 (-148)).
  { intros j Hj. rewrite (nth_indep _ 0%float (single 0)) by (rewrite map_length; lia). rewrite map_nth. apply single_near. apply Rle_trans with (1 := inverse_bound h _ j Hh Hj). apply Rle_trans with (2 * p2 100); [lra|]. change 2 with (p2 1). rewrite <- bpow_plus. apply bpow_le. lia. }
  assert (NE : n2 (2 * h) (fun j => FR (nth j (map single X) 0%float) - smp X j) <= p2 (-23) * (2 * r * N) + r * p2 (-148)).
  { apply Rle_trans with (1 := n2_le _ _ _ XV). apply Rle_trans with (1 := n2_plus (2 * h) (fun j => p2 (-23) * Rabs (smp X j)) (fun _ => p2 (-148))). rewrite n2_scal, n2_const, n2_abs by (try apply bpow_ge_0; lra). fold r. apply Rplus_le_compat_r. apply Rmult_le_compat_l; lra. }
  rewrite (sum_ext _ _ (fun j => (FR (nth j (map single X) 0%float) - smp X j) * (FR (nth j (map single X) 0%float) - smp X j))) by (intros; unfold smp, X; ring).
  rewrite <- (n2_sq (2 * h) (fun j => FR (nth j (map single X) 0%float) - smp X j)). rewrite (sum_ext _ (fun i => smp (exact l) i ^ 2) (fun i => smp (exact l) i * smp (exact l) i)) by (intros; ring). rewrite <- n2_sq. fold N. rewrite <- SQ.
  pose proof (n2_pos (2 * h) (fun j => FR (nth j (map single X) 0%float) - smp X j)) as ZP. set (z := n2 (2 * h) (fun j => FR (nth j (map single X) 0%float) - smp X j)) in *.
  assert (PB : 0 < p2 (-148)) by apply bpow_gt_0. apply Rle_trans with ((p2 (-23) * (2 * r * N) + r * p2 (-148)) * (p2 (-23) * (2 * r * N) + r * p2 (-148))); [apply Rmult_le_compat; assumption|].
  replace ((p2 (-23) * (2 * r * N) + r * p2 (-148)) * (p2 (-23) * (2 * r * N) + r * p2 (-148))) with (r * r * ((2 * (p2 (-23) * N) + p2 (-148)) * (2 * (p2 (-23) * N) + p2 (-148)))) by ring. rewrite E2.
  replace ((2 * p2 (-23)) ^ 2 * (4 * (r * r) * (N * N + p2 (-100)))) with (r * r * (16 * (p2 (-23) * N * (p2 (-23) * N)) + 16 * (p2 (-23) * p2 (-23) * p2 (-100)))) by ring. apply Rmult_le_compat_l; [apply Rmult_le_pos; lra|].
  assert (B2 : p2 (-148) * p2 (-148) <= p2 (-23) * p2 (-23) * p2 (-100)) by (rewrite <- !bpow_plus; apply bpow_le; lia). pose proof (Rle_0_sqr (p2 (-23) * N - p2 (-148))) as SS. unfold Rsqr in SS. set (a := p2 (-23) * N) in *. set (b := p2 (-148)) in *. pose proof (Rle_0_sqr a) as SA. unfold Rsqr in SA. set (c := p2 (-23) * p2 (-23) * p2 (-100)) in *. clearbody a b c. nra.
Qed.
