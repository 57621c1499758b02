(** Sums and averages of bounded binary64 numbers, and the result of one patch (C106). *)
From Coq Require Import ZArith List Bool Reals Lra Lia Floats.
From Verif Require Import Base.Res Base.Num Base.NumR Base.NumF Base.Lists Base.Mat Model.Amatrix Model.Nsim Model.Selector
  Spec.SmoothSpec Spec.StatSpec Spec.RoundSpec Spec.AggSpec Spec.MatchSpec Proofs.RealP Proofs.ConvP Proofs.NsimP Proofs.B64P Proofs.RoundP Proofs.ScoresP Proofs.MatchP Proofs.ShapeP Proofs.AggregateP
  Proofs.FinitePrepP Proofs.FiniteNsimP Proofs.NsimRoundP Proofs.NsimRoundAllP Proofs.NsimWideP.
Import ListNotations.
Open Scope R_scope.

Definition upto (K : R) (x : PrimFloat.float) : Prop := fin x /\ Rabs (FR x) <= K.
Lemma upto_weaken K K' x : K <= K' -> upto K x -> upto K' x.
Proof. intros H [F B]. split; [exact F|lra]. Qed.
Lemma upto_zero K : 0 <= K -> upto K (@n0 PrimFloat.float NumF).
Proof. intros H. destruct FR_zero as [E F]. split; [exact F|]. change (@n0 PrimFloat.float NumF) with (F_ofZ 0). rewrite E, Rabs_R0. exact H. Qed.

Lemma total_app a b : total (a ++ b) = total a + total b.
Proof. unfold total. induction a as [|x a IH]; cbn [app fold_right]; [lra|]. rewrite IH. lra. Qed.

(** n numbers of at most K: the error of the sum is at most n times that of one addition *)
Lemma sum_near K n : 1 <= K <= 100000 -> 1 <= n <= 2000000000 -> forall (l : list PrimFloat.float) x r k, Forall (upto K) l -> 0 <= k -> k + INR (length l) <= n ->
  near x r (k * (u * (1.01 * n * K))) (k * K) ->
  near (fold_left PrimFloat.add l x) (r + total (map FR l)) ((k + INR (length l)) * (u * (1.01 * n * K))) ((k + INR (length l)) * K).
Proof.
  intros HK Hn. tb. assert (NK : 1 <= n * K <= 200000000000000). { split; [replace 1 with (1 * 1) by ring; apply Rmult_le_compat; lra|apply Rle_trans with (2000000000 * 100000); [apply Rmult_le_compat; lra|lra]]. }
  set (B := 1.01 * n * K). assert (BE : B = 1.01 * (n * K)) by (unfold B; ring).
  assert (UB : 0 <= u * B <= 2 / 10000000000000000 * (n * K)).
  { rewrite BE. split; [apply Rmult_le_pos; lra|]. assert (u * (1.01 * (n * K)) <= 12 / 100000000000000000 * (1.01 * (n * K))) by (apply Rmult_le_compat_r; lra). lra. }
  assert (UE : u * B <= K / 10000) . { apply Rle_trans with (1 := proj2 UB). assert (n * K <= 2000000000 * K) by (apply Rmult_le_compat_r; lra). lra. }
  induction l as [|y l IH]; intros x r k HF Hk Hl HX.
  - cbn [fold_left map total fold_right length INR]. rewrite !Rplus_0_r. exact HX.
  - inversion HF as [|? ? [F1 B1] HT]; subst. cbn [map fold_left].
    replace (INR (length (y :: l))) with (1 + INR (length l)) in * by (cbn [length]; rewrite S_INR; ring). pose proof (pos_INR (length l)).
    replace (r + total (FR y :: map FR l)) with (r + FR y + total (map FR l)) by (unfold total; cbn [fold_right]; ring).
    replace (k + (1 + INR (length l))) with (k + 1 + INR (length l)) by ring.
    apply IH; [exact HT|lra|lra|].
    apply (near_weaken _ _ ((k + 1) * (u * B)) (k * K + K)); [|lra|lra].
    assert (KN : k + 1 <= n) by lra. assert (KK : (k + 1) * K <= n * K) by (apply Rmult_le_compat_r; lra).
    assert (KU : k * (u * B) <= n * (K / 10000)) by (apply Rmult_le_compat; lra).
    apply (near_add _ _ _ _ _ _ 0 K B _ HX (near_exact y K F1 B1)); [clearbody B; lra ..].
Qed.

Lemma average_near K (l : list PrimFloat.float) : 1 <= K <= 100000 -> l <> [] -> (Z.of_nat (length l) <= 2000000000)%Z -> Forall (upto K) l ->
  near (ndiv (nsum l) (nofnat (length l))) (mean (map FR l)) (u * (1.1 * INR (length l) * K) + u * (2 * K)) K.
Proof.
  intros HK HL HN HF. tb. set (n := INR (length l)).
  assert (N1 : 1 <= n <= 2000000000). { unfold n. rewrite INR_IZR_INZ. split; apply IZR_le; [destruct l; [congruence|cbn [length]; lia]|lia]. }
  assert (Z0 : near (@n0 PrimFloat.float NumF) 0 (0 * (u * (1.01 * n * K))) (0 * K)) by (rewrite !Rmult_0_l; apply (near_ofZ 0); [reflexivity|rewrite Rabs_R0; lra]).
  pose proof (sum_near K n HK N1 l n0 0 0 HF ltac:(lra) ltac:(unfold n; lra) Z0) as S. fold n in S. rewrite !Rplus_0_l in S.
  assert (D : near (nofnat (length l)) n 0 n).
  { unfold nofnat, n. rewrite INR_IZR_INZ. apply (near_ofZ (Z.of_nat (length l))); [lia|]. rewrite Rabs_pos_eq by (apply IZR_le; lia). lra. }
  unfold mean. rewrite map_length. fold n. cbn [ndiv NumF].
  set (e := u * (1.01 * n * K)) in *. assert (E0 : 0 <= e) by (unfold e; apply Rmult_le_pos; [lra|]; apply Rmult_le_pos; lra).
  assert (NK : n * K <= 2000000000 * K) by (apply Rmult_le_compat_r; lra).
  assert (EK : e <= K / 10000). { unfold e. replace (1.01 * n * K) with (1.01 * (n * K)) by ring. apply Rle_trans with (12 / 100000000000000000 * (1.01 * (n * K))); [apply Rmult_le_compat_r; [|lra]; assert (0 <= n * K) by (apply Rmult_le_pos; lra); lra|lra]. }
  apply (near_div _ _ _ _ _ _ _ _ n K e _ S D); try lra.
  - destruct S as (_ & _ & S). lra.
  - assert (UE : u * e <= u * (K / 10000)) by (apply Rmult_le_compat_l; lra). assert (EE : e = 1.01 * (u * (n * K))) by (unfold e; lra).
    assert (P : 0 <= u * (n * K)) by (apply Rmult_le_pos; [lra|]; apply Rmult_le_pos; lra). assert (P2 : 0 <= u * K) by (apply Rmult_le_pos; lra). clearbody e. lra.
Qed.
Lemma mean_le K l : 0 <= K -> Forall (fun x => Rabs x <= K) l -> Rabs (mean l) <= K.
Proof.
  intros HK H. destruct l as [|x l]; [unfold mean, total; cbn; unfold Rdiv; rewrite Rmult_0_l, Rabs_R0; lra|]. set (m := x :: l) in *.
  assert (T : Rabs (total m) <= INR (length m) * K).
  { clearbody m. induction H as [|y m' H1 H2 IH]; [cbn; rewrite Rabs_R0; lra|]. cbn [length]. rewrite S_INR. unfold total in *. cbn [fold_right]. apply Rle_trans with (1 := Rabs_triang _ _). lra. }
  assert (P : 0 < INR (length m)) by (apply lt_0_INR; unfold m; cbn; lia).
  unfold mean, Rdiv. rewrite Rabs_mult, (Rabs_pos_eq (/ INR (length m))) by (left; apply Rinv_0_lt_compat; exact P).
  apply Rmult_le_reg_r with (INR (length m)); [exact P|]. rewrite Rmult_assoc, Rinv_l by lra. lra.
Qed.
Lemma mean_close e l l' : 0 <= e -> Forall2 (fun x y => Rabs (x - y) <= e) l l' -> Rabs (mean l - mean l') <= e.
Proof.
  intros He H. destruct l as [|x l]; [inversion H; subst; unfold mean, total; cbn; unfold Rdiv; rewrite Rmult_0_l, Rminus_diag_eq, Rabs_R0 by reflexivity; lra|]. set (m := x :: l) in *.
  assert (E : length l' = length m) by (symmetry; clear - H; induction H; cbn; congruence).
  assert (T : Rabs (total m - total l') <= INR (length m) * e).
  { clear E. clearbody m. induction H as [|y z m' l' H1 H2 IH]; [cbn; rewrite Rminus_diag_eq, Rabs_R0 by reflexivity; lra|]. cbn [length]. rewrite S_INR. unfold total in *. cbn [fold_right].
    replace (y + fold_right Rplus 0 m' - (z + fold_right Rplus 0 l')) with ((y - z) + (fold_right Rplus 0 m' - fold_right Rplus 0 l')) by ring. apply Rle_trans with (1 := Rabs_triang _ _). lra. }
  assert (P : 0 < INR (length m)) by (apply lt_0_INR; unfold m; cbn; lia).
  unfold mean. rewrite E. unfold Rdiv. rewrite <- Rmult_minus_distr_r, Rabs_mult, (Rabs_pos_eq (/ INR (length m))) by (left; apply Rinv_0_lt_compat; exact P).
  apply Rmult_le_reg_r with (INR (length m)); [exact P|]. rewrite Rmult_assoc, Rinv_l by lra. lra.
Qed.

(** *** the result of one patch: finite means per band of moderate size, whose average the similarity is *)
Definition sound_result (x : psr PrimFloat.float) : Prop :=
  Forall (upto 9000) (elems (ps_means x)) /\ upto 9000 (ps_sim x) /\ Rabs (FR (ps_sim x) - mean (map FR (elems (ps_means x)))) <= 1 / 1000000.

Lemma measure_sound (A B : mat PrimFloat.float) : wide A -> wide B -> nrows A = nrows B -> ncols A = ncols B ->
  (Z.of_nat (nrows A) <= 1000)%Z -> (Z.of_nat (ncols A) <= 2000000000)%Z -> exists x, measure_patch_similarity A B = Ret x /\ sound_result x.
Proof.
  intros HA HB ER EC NR NC. assert (HA' := HA). destruct HA' as (HR & HC & _). tb.
  unfold measure_patch_similarity. rewrite nsim_map_spec by assumption. cbn [bind]. eexists. split; [reflexivity|]. unfold sound_result. cbn [ps_sim ps_means].
  set (S0 := tab (nrows A) (ncols A) _). unfold m_mean_rows. change (nrows S0) with (nrows A). change (ncols S0) with (ncols A).
  replace (Nat.eqb (ncols A) 0) with false by (symmetry; apply Nat.eqb_neq; lia).
  assert (EM : elems (tab (nrows A) 1 (fun r _ => vmean (row_list S0 r))) = map (fun r => vmean (row_list S0 r)) (seq 0 (nrows A))).
  { cbn [tab elems seq flat_map]. apply app_nil_r. }
  rewrite EM. change (nrows (tab (nrows A) 1 (fun r _ => vmean (row_list S0 r)))) with (nrows A).
  assert (NS : forall T (f : nat -> T) n, (0 < n)%nat -> map f (seq 0 n) <> []) by (intros T f [|n] Hn; [lia|discriminate]).
  assert (BANDS : forall r, (r < nrows A)%nat -> upto 8800 (vmean (row_list S0 r))).
  { intros r Hr. unfold row_list. change (ncols S0) with (ncols A).
    assert (FE : Forall (upto 8700) (map (fun c => at_ S0 r c) (seq 0 (ncols A)))).
    { apply Forall_map, Forall_forall. intros c Hc. apply in_seq in Hc. unfold S0. rewrite at_tab by lia. apply (entry_wide A B r c HA HB ER EC). }
    pose proof (average_near 8700 _ ltac:(lra) (NS _ _ _ HC) ltac:(rewrite map_length, seq_length; lia) FE) as Q.
    assert (V := near_value _ _ _ _ Q). destruct Q as (F & _ & _). split; [exact F|]. eapply Rle_trans; [exact V|].
    rewrite map_length, seq_length. assert (INR (ncols A) <= 2000000000) by (rewrite INR_IZR_INZ; apply IZR_le; lia). pose proof (pos_INR (ncols A)).
    assert (u * (1.1 * INR (ncols A) * 8700) <= u * (1.1 * 2000000000 * 8700)) by (apply Rmult_le_compat_l; lra). lra. }
  assert (FB : Forall (upto 8800) (map (fun r => vmean (row_list S0 r)) (seq 0 (nrows A)))).
  { apply Forall_map, Forall_forall. intros r Hr. apply in_seq in Hr. apply BANDS. lia. }
  split; [eapply Forall_impl; [|exact FB]; intros y; apply upto_weaken; lra|].
  pose proof (average_near 8800 _ ltac:(lra) (NS _ _ _ HR) ltac:(rewrite map_length, seq_length; lia) FB) as Q.
  rewrite map_length, seq_length in Q. set (l := map (fun r => vmean (row_list S0 r)) (seq 0 (nrows A))) in *.
  assert (INR (nrows A) <= 1000) by (rewrite INR_IZR_INZ; apply IZR_le; lia). pose proof (pos_INR (nrows A)).
  assert (u * (1.1 * INR (nrows A) * 8800) <= u * (1.1 * 1000 * 8800)) by (apply Rmult_le_compat_l; lra).
  assert (V := near_value _ _ _ _ Q). destruct Q as (F & D & _). split; [split; [exact F|lra]|]. lra.
Qed.
Lemma with_times_sound (x : psr PrimFloat.float) lost o i fd pd : sound_result x -> sound_result (with_times x lost o i fd pd).
Proof.
  intros H. unfold with_times. destruct lost; [|destruct H as (H1 & H2 & H3); refine (conj H1 (conj H2 H3))].
  assert (ZF : forall l : list PrimFloat.float, (forall y, In y l -> y = n0) -> Forall (upto 9000) l /\ mean (map FR l) = 0).
  { intros l Hl. split; [apply Forall_forall; intros y Hy; rewrite (Hl y Hy); apply upto_zero; lra|].
    unfold mean. assert (total (map FR l) = 0) as ->; [|unfold Rdiv; ring]. destruct FR_zero as [E _]. unfold total. induction l as [|y l IH]; [reflexivity|]. cbn [map fold_right].
    rewrite IH by (intros; apply Hl; now right). rewrite (Hl y (or_introl eq_refl)). change (@n0 PrimFloat.float NumF) with (F_ofZ 0). rewrite E. ring. }
  unfold sound_result. cbn [ps_sim ps_means]. destruct (ZF (elems (m_filled (nrows (ps_means x)) (ncols (ps_means x)) n0))) as [Z1 Z2].
  { intros y Hy. unfold m_filled, tab in Hy. cbn [elems] in Hy. apply in_flat_map in Hy. destruct Hy as (? & _ & Hy). apply in_map_iff in Hy. destruct Hy as (? & <- & _). reflexivity. }
  split; [exact Z1|]. split; [apply upto_zero; lra|]. rewrite Z2. destruct FR_zero as [E _]. change (@n0 PrimFloat.float NumF) with (F_ofZ 0). rewrite E, Rminus_diag_eq, Rabs_R0 by reflexivity. lra.
Qed.

(** *** the score of a path *)
Lemma score_near (SIM : nat -> nat -> PrimFloat.float) off K N : 1 <= K <= 100000 -> 1 <= N <= 2000000000 -> forall n, INR (S n) <= N ->
  (forall i, (i <= n)%nat -> upto K (SIM i (off i))) ->
  near (score SIM off n) (score (fun i s => FR (SIM i s)) off n) (INR n * (u * (1.01 * N * K))) (INR (S n) * K).
Proof.
  intros HK HN. tb. assert (NK : 1 <= N * K <= 200000000000000). { split; [replace 1 with (1 * 1) by ring; apply Rmult_le_compat; lra|apply Rle_trans with (2000000000 * 100000); [apply Rmult_le_compat; lra|lra]]. }
  set (B := 1.01 * N * K). assert (BE : B = 1.01 * (N * K)) by (unfold B; ring).
  assert (UB : 0 <= u * B <= 2 / 10000000000000000 * (N * K)).
  { rewrite BE. split; [apply Rmult_le_pos; lra|]. assert (u * (1.01 * (N * K)) <= 12 / 100000000000000000 * (1.01 * (N * K))) by (apply Rmult_le_compat_r; lra). lra. }
  assert (UE : u * B <= K / 10000) . { apply Rle_trans with (1 := proj2 UB). assert (N * K <= 2000000000 * K) by (apply Rmult_le_compat_r; lra). lra. }
  induction n as [|n IH]; intros Hn HS.
  - cbn [score]. replace (INR 0 * (u * B)) with 0 by (cbn; ring). destruct (HS 0%nat (le_n _)) as [F V]. replace (INR 1 * K) with K by (cbn; ring). now apply near_exact.
  - specialize (IH ltac:(rewrite S_INR in Hn; lra) (fun i Hi => HS i (le_S _ _ Hi))). cbn [score]. rewrite (S_INR (S n)), !S_INR in *. pose proof (pos_INR n).
    destruct (skipped off (S n)).
    + apply (near_weaken _ _ _ _ _ _ IH); lra.
    + destruct (HS (S n) (le_n _)) as [F V]. cbn [nadd NumF NumR].
      apply (near_weaken _ _ ((INR n + 1) * (u * B)) (K + (INR n + 1) * K)); [|lra|lra].
      assert (KK : (INR n + 1 + 1) * K <= N * K) by (apply Rmult_le_compat_r; lra).
      assert (KU : INR n * (u * B) <= N * (K / 10000)) by (apply Rmult_le_compat; lra).
      apply (near_add _ _ 0 K _ _ _ _ B _ (near_exact _ K F V) IH); [clearbody B; lra ..].
Qed.
Lemma reported_total (RES : nat -> nat -> psr PrimFloat.float) (off : nat -> nat) idx fd pd : forall l, (1 <= length l)%nat ->
  (forall i, (i < length l)%nat -> nth_error l i = Some (with_times (RES i (off i)) (skipped off i) (Z.of_nat (off i)) (idx i) fd pd)) ->
  total (map (fun x => FR (ps_sim x)) l) = score (fun i s => FR (ps_sim (RES i s))) off (length l - 1).
Proof.
  induction l as [|x l IH] using rev_ind; intros Hl H; [cbn in Hl; lia|].
  rewrite app_length in *. cbn [length] in *. replace (length l + 1 - 1)%nat with (length l) by lia.
  rewrite map_app, total_app. cbn [map].
  pose proof (H (length l) ltac:(lia)) as Hx. rewrite nth_error_app2, Nat.sub_diag in Hx by lia. cbn [nth_error] in Hx. injection Hx as ->.
  destruct l as [|y l'] eqn:El.
  - unfold total, with_times. cbn. lra.
  - rewrite <- El in *. assert (L1 : (1 <= length l)%nat) by (rewrite El; cbn; lia).
    rewrite IH; [|exact L1|intros i Hi; specialize (H i ltac:(lia)); rewrite nth_error_app1 in H by exact Hi; exact H].
    destruct (length l) as [|m] eqn:Em; [lia|]. replace (S m - 1)%nat with m by lia. cbn [score].
    unfold with_times. destruct (skipped off (S m)); cbn [ps_sim nadd NumR]; unfold total; cbn [fold_right]; [|lra].
    destruct FR_zero as [E _]. change (@n0 PrimFloat.float NumF) with (F_ofZ 0). rewrite E. lra.
Qed.
