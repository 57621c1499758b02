(** Proofs about down-mixing and level matching (C44, C45). *)
From Coq Require Import ZArith List Bool Reals Lra Lia Arith.
From Verif Require Import Base.Res Base.Num Base.NumR Base.Lists Base.Mat Model.Amatrix Model.MiscMath
  Model.FilterBank Model.MiscAudio Spec.StatSpec Spec.AudioSpec Proofs.RealP Proofs.ConvP Proofs.StatP.
Import ListNotations.
Open Scope nat_scope.

Section Generic.
  Context {T : Type} {N : Num T}.

  Lemma frames_spec nch n : forall l : list T, n * nch <= length l ->
    length (frames n nch l) = n /\
    forall i k d d', i < n -> k < nch -> nth k (nth i (frames n nch l) d) d' = nth (i * nch + k) l d'.
  Proof.
    induction n as [|n IH]; intros l H; [split; [reflexivity|lia]|].
    cbn [frames length].
    destruct (IH (skipn nch l)) as [L G]; [rewrite skipn_length; lia|].
    split; [rewrite L; reflexivity|].
    intros [|i] k d d' Hi Hk; cbn [nth].
    - rewrite nth_firstn by lia. reflexivity.
    - rewrite G by lia. rewrite nth_skipn. f_equal. lia.
  Qed.

  Lemma extract_spec nch (l : list T) : 1 <= nch ->
    exists chans, extract_multi_channel nch l = Ret chans /\ length chans = nch /\
      (forall k, k < nch -> length (nth k chans []) = length l / nch) /\
      (forall k i, k < nch -> i < length l / nch ->
         nth i (nth k chans []) n0 = nth (i * nch + k) l n0) /\
      (length l mod nch = 0 -> interleave n0 (length l / nch) chans = l).
  Proof.
    intros Hn. unfold extract_multi_channel. destruct (Nat.eqb_spec nch 0); [lia|].
    set (m := length l / nch).
    assert (Hm : m * nch <= length l) by (unfold m; rewrite Nat.mul_comm; apply Nat.mul_div_le; lia).
    destruct (frames_spec nch m l Hm) as [FL FG].
    eexists. split; [reflexivity|]. split; [now rewrite map_length, seq_length|].
    assert (NC : forall k, k < nch ->
      nth k (map (fun c => map (fun f => nth c f n0) (frames m nch l)) (seq 0 nch)) [] =
      map (fun f => nth k f n0) (frames m nch l)).
    { intros k Hk. rewrite nth_map_seq by exact Hk. reflexivity. }
    assert (G : forall k i, k < nch -> i < m ->
      nth i (map (fun f => nth k f n0) (frames m nch l)) n0 = nth (i * nch + k) l n0).
    { intros k i Hk Hi. rewrite nth_indep with (d' := nth k (@nil T) n0) by (rewrite map_length, FL; exact Hi).
      rewrite (map_nth (fun f => nth k f n0)). apply FG; assumption. }
    split; [|split].
    - intros k Hk. rewrite NC by exact Hk. rewrite map_length, FL. reflexivity.
    - intros k i Hk Hi. rewrite NC by exact Hk. apply G; assumption.
    - intros Hmod. unfold interleave.
      assert (LL : length l = m * nch).
      { unfold m. pose proof (Nat.div_mod (length l) nch ltac:(lia)). lia. }
      apply (list_ext _ _ n0).
      + rewrite (flat_map_length_const _ _ nch).
        * rewrite seq_length. lia.
        * intros a _. rewrite map_length, map_length, seq_length. reflexivity.
      + intros j Hj.
        rewrite (flat_map_length_const _ _ nch) in Hj
          by (intros a _; rewrite map_length, map_length, seq_length; reflexivity).
        rewrite seq_length in Hj.
        assert (Ej : j = (j / nch) * nch + j mod nch).
        { rewrite (Nat.mul_comm (j / nch)). apply Nat.div_mod. lia. }
        assert (Hk : j mod nch < nch) by (apply Nat.mod_upper_bound; lia).
        assert (Hi : j / nch < m) by (apply Nat.div_lt_upper_bound; lia).
        rewrite Ej at 1. rewrite (nth_flat_map_const _ _ nch _ _ 0 n0).
        * rewrite seq_nth by exact Hi. cbn [plus].
          rewrite map_map. rewrite nth_map_seq by exact Hk. rewrite G by assumption. rewrite <- Ej. reflexivity.
        * intros a _. rewrite map_length, map_length, seq_length. reflexivity.
        * exact Hk.
        * rewrite seq_length. exact Hi.
  Qed.

  Lemma extract_none (l : list T) : extract_multi_channel 0 l = Ub.
  Proof. reflexivity. Qed.

  Lemma to_mono_mono (M : mat T) : ncols M <= 1 -> to_mono M = M.
  Proof. intros H. unfold to_mono. rewrite (proj2 (Nat.ltb_ge _ _)) by lia. reflexivity. Qed.
End Generic.

Open Scope R_scope.

Lemma to_mono_mean (M : mat R) : (2 <= ncols M)%nat ->
  wf (to_mono M) /\ nrows (to_mono M) = nrows M /\ ncols (to_mono M) = 1%nat /\
  forall r, (r < nrows M)%nat -> at_ (to_mono M) r 0 = mean (map (fun c => at_ M r c) (seq 0 (ncols M))).
Proof.
  intros H. unfold to_mono. rewrite (proj2 (Nat.ltb_lt _ _)) by lia.
  split; [apply tab_wf|]. split; [reflexivity|]. split; [reflexivity|].
  intros r Hr. rewrite at_tab by lia. rewrite <- vmean_mean. unfold vmean. rewrite map_length, seq_length. reflexivity.
Qed.

Lemma abs_scale_R z : abs_scale z = IZR z / 32768.
Proof. reflexivity. Qed.
Lemma abs_scale_range z : (-32768 <= z < 32768)%Z -> -1 <= abs_scale (T:=R) z < 1.
Proof. intros [H1 H2]. rewrite abs_scale_R. apply IZR_le in H1. apply IZR_lt in H2. lra. Qed.
Lemma abs_scale_inj y z : abs_scale (T:=R) y = abs_scale z -> y = z.
Proof. rewrite !abs_scale_R. intros H. apply eq_IZR. lra. Qed.

(** level matching *)
Lemma energy_rsum l : energy l = rsum (map (fun x => x * x) l).
Proof. unfold energy. induction (map _ _) as [|x t IH]; [reflexivity|]. cbn. rewrite IH. reflexivity. Qed.
Lemma energy_nonneg l : 0 <= energy l.
Proof.
  rewrite energy_rsum. apply rsum_nonneg. intros x Hx. apply in_map_iff in Hx. destruct Hx as (a & <- & _).
  apply Rle_0_sqr.
Qed.
Lemma energy_pos l : 0 < energy l <-> exists x, In x l /\ x <> 0.
Proof.
  rewrite energy_rsum. induction l as [|a l IH].
  - cbn. split; [lra|intros (x & [] & _)].
  - cbn [map rsum]. pose proof (Rle_0_sqr a) as Ha. unfold Rsqr in Ha.
    assert (Hl : 0 <= rsum (map (fun x => x * x) l)) by (rewrite <- energy_rsum; apply energy_nonneg).
    split.
    + intros H. destruct (Req_dec a 0) as [->|Hne].
      * destruct (proj1 IH ltac:(lra)) as (x & Hx & Hxn). exists x. split; [right; exact Hx|exact Hxn].
      * exists a. split; [left; reflexivity|exact Hne].
    + intros (x & [<-|Hx] & Hn).
      * assert (0 < a * a) by (apply Rsqr_pos_lt in Hn; exact Hn). lra.
      * assert (0 < rsum (map (fun x => x * x) l)) by (apply IH; exists x; auto). lra.
Qed.
Lemma energy_length_pos l : 0 < energy l -> 0 < INR (length l).
Proof.
  intros H. apply energy_pos in H. destruct H as (x & Hx & _). apply lt_0_INR. destruct l; [destruct Hx|cbn; lia].
Qed.

Lemma sound_pressure_level_R (s : audio R) : sound_pressure_level s = spl (au_data s).
Proof.
  unfold sound_pressure_level, spl. rewrite nsum_rsum, nofnat_INR, energy_rsum.
  unfold kSplReferencePoint, ndec. cbn [nmul nofZ NumR mlog10 LibmR nsqrt ndiv].
  replace (map nsq (au_data s)) with (map (fun x => x * x) (au_data s)) by reflexivity.
  change (10 ^ 5)%Z with 100000%Z. replace (2 / 100000) with 0.00002 by lra. reflexivity.
Qed.

Lemma scale_factor_R (ref deg : audio R) :
  spl_scale_factor ref deg = exp ((spl (au_data ref) - spl (au_data deg)) / 20 * ln 10).
Proof. unfold spl_scale_factor. rewrite !sound_pressure_level_R. reflexivity. Qed.

Lemma energy_scale f l : energy (map (fun x => x * f) l) = f * f * energy l.
Proof.
  rewrite !energy_rsum. rewrite map_map. rewrite <- rsum_scale, map_map. f_equal. apply map_ext. intros; ring.
Qed.

Lemma ln10 : 0 < ln 10.
Proof. rewrite <- ln_1. apply ln_increasing; lra. Qed.

Lemma spl_scale f l : 0 < f -> 0 < energy l -> spl (map (fun x => x * f) l) = 20 * (ln f / ln 10) + spl l.
Proof.
  intros Hf He. unfold spl. rewrite energy_scale, map_length.
  pose proof (energy_length_pos l He) as Hn.
  assert (Hq : 0 < energy l / INR (length l)) by (apply Rdiv_lt_0_compat; assumption).
  replace (f * f * energy l / INR (length l)) with ((f * f) * (energy l / INR (length l))) by (field; lra).
  rewrite sqrt_mult by nra. rewrite sqrt_square by lra.
  replace (f * sqrt (energy l / INR (length l)) / 0.00002)
    with (f * (sqrt (energy l / INR (length l)) / 0.00002)) by lra.
  rewrite ln_mult; [|exact Hf|].
  - pose proof ln10. field. lra.
  - apply sqrt_lt_R0 in Hq. lra.
Qed.

Lemma level_matched (ref deg : audio R) :
  0 < energy (au_data ref) -> 0 < energy (au_data deg) ->
  exists f, 0 < f /\ au_data (scale_to_match_spl ref deg) = map (fun x => x * f) (au_data deg) /\
    au_sr (scale_to_match_spl ref deg) = au_sr deg /\
    spl (au_data (scale_to_match_spl ref deg)) = spl (au_data ref) /\
    energy (au_data (scale_to_match_spl ref deg)) / INR (length (au_data deg)) =
      energy (au_data ref) / INR (length (au_data ref)) /\
    (spl (au_data deg) = spl (au_data ref) -> au_data (scale_to_match_spl ref deg) = au_data deg).
Proof.
  intros Hr Hd. exists (spl_scale_factor ref deg).
  assert (Hf : 0 < spl_scale_factor ref deg) by (rewrite scale_factor_R; apply exp_pos).
  assert (EL : ln (spl_scale_factor ref deg) = (spl (au_data ref) - spl (au_data deg)) / 20 * ln 10)
    by (rewrite scale_factor_R; apply ln_exp).
  assert (ES : spl (au_data (scale_to_match_spl ref deg)) = spl (au_data ref)).
  { unfold scale_to_match_spl. cbn [au_data].
    change (fun x : R => nmul x (spl_scale_factor ref deg)) with (fun x => x * spl_scale_factor ref deg).
    rewrite spl_scale by assumption. rewrite EL. pose proof ln10. field. lra. }
  split; [exact Hf|]. split; [reflexivity|]. split; [reflexivity|]. split; [exact ES|]. split.
  - set (d := au_data (scale_to_match_spl ref deg)) in *.
    assert (Ld : length d = length (au_data deg)) by (unfold d, scale_to_match_spl; cbn [au_data]; apply map_length).
    rewrite <- Ld.
    assert (Hed : 0 < energy d).
    { unfold d, scale_to_match_spl. cbn [au_data].
      change (fun x : R => nmul x (spl_scale_factor ref deg)) with (fun x => x * spl_scale_factor ref deg).
      rewrite energy_scale. apply Rmult_lt_0_compat; [nra|exact Hd]. }
    assert (Q1 : 0 < energy d / INR (length d)) by (apply Rdiv_lt_0_compat; [|apply energy_length_pos]; assumption).
    assert (Q2 : 0 < energy (au_data ref) / INR (length (au_data ref)))
      by (apply Rdiv_lt_0_compat; [|apply energy_length_pos]; assumption).
    unfold spl in ES. pose proof ln10.
    assert (E : ln (sqrt (energy d / INR (length d)) / 0.00002) =
                ln (sqrt (energy (au_data ref) / INR (length (au_data ref))) / 0.00002)).
    { apply Rmult_eq_reg_r with (/ ln 10); [|apply Rinv_neq_0_compat; lra]. unfold Rdiv in *. lra. }
    apply ln_inv in E; [|apply sqrt_lt_R0 in Q1; lra|apply sqrt_lt_R0 in Q2; lra].
    apply sqrt_inj; [lra|lra|]. lra.
  - intros EQ. unfold scale_to_match_spl. cbn [au_data].
    rewrite scale_factor_R, EQ. replace ((spl (au_data ref) - spl (au_data ref)) / 20 * ln 10) with 0 by lra.
    rewrite exp_0. rewrite <- (map_id (au_data deg)) at 2. apply map_ext. intros. cbn. lra.
Qed.
