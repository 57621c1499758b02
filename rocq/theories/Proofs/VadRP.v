(** Speech-mode patch selection over exact reals. *)
From Coq Require Import ZArith List Lia Bool Arith Sorted Reals Lra ZifyBool ZifyNat ZifyN.
From Verif Require Import Base.Res Base.Num Base.NumR Base.Lists Base.Mat Model.Amatrix Model.MiscMath
  Model.Window Model.RmsVad Model.PatchCreator Spec.VadSpec Proofs.PatchCreatorP Proofs.VadP Proofs.RealP.
Import ListNotations.
Open Scope Z_scope.
Ltac Zify.zify_post_hook ::= Z.div_mod_to_equations.

(** 16-bit sample made from a signal value: scaled, clamped, truncated *)
Definition int16_sample (x : R) : Z :=
  Rtrunc (Rmax (-32768) (Rmin 32767 (x * 32768)))%R.

Lemma to_int16_R x : to_int16 x = Ret (int16_sample x).
Proof.
  unfold to_int16. rewrite nmax_Rmax, nmin_Rmin. cbn [ntrunc nmul nofZ NumR].
  unfold int16_sample. reflexivity.
Qed.
Lemma to_int16s_R l : to_int16s l = Ret (map int16_sample l).
Proof. induction l as [|x l IH]; [reflexivity|]. cbn [to_int16s map]. rewrite to_int16_R, IH. reflexivity. Qed.

(** root mean square of a chunk *)
Definition rms (c : list Z) : R := sqrt (rsum (map (fun z => IZR z * IZR z)%R c) / INR (length c)).

Lemma calc_rms_R c : calc_rms c = rms c.
Proof.
  unfold calc_rms, rms. rewrite nofnat_INR. cbn [nsqrt ndiv NumR]. f_equal. f_equal.
  rewrite <- nsum_rsum. unfold nsum. change nadd with Rplus.
  generalize (n0 : R) as a. induction c as [|z c IH]; intros a; [reflexivity|].
  cbn [map fold_left]. rewrite IH. reflexivity.
Qed.

Definition quiet_R (flen : nat) (zs : list Z) (k : nat) : Prop := (rms (chunk flen zs k) < 5000)%R.

Lemma quiet_chunk_R flen zs k : quiet_chunk flen zs k <-> quiet_R flen zs k.
Proof. unfold quiet_chunk, quiet_R. rewrite calc_rms_R. cbn [nltb nofZ NumR]. apply Rltb_true. Qed.

Lemma inactive_ext (q q' : nat -> Prop) j : (forall k, q k <-> q' k) -> (inactive q j <-> inactive q' j).
Proof. intros H. unfold inactive. rewrite !H. tauto. Qed.

Lemma quarter_ineq p w : 0 <= w -> Z.of_nat p * (w / 4) <= Z.of_nat p * w / 4.
Proof. intros Hw. apply Z.div_le_lower_bound; [lia|]. pose proof (Z.mul_div_le w 4 ltac:(lia)). nia. Qed.

Lemma vad_indices_R (p : nat) (L : Z) (sig : list R) (w : Z) (idx : list Z) :
  (2 <= p)%nat -> 4 <= w -> Z.of_nat p / 2 - 1 + Z.of_nat p <= L ->
  L * (Z.of_nat p * w) < two64 ->
  vad_create_ref_patch_indices p L sig w = Ret idx ->
  let first := Z.of_nat p / 2 - 1 in
  let n := Z.to_nat ((L - first) / Z.of_nat p) in
  let len := (n * Z.to_nat (Z.of_nat p * w / 4))%nat in
  exists m,
    In m sig /\ (forall x, In x sig -> (x <= m)%R) /\
    first + Z.of_nat len <= Z.of_nat (length sig) /\
    let samples := map (fun x => int16_sample (x / m)) (firstn len (skipn (Z.to_nat first) sig)) in
    StronglySorted Z.lt idx /\
    (forall s, In s idx <->
       exists k, (k < n)%nat /\ s = first + Z.of_nat k * Z.of_nat p /\
         exists j, (k * p <= j < k * p + p)%nat /\ ~ inactive (quiet_R (Z.to_nat (w / 4)) samples) j) /\
    hd_error idx = Some first.
Proof.
  intros Hp Hw HL Hbig H first n len.
  assert (Hq : 0 < w / 4) by (apply Z.div_str_pos; lia).
  pose proof (quarter_ineq p w ltac:(lia)) as Hpsl.
  assert (Hpw : Z.of_nat p * w / 4 <= Z.of_nat p * w) by (apply Z.div_le_upper_bound; nia).
  assert (HL64 : L < two64) by (unfold two64 in *; nia).
  assert (Hbig' : L * (Z.of_nat p * w / 4) < two64).
  { eapply Z.le_lt_trans; [|exact Hbig]. apply Z.mul_le_mono_nonneg_l; [lia|assumption]. }
  destruct (vad_indices_members p L sig w idx _ _ Hp (conj HL HL64) Hq Hpsl Hbig'
              (ntrunc_p_quarter p w ltac:(lia)) (ntrunc_quarter w ltac:(lia)) H)
    as (norm & zs & En & Ez & Hl & Hin & Hs & Hm & Hh).
  fold first in Ez, Hl, Hin, Hm, Hh. fold n in Ez, Hl, Hin, Hm. fold len in Ez, Hl.
  unfold normalize in En. destruct (max_elem sig) as [m| | |] eqn:Em; try discriminate.
  cbn [bind] in En. injection En as <-.
  destruct (max_elem_spec _ _ Em) as [Hmin Hmax].
  exists m. split; [assumption|]. split; [assumption|]. split.
  { subst len. rewrite Nat2Z.inj_mul, Z2Nat.id by (apply Z.div_pos; nia). exact Hin. }
  rewrite to_int16s_R in Ez. injection Ez as Ez.
  rewrite skipn_map, firstn_map, map_map in Ez.
  change (@ndiv R NumR) with Rdiv in Ez.
  cbv zeta. rewrite Ez.
  split; [assumption|]. split; [|assumption].
  intros s. rewrite Hm.
  split; intros (k & Hk & E & j & Hj & HI); exists k; (split; [assumption|]); (split; [assumption|]);
    exists j; (split; [assumption|]); intros G; apply HI; revert G;
    apply inactive_ext; intros i; pose proof (quiet_chunk_R (Z.to_nat (w / 4)) zs i); tauto.
Qed.

Lemma le_mul_1 a b : 0 <= a -> 1 <= b -> a <= a * b.
Proof. intros Ha Hb. rewrite <- (Z.mul_1_r a) at 1. apply Z.mul_le_mono_nonneg_l; assumption. Qed.

(** when the hop is a whole number of samples the analysed samples always exist *)
Lemma vad_inside_R (p : nat) (h : Z) (sig : list R) (L : Z) :
  (2 <= p)%nat -> 1 <= h ->
  4 * h < Z.of_nat (length sig) ->
  Z.of_nat (length sig) * (Z.of_nat p * (4 * h)) < 2 ^ 60 ->
  L = 1 + (Z.of_nat (length sig) - 4 * h) / h ->
  Z.of_nat p / 2 - 1 + Z.of_nat p <= L ->
  exists idx, vad_create_ref_patch_indices p L sig (4 * h) = Ret idx.
Proof.
  intros Hp Hh Hn Hbig0 HLe HL.
  assert (Hbig : Z.of_nat (length sig) * (Z.of_nat p * (4 * h)) < two64) by (unfold two64; lia).
  unfold vad_create_ref_patch_indices.
  destruct sig as [|x0 sig']. { cbn [length] in Hn. lia. }
  set (sig := x0 :: sig') in *.
  set (len := Z.of_nat (length sig)) in *.
  assert (exists m, max_elem sig = Ret m) as [m Em] by (eexists; reflexivity).
  unfold normalize. rewrite Em. cbn [bind].
  rewrite ntrunc_p_quarter, ntrunc_quarter by lia.
  set (first := Z.of_nat p / 2 - 1) in *.
  assert (Hf : 0 <= first) by (subst first; lia).
  assert (HLh : (L - 1) * h <= len - 4 * h).
  { subst L. replace (1 + (len - 4 * h) / h - 1) with ((len - 4 * h) / h) by lia.
    rewrite Z.mul_comm. apply Z.mul_div_le. lia. }
  assert (Hlen64 : len < two64).
  { eapply Z.le_lt_trans; [|exact Hbig]. apply le_mul_1; [lia|]. clear - Hp Hh. nia. }
  assert (HL64 : L < two64).
  { pose proof (le_mul_1 (L - 1) h ltac:(lia) Hh). lia. }
  rewrite (size_of_small first) by lia. rewrite (size_of_small (L - first)) by lia.
  set (n := (L - first) / Z.of_nat p).
  assert (Hn1 : 1 <= n) by (apply Z.div_le_lower_bound; lia).
  assert (Hnp : n * Z.of_nat p <= L - first).
  { rewrite Z.mul_comm. apply Z.mul_div_le. lia. }
  replace (Z.of_nat p * (4 * h) / 4) with (Z.of_nat p * h).
  2:{ replace (Z.of_nat p * (4 * h)) with (Z.of_nat p * h * 4) by ring. rewrite Z.div_mul; lia. }
  replace (4 * h / 4) with h by (rewrite Z.mul_comm, Z.div_mul; lia).
  assert (Htot : n * (Z.of_nat p * h) <= (L - first) * h).
  { rewrite Z.mul_assoc. apply Z.mul_le_mono_nonneg_r; lia. }
  assert (Htot2 : first + n * (Z.of_nat p * h) <= len).
  { replace ((L - first) * h) with ((L - 1) * h + h - first * h) in Htot by ring.
    pose proof (le_mul_1 first h Hf Hh). lia. }
  assert (Hpos : 1 <= n * (Z.of_nat p * h)) by (clear - Hn1 Hp Hh; nia).
  rewrite (size_of_small (n * (Z.of_nat p * h))) by lia.
  assert (Hres : n < 2 ^ 57).
  { pose proof (le_mul_1 (L - 1) h ltac:(lia) Hh) as G1.
    assert (n * 2 <= n * Z.of_nat p) by (apply Z.mul_le_mono_nonneg_l; lia).
    assert (len * 8 <= len * (Z.of_nat p * (4 * h))) by (apply Z.mul_le_mono_nonneg_l; nia). lia. }
  unfold reserve. destruct (Z.ltb_spec n (2 ^ 57)); [|lia]. cbn [bind].
  unfold get_voice_activity. rewrite size_of_small by lia.
  unfold v_rows at 1. rewrite map_length. fold sig len.
  replace ((first <=? first + n * (Z.of_nat p * h) - 1) &&
           (first + n * (Z.of_nat p * h) - 1 <? len) && (0 <=? first)) with true by lia.
  cbn [bind].
  rewrite vad_feed_spec by (simpl; lia).
  rewrite to_int16s_R. cbn [bind app].
  rewrite (select_blocks_spec p _ (seq 0 (Z.to_nat n)) first 0).
  - eexists. reflexivity.
  - rewrite seq_length. reflexivity.
  - rewrite seq_length, vad_results_length, chunks_length.
    unfold chunk_count. rewrite map_length, firstn_length, skipn_length, map_length.
    replace (first + n * (Z.of_nat p * h) - 1 - first + 1) with (n * (Z.of_nat p * h)) by lia.
    assert (Hl : (Nat.min (Z.to_nat (n * (Z.of_nat p * h))) (length sig - Z.to_nat first) =
            Z.to_nat (n * (Z.of_nat p * h)))%nat) by lia.
    rewrite Hl.
    assert (Hd : (Z.to_nat (n * (Z.of_nat p * h)) / Z.to_nat h = Z.to_nat n * p)%nat).
    { replace (n * (Z.of_nat p * h)) with ((n * Z.of_nat p) * h) by ring.
      rewrite Z2Nat.inj_mul by (clear - Hn1 Hp Hh; nia). rewrite Nat.div_mul by lia.
      rewrite Z2Nat.inj_mul, Nat2Z.id by lia. reflexivity. }
    rewrite Hd. apply Nat.le_max_r.
Qed.

Lemma v_rows_past_end (l : list R) a b : Z.of_nat (length l) <= b -> v_rows l a b = Throw.
Proof. intros H. unfold v_rows. destruct (b <? Z.of_nat (length l)) eqn:E; [lia|]. rewrite andb_false_r. reflexivity. Qed.

(** 11025 Hz: the window of 882 samples makes the frame size 220.5 while the hop is 220 *)
Lemma vad_overrun_11025 (sig : list R) :
  Z.of_nat (length sig) = 1366700 ->
  vad_create_ref_patch_indices 20 (1 + (1366700 - 882) / 220) sig 882 = Throw.
Proof.
  intros Hlen. unfold vad_create_ref_patch_indices.
  destruct sig as [|x0 sig']; [discriminate|].
  set (sig := x0 :: sig') in *.
  assert (exists m, max_elem sig = Ret m) as [m Em] by (eexists; reflexivity).
  unfold normalize. rewrite Em. cbn [bind].
  rewrite ntrunc_p_quarter, ntrunc_quarter by lia.
  change (reserve _) with (Ret tt). cbn [bind].
  unfold get_voice_activity. rewrite v_rows_past_end; [reflexivity|].
  rewrite map_length. fold sig. rewrite Hlen. vm_compute. intros G; discriminate G.
Qed.

Lemma window_size_11025 : window_size (T:=R) 11025 = Some 882.
Proof.
  unfold window_size, ndec. cbn [nround nmul ndiv nofZ NumR]. f_equal. unfold Rround.
  change (10 ^ 2) with 100. destruct (Rle_dec 0 (11025 * (8 / 100)))%R as [G|G]; [|exfalso; lra].
  apply Rfloor_unique. lra.
Qed.
Lemma hop_size_11025 : hop_size (MkWin 882 (kOverlap : R)) = Some 220.
Proof. unfold hop_size, kOverlap, nofnat. cbn [w_size w_overlap]. rewrite ntrunc_quarter by lia. reflexivity. Qed.

Lemma vad_overrun :
  window_size (T:=R) 11025 = Some 882 /\ hop_size (MkWin 882 (kOverlap : R)) = Some 220 /\
  forall sig : list R, Z.of_nat (length sig) = 1366700 ->
    vad_create_ref_patch_indices 20 (1 + (Z.of_nat (length sig) - 882) / 220) sig 882 = Throw.
Proof.
  split; [exact window_size_11025|]. split; [exact hop_size_11025|].
  intros sig H. rewrite H. apply vad_overrun_11025. exact H.
Qed.

Lemma vad_example :
  inactive (fun k => Rltb (calc_rms (nth k [[9000]; [0]; [1]; [2]] [])) 5000 = true) 3 /\
  ~ inactive (fun k => Rltb (calc_rms (nth k [[9000]; [0]; [1]; [2]] [])) 5000 = true) 2.
Proof.
  assert (E : forall z, 0 <= z -> calc_rms (T:=R) [z] = IZR z).
  { intros z Hz. rewrite calc_rms_R. unfold rms. cbn [map rsum length INR].
    replace ((IZR z * IZR z + 0) / 1)%R with (IZR z * IZR z)%R by field.
    apply sqrt_square. apply IZR_le. assumption. }
  unfold inactive. cbn [nth Nat.sub]. rewrite !E by lia. rewrite !Rltb_true. split.
  - split; [lia|]. lra.
  - intros (_ & _ & _ & G). lra.
Qed.
