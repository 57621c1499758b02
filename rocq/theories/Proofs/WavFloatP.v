(** Samples loaded from wav files in binary64 (C105). *)
From Coq Require Import ZArith List Bool Ascii Lia Floats Reals Lra Permutation ZifyNat ZifyBool.
From Flocq Require Import Core.Core IEEE754.BinarySingleNaN IEEE754.PrimFloat.
From Verif Require Import Base.Res Base.Num Base.NumF Base.Lists Base.Mat Model.Amatrix Model.MiscMath Model.FilterBank Model.MiscAudio Model.Wav Spec.StableSpec Spec.PcmSpec Spec.WavSpec
  Proofs.ConvP Proofs.MiscAudioP Proofs.WavP Proofs.WavLoadP Proofs.B64P Proofs.ScoresP Proofs.RoundP Proofs.StableP Proofs.StableBankP Proofs.FiniteCasesP Proofs.LevelFloatP.
Import ListNotations.
Open Scope Z_scope.
Notation F := PrimFloat.float.

Lemma div_by_1 r : (r / 1)%R = r. Proof. field. Qed.
Lemma FR_inj (x y : F) : fin x -> fin y -> FR x = FR y -> FR x <> 0%R -> x = y.
Proof.
  intros Fx Fy E NZ. apply Prim2B_inj. assert (ST : forall z : F, fin z -> FR z <> 0%R -> is_finite_strict (Prim2B z) = true).
  { intros z Fz Nz. unfold fin, FR in *. destruct (Prim2B z); try discriminate; [contradiction|reflexivity]. }
  apply B2R_inj; [apply ST; assumption|apply ST; [assumption|rewrite <- E; assumption]|exact E].
Qed.
Lemma scale_real z : Z.abs z < 2 ^ 52 -> fin (@abs_scale F NumF z) /\ FR (@abs_scale F NumF z) = (IZR z / 32768)%R.
Proof.
  intros H. unfold abs_scale. cbn [ndiv nofZ NumF]. destruct (FR_ofZ z ltac:(lia)) as [E1 F1]. destruct (FR_ofZ 32768 ltac:(lia)) as [E2 F2].
  assert (RE : rnd (IZR z / 32768) = (IZR z / 32768)%R).
  { apply (rnd_exact z (-15)); [change (bpow radix2 (-15)) with (/ 32768)%R; unfold Rdiv; ring|lia|lia]. }
  destruct (FR_div (F_ofZ z) (F_ofZ 32768) F1) as [E3 F3].
  - rewrite E2. lra.
  - rewrite E1, E2, RE. apply Rle_lt_trans with (Rabs (IZR z)); [|apply IZR_lt_fmax; lia]. unfold Rdiv. rewrite Rabs_mult. rewrite (Rabs_pos_eq (/ 32768)) by lra. pose proof (Rabs_pos (IZR z)). lra.
  - split; [exact F3|]. rewrite E3, E1, E2. exact RE.
Qed.
Lemma scale_add s z : Z.abs s < 2 ^ 51 -> Z.abs z < 2 ^ 51 -> PrimFloat.add (@abs_scale F NumF s) (abs_scale z) = abs_scale (s + z).
Proof.
  intros Hs Hz. destruct (scale_real s ltac:(lia)) as [Fs Es]. destruct (scale_real z ltac:(lia)) as [Fz Ez]. destruct (scale_real (s + z) ltac:(lia)) as [Ft Et].
  assert (SUM : (FR (abs_scale s) + FR (abs_scale z))%R = FR (abs_scale (s + z))) by (rewrite Es, Ez, Et, plus_IZR; unfold Rdiv; ring).
  assert (RE : rnd (FR (@abs_scale F NumF s) + FR (@abs_scale F NumF z)) = FR (abs_scale (s + z))) by (rewrite SUM; apply rnd_FR).
  destruct (FR_add _ _ Fs Fz) as [E Fa].
  { rewrite RE, Et. apply Rle_lt_trans with (Rabs (IZR (s + z))); [|apply IZR_lt_fmax; lia]. unfold Rdiv. rewrite Rabs_mult. rewrite (Rabs_pos_eq (/ 32768)) by lra. pose proof (Rabs_pos (IZR (s + z))). lra. }
  rewrite RE in E. destruct (Z.eq_dec (s + z) 0) as [Z0|NZ].
  - rewrite Z0. replace z with (- s) in * by lia. destruct (Z.eq_dec s 0) as [->|NS]; [reflexivity|].
    assert (OP : @abs_scale F NumF (- s) = PrimFloat.opp (abs_scale s)).
    { assert (EO : FR (PrimFloat.opp (@abs_scale F NumF s)) = (- FR (@abs_scale F NumF s))%R) by (unfold FR; rewrite opp_equiv; apply B2R_Bopp).
      assert (FO : fin (PrimFloat.opp (@abs_scale F NumF s))) by (unfold fin in *; rewrite opp_equiv, is_finite_Bopp; exact Fs).
      apply FR_inj; [exact Fz|exact FO|rewrite EO, Ez, Es, opp_IZR; unfold Rdiv; ring|]. rewrite Ez, opp_IZR. intros C. apply NS, eq_IZR. lra. }
    rewrite OP. apply Prim2B_inj. rewrite add_equiv, opp_equiv. change (Prim2B (abs_scale 0)) with (B754_zero false : binary_float prec emax).
    set (a := Prim2B (abs_scale s)) in *. assert (FA : is_finite a = true) by exact Fs. destruct a as [[]|[]| |sg m e Hb]; try discriminate; try reflexivity.
    pose proof (Bplus_correct prec emax Hprec Hmax mode_NE (B754_finite sg m e Hb) (Bopp (B754_finite sg m e Hb)) eq_refl eq_refl) as C.
    rewrite B2R_Bopp, Rplus_opp_r, round_0, Rabs_R0, Rlt_bool_true in C by (try apply valid_rnd_N; apply bpow_gt_0). destruct C as (C1 & C2 & C3).
    rewrite Rcompare_Eq in C3 by reflexivity. destruct (Bplus mode_NE _ _) as [sg2|?| |? ? ? ?]; try discriminate.
    + cbn in C3. rewrite C3. destruct sg; reflexivity.
    + exfalso. cbn in C1. apply eq_0_F2R in C1. destruct s0; discriminate C1.
  - apply FR_inj; [exact Fa|exact Ft|rewrite E; reflexivity|]. rewrite E, Et. intros C. apply NZ, eq_IZR. lra.
Qed.
Lemma scale_sum : forall zs s k, Forall (fun z => -32768 <= z < 32768) zs -> Z.abs s <= 32768 * k -> 0 <= k -> k + Z.of_nat (length zs) <= 65536 ->
  fold_left PrimFloat.add (map (@abs_scale F NumF) zs) (abs_scale s) = abs_scale (s + zsum zs).
Proof.
  induction zs as [|z zs IH]; intros s k HF Hs Hk HL; cbn [map fold_left zsum]; [f_equal; lia|]. inversion HF; subst. cbn [length] in HL.
  rewrite scale_add by lia. rewrite (IH (s + z) (k + 1)); [f_equal; lia|assumption|lia|lia|lia].
Qed.

(** one sample of all channels *)
Definition mix {T} {N : Num T} (zs : list Z) : T := match zs with [z] => abs_scale z | _ => ndiv (nsum (map abs_scale zs)) (nofnat (length zs)) end.
Definition int16s (zs : list Z) : Prop := Forall (fun z => -32768 <= z < 32768) zs /\ 1 <= Z.of_nat (length zs) <= 65535.
Lemma zsum_bound zs : Forall (fun z => -32768 <= z < 32768) zs -> Z.abs (zsum zs) <= 32768 * Z.of_nat (length zs).
Proof. induction 1; cbn [zsum length]; lia. Qed.
Lemma zsum_perm l l' : Permutation l l' -> zsum l = zsum l'.
Proof. induction 1; cbn; lia. Qed.
Lemma mix_quotient zs : int16s zs -> mix zs = PrimFloat.div (@abs_scale F NumF (zsum zs)) (F_ofZ (Z.of_nat (length zs))).
Proof.
  intros [HF HL].
  assert (D1 : forall z, -32768 <= z < 32768 -> PrimFloat.div (@abs_scale F NumF z) (F_ofZ 1) = abs_scale z).
  { intros z Hz. destruct (Z.eq_dec z 0) as [->|NZ]; [reflexivity|]. destruct (scale_real z ltac:(lia)) as [Fz Ez]. destruct (FR_ofZ 1 ltac:(lia)) as [E1 F1].
    destruct (FR_div (abs_scale z) (F_ofZ 1) Fz) as [E3 F3]; [rewrite E1; lra|rewrite E1, div_by_1, rnd_FR; apply (Rle_lt_trans _ 1); [rewrite Ez; apply Rabs_le; assert (IZR (-32768) <= IZR z)%R by (apply IZR_le; lia); assert (IZR z <= IZR 32768)%R by (apply IZR_le; lia); lra|rewrite <- (Rabs_pos_eq 1) by lra; apply (IZR_lt_fmax 1); lia]|].
    rewrite E1, div_by_1, rnd_FR in E3. apply FR_inj; [exact F3|exact Fz|exact E3|]. rewrite E3, Ez. intros C. apply NZ, eq_IZR. lra. }
  assert (G : ndiv (nsum (map (@abs_scale F NumF) zs)) (nofnat (length zs)) = PrimFloat.div (@abs_scale F NumF (zsum zs)) (F_ofZ (Z.of_nat (length zs)))).
  { unfold nsum, nofnat. cbn [ndiv nadd nofZ NumF]. f_equal. change (@n0 F NumF) with (@abs_scale F NumF 0). exact (scale_sum zs 0 0 HF ltac:(lia) ltac:(lia) ltac:(lia)). }
  destruct zs as [|z [|z' zs]]; [exact G| |exact G]. cbn [mix zsum length]. rewrite Z.add_0_r. symmetry. apply D1. inversion HF; assumption.
Qed.
Lemma mix_real zs : int16s zs -> fin (@mix F NumF zs) /\ FR (@mix F NumF zs) = rnd (IZR (zsum zs) / 32768 / IZR (Z.of_nat (length zs))) /\ pcm (mix zs).
Proof.
  intros H. rewrite (mix_quotient zs H). destruct H as [HF HL]. pose proof (zsum_bound zs HF) as B. set (s := zsum zs) in *. set (n := Z.of_nat (length zs)) in *.
  destruct (scale_real s ltac:(lia)) as [Fs Es]. destruct (FR_ofZ n ltac:(lia)) as [En Fn].
  assert (Hn : (1 <= IZR n <= 65535)%R) by (split; apply IZR_le; lia). assert (Hs : (Rabs (IZR s) <= 32768 * IZR n)%R) by (rewrite <- abs_IZR, <- mult_IZR; apply IZR_le; lia).
  set (q := (IZR s / 32768 / IZR n)%R).
  assert (Q : (Rabs q * (32768 * IZR n) = Rabs (IZR s))%R).
  { unfold q. rewrite <- (Rabs_pos_eq (32768 * IZR n)) by lra. rewrite <- Rabs_mult. f_equal. field. lra. }
  assert (Q1 : (Rabs q <= 1)%R) by (apply Rmult_le_reg_r with (32768 * IZR n)%R; lra).
  assert (R1 : (Rabs (rnd q) <= 1)%R).
  { apply Rabs_le. apply Rabs_le_inv in Q1. destruct Q1 as [Qa Qb]. apply rnd_le in Qa, Qb. change (- (1))%R with (IZR (-1)) in Qa. rewrite rnd_Z in Qa, Qb by lia. lra. }
  destruct (FR_div (@abs_scale F NumF s) (F_ofZ n) Fs) as [E Fd]; [rewrite En; lra|rewrite Es, En; fold q; apply Rle_lt_trans with 1%R; [exact R1|rewrite <- (Rabs_pos_eq 1) by lra; apply (IZR_lt_fmax 1); lia]|].
  rewrite Es, En in E. fold q in E. split; [exact Fd|]. split; [exact E|]. set (x := PrimFloat.div _ _) in *.
  assert (FA : fin (PrimFloat.abs x)) by (unfold fin in *; rewrite abs_equiv, is_finite_Babs; exact Fd). assert (EA : FR (PrimFloat.abs x) = Rabs (FR x)) by (unfold FR; rewrite abs_equiv, B2R_Babs; reflexivity).
  assert (F1 : fin 1) by reflexivity. assert (E1 : FR 1 = 1%R) by apply FR_1. split.
  - unfold within. rewrite FR_leb by assumption. rewrite EA, E, E1. apply Rle_bool_true. exact R1.
  - destruct (Z.eq_dec s 0) as [S0|NS].
    + left. assert (X0 : FR x = 0%R) by (rewrite E; unfold q; rewrite S0; unfold Rdiv; rewrite !Rmult_0_l; apply rnd_zero). apply FiniteCasesP.zero_eqb; [exact Fd|exact X0].
    + right. assert (F3 : fin 0x1p-31) by reflexivity. rewrite FR_leb by assumption. rewrite EA, E, FR_31. apply Rle_bool_true.
      assert (S1 : (1 <= Rabs (IZR s))%R) by (rewrite <- abs_IZR; apply IZR_le; lia).
      assert (QL : (bpow radix2 (-31) <= Rabs q)%R).
      { change (bpow radix2 (-31)) with (/ 2147483648)%R. apply Rmult_le_reg_r with (32768 * IZR n)%R; [lra|]. rewrite Q. lra. }
      unfold Rabs in QL at 1. destruct (Rcase_abs q) as [C|C].
      * assert (QN : (q <= - bpow radix2 (-31))%R) by lra. apply rnd_le in QN. rewrite (rnd_exact (-1) (-31) (- bpow radix2 (-31))) in QN by (try lia; ring). rewrite Rabs_left1; [lra|]. pose proof (bpow_gt_0 radix2 (-31)). lra.
      * apply Rle_trans with (rnd q); [apply rnd_low; [lia|exact QL]|apply Rle_abs].
Qed.
Lemma mix_perm zs zs' : int16s zs -> Permutation zs zs' -> @mix F NumF zs = mix zs'.
Proof.
  intros H P. assert (H' : int16s zs'). { destruct H as [HF HL]. split; [|rewrite <- (Permutation_length P); exact HL]. rewrite Forall_forall in *. intros z Hz. apply HF. apply (Permutation_in z (Permutation_sym P) Hz). }
  rewrite !mix_quotient by assumption. rewrite (zsum_perm _ _ P), (Permutation_length P). reflexivity.
Qed.

(** *** what is loaded *)
Lemma int16_range b : -32768 <= int16_val (firstn 2 b) < 32768.
Proof.
  unfold int16_val. pose proof (le_val_range (firstn 2 b)) as R. assert (L : (length (firstn 2 b) <= 2)%nat) by (rewrite firstn_length; lia).
  assert (256 ^ Z.of_nat (length (firstn 2 b)) <= 256 ^ 2) by (apply Z.pow_le_mono_r; lia). destruct (_ <? _) eqn:E; lia.
Qed.
Lemma samples_range n : forall b, Forall (fun z => -32768 <= z < 32768) (samples_of n b).
Proof. induction n as [|n IH]; intros b; constructor; [apply int16_range|apply IH]. Qed.
Lemma nth_range l i : Forall (fun z => -32768 <= z < 32768) l -> -32768 <= nth i l 0 < 32768.
Proof. intros H. destruct (Nat.lt_ge_cases i (length l)) as [C|C]; [rewrite Forall_forall in H; apply H, nth_In, C|rewrite nth_overflow by exact C; lia]. Qed.

Section Shape.
  Context {T : Type} {N : Num T}.
  Hypothesis scale_0 : abs_scale 0 = (n0 : T).
  Definition mixed (ch n : nat) (samples : list Z) : list T := map (fun i => mix (map (fun k => nth (i * ch + k) samples 0) (seq 0 ch))) (seq 0 n).
  Lemma mono_of ch samples : (1 <= ch)%nat -> exists chans M, extract_multi_channel ch (normalize_int16 samples) = Ret chans /\ m_of_cols chans = Ret M /\
    elems (to_mono M) = mixed ch (length samples / ch) samples.
  Proof.
    intros Hc. set (l := normalize_int16 samples). assert (Ll : length l = length samples) by apply map_length.
    destruct (extract_spec ch l Hc) as (chans & EX & LC & LL & G & _). rewrite Ll in *. set (frames := (length samples / ch)%nat) in *.
    destruct (of_cols_ret chans frames) as (EO & WO & GO).
    { destruct chans; [cbn in LC; lia|discriminate]. }
    { intros k Hk. apply LL. lia. }
    exists chans. eexists. split; [exact EX|]. split; [exact EO|]. set (M := MkMat frames (length chans) (concat chans)) in *.
    assert (GM : forall i k, (i < frames)%nat -> (k < ch)%nat -> at_ M i k = abs_scale (nth (i * ch + k) samples 0)).
    { intros i k Hi Hk. rewrite GO by lia. rewrite G by assumption. unfold l, normalize_int16. rewrite <- scale_0. apply map_nth. }
    unfold to_mono, mixed. change (ncols M) with (length chans). rewrite LC. destruct (Nat.ltb_spec 1 ch) as [C|C].
    - unfold tab. cbn [elems seq flat_map]. rewrite app_nil_r. apply map_ext_in. intros i Hi. apply in_seq in Hi. change (nrows M) with frames in Hi.
      assert (E : row_list M i = map abs_scale (map (fun k => nth (i * ch + k) samples 0) (seq 0 ch))).
      { unfold row_list. change (ncols M) with (length chans). rewrite LC, map_map. apply map_ext_in. intros k Hk. apply in_seq in Hk. exact (GM i k ltac:(lia) ltac:(lia)). }
      rewrite E. set (zs := map (fun k => nth (i * ch + k) samples 0) (seq 0 ch)). assert (Lz : length zs = ch) by (unfold zs; rewrite map_length; apply seq_length).
      clearbody zs. unfold mix. destruct zs as [|z [|z' zs]]; [cbn in Lz; lia|cbn in Lz; lia|]. rewrite Lz. reflexivity.
    - assert (ch = 1%nat) as -> by lia. destruct chans as [|c [|? ?]]; try discriminate LC. cbn [elems concat M]. rewrite app_nil_r.
      assert (Lc : length c = frames) by exact (LL 0%nat ltac:(lia)). apply nth_ext with (d := n0) (d' := n0); [rewrite map_length, seq_length; exact Lc|].
      intros i Hi. rewrite Lc in Hi. specialize (G 0%nat i ltac:(lia) Hi). cbn [nth] in G. rewrite G.
      transitivity (abs_scale (T:=T) (nth (i * 1 + 0) samples 0)); [unfold l, normalize_int16; rewrite <- scale_0; apply map_nth|].
      set (g := fun i => mix (T:=T) (map (fun k => nth (i * 1 + k) samples 0) (seq 0 1))). rewrite (nth_indep (map g (seq 0 frames)) n0 (g 0%nat)) by (rewrite map_length, seq_length; exact Hi).
      rewrite map_nth, seq_nth by exact Hi. reflexivity.
  Qed.
  Lemma load_shape all l : load_as_mono all = Ret l -> l = not_loaded \/ exists ch n samples rate, (1 <= ch <= 65535)%Z /\ Forall (fun z => -32768 <= z < 32768) samples /\
    elems (ld_data l) = mixed (Z.to_nat ch) n samples /\ ld_sr l = Some rate.
  Proof.
    unfold load_as_mono. destruct (parse_header all) as [w|] eqn:E; [|intros H; injection H as <-; left; reflexivity].
    destruct (read_samples _ _ _) as [[b got] r']. destruct (0 <? got); [|intros H; injection H as <-; left; reflexivity].
    apply parse_header_ok in E. destruct E as (_ & _ & _ & _ & _ & _ & HC & _). set (ss := samples_of _ _).
    destruct (mono_of (Z.to_nat (wv_channels w)) ss ltac:(lia)) as (chans & M & E1 & E2 & E3). rewrite E1. cbn [bind]. rewrite E2. cbn [bind]. intros H. injection H as <-. right.
    eexists (wv_channels w), _, ss, _. split; [exact HC|]. split; [apply samples_range|]. split; [exact E3|reflexivity].
  Qed.
  Lemma load_file_shape channels rate extra samples rest : 1 <= channels < 65536 -> 0 <= rate < 2 ^ 31 -> Forall other_chunk extra -> samples <> [] -> 2 * Z.of_nat (length samples) < 2 ^ 32 ->
    Forall (fun z => -32768 <= z < 32768) samples ->
    exists M, load_as_mono (wav_file channels rate extra samples rest) = Ret (MkLoaded M (Some rate)) /\ elems M = mixed (Z.to_nat channels) (length samples / Z.to_nat channels) samples.
  Proof.
    intros Hc Hr HF Hs Hn HR. destruct (parse_wav_file channels rate extra samples rest Hc Hr HF Hs Hn) as (off & EP & pre & EF & Lp).
    unfold load_as_mono. rewrite EP. cbn [wv_total wv_channels wv_rate].
    destruct (read_wav_file channels rate (Z.of_nat (length samples)) pre samples rest HR Hs eq_refl Hn) as (b & r' & ER & Eb & ES). rewrite EF, <- Lp, ER.
    assert (0 < length samples)%nat by (destruct samples; [contradiction|cbn; lia]). replace (0 <? Z.of_nat (length samples)) with true by (symmetry; apply Z.ltb_lt; lia). rewrite Nat2Z.id.
    replace (2 * length samples - length b)%nat with 0%nat by (rewrite Eb, flat_map_le2_length; lia). cbn [repeat]. rewrite app_nil_r, ES.
    destruct (mono_of (Z.to_nat channels) samples ltac:(lia)) as (chans & M & E1 & E2 & E3). rewrite E1. cbn [bind]. rewrite E2. cbn [bind]. exists (to_mono M).
    assert (ESR : size_of rate = rate) by (unfold size_of, two64; rewrite Z.mod_small; lia). rewrite ESR. split; [reflexivity|exact E3].
  Qed.
End Shape.
Lemma row_int16s ch samples i : 1 <= ch <= 65535 -> Forall (fun z => -32768 <= z < 32768) samples -> int16s (map (fun k => nth (i * Z.to_nat ch + k) samples 0) (seq 0 (Z.to_nat ch))).
Proof. intros Hc HF. split; [apply Forall_map, Forall_forall; intros k _; apply nth_range, HF|rewrite map_length, seq_length; lia]. Qed.
Lemma scale_zero_F : abs_scale 0 = (@n0 F NumF). Proof. reflexivity. Qed.
Lemma mixed_pcm ch n samples : 1 <= ch <= 65535 -> Forall (fun z => -32768 <= z < 32768) samples -> Forall pcm (mixed (T:=F) (Z.to_nat ch) n samples).
Proof. intros Hc HF. apply Forall_map, Forall_forall. intros i _. apply mix_real, row_int16s; assumption. Qed.
Lemma loaded_pcm all l : load_as_mono (T:=F) all = Ret l -> Forall pcm (elems (ld_data l)).
Proof.
  intros H. destruct (load_shape scale_zero_F all l H) as [->|(ch & n & ss & rate & HC & HF & E & _)]; [constructor|]. rewrite E. apply mixed_pcm; assumption.
Qed.
