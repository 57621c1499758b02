(** Speech-mode patch selection in binary64 (used for C99). *)
From Coq Require Import ZArith List Lia Bool Arith Sorted Reals Lra ZifyBool ZifyNat ZifyN Floats.
From Flocq Require Import Core.Core IEEE754.BinarySingleNaN IEEE754.PrimFloat.
From Verif Require Import Base.Res Base.Num Base.NumR Base.NumF Base.Lists Base.Mat Model.Amatrix Model.MiscMath
  Model.Window Model.RmsVad Model.PatchCreator Spec.VadSpec Spec.MatchSpec Proofs.PatchCreatorP Proofs.VadP Proofs.VadRP Proofs.RealP Proofs.B64P Proofs.ScoresP Proofs.MatchCasesP Proofs.FinitePrepP.
Import ListNotations.
Open Scope Z_scope.

(** a sample becomes a 16-bit number whatever it is *)
Lemma to_int16_F (x : PrimFloat.float) : exists z, to_int16 x = Ret z.
Proof.
  unfold to_int16. cbn [nmul nofZ NumF]. set (v := PrimFloat.mul x (F_ofZ 32768)).
  assert (R1 : rg 32767 32767 (F_ofZ 32767)) by (apply ofZ_rg; lia). assert (R2 : rg (-32768) (-32768) (F_ofZ (-32768))) by (apply ofZ_rg; lia).
  assert (G : fin (nmax (F_ofZ (-32768)) (nmin (F_ofZ 32767) v))).
  { unfold nmax. destruct (nltb (F_ofZ (-32768)) (nmin (F_ofZ 32767) v)) eqn:E; [|apply R2]. revert E. unfold nmin. destruct (nltb v (F_ofZ 32767)) eqn:E2; intros E; [|apply R1].
    cbn [nltb NumF] in E, E2. apply (leb_fin (F_ofZ (-32768)) (F_ofZ 32767)); [apply R2|apply R1| |].
    - rewrite leb_equiv. rewrite ltb_equiv in E. unfold Bltb, Bleb, SFltb, SFleb in *. destruct (SFcompare _ _) as [[| |]|]; congruence.
    - rewrite leb_equiv. rewrite ltb_equiv in E2. unfold Bltb, Bleb, SFltb, SFleb in *. destruct (SFcompare _ _) as [[| |]|]; congruence. }
  cbn [ntrunc NumF]. rewrite (F_trunc_spec _ G). eauto.
Qed.
Lemma to_int16s_F (l : list PrimFloat.float) : exists zs, to_int16s l = Ret zs /\ length zs = length l.
Proof.
  induction l as [|x l (zs & IH & IL)]; [exists []; split; reflexivity|]. cbn [to_int16s]. destruct (to_int16_F x) as [z ->]. rewrite IH. cbn [bind].
  exists (z :: zs). split; [reflexivity|]. cbn. congruence.
Qed.

Lemma ntrunc_quarter_F (p : nat) h : 1 <= h -> Z.of_nat p * h < 2 ^ 50 /\ 4 * h < 2 ^ 50 ->
  F_trunc (PrimFloat.mul (F_ofZ (Z.of_nat p)) (PrimFloat.mul (F_ofZ (4 * h)) (ndec 25 2))) = Some (Z.of_nat p * h) /\
  F_trunc (PrimFloat.mul (F_ofZ (4 * h)) (ndec 25 2)) = Some h.
Proof.
  intros Hh [HB HB4].
  destruct (FR_ofZ (4 * h) ltac:(lia)) as [E1 F1].
  assert (E2 : FR (ndec 25 2 : PrimFloat.float) = (/ 4)%R).
  { unfold FR. vm_compute (ndec 25 2 : PrimFloat.float). unfold Prim2B. cbn. unfold F2R. cbn. lra. }
  assert (F2 : fin (ndec 25 2 : PrimFloat.float)) by reflexivity.
  assert (M : (FR (F_ofZ (4 * h)) * FR (ndec 25 2 : PrimFloat.float))%R = IZR h) by (rewrite E1, E2, mult_IZR; lra).
  destruct (FR_mul (F_ofZ (4 * h)) (ndec 25 2 : PrimFloat.float) F1 F2) as [E3 F3].
  { rewrite M, rnd_Z by lia. apply IZR_lt_fmax. lia. }
  rewrite M, rnd_Z in E3 by lia. set (q := PrimFloat.mul (F_ofZ (4 * h)) (ndec 25 2)) in *.
  split; [|rewrite (F_trunc_spec _ F3), E3, Ztrunc_IZR; reflexivity].
  destruct (FR_ofZ (Z.of_nat p)) as [E4 F4]; [nia|]. destruct (FR_mul _ q F4 F3) as [E5 F5]; [rewrite E4, E3, <- mult_IZR, rnd_Z by lia; apply IZR_lt_fmax; lia|].
  rewrite (F_trunc_spec _ F5), E5, E4, E3, <- mult_IZR, rnd_Z, Ztrunc_IZR by lia. reflexivity.
Qed.

Ltac Zify.zify_post_hook ::= Z.div_mod_to_equations.
(** when the hop is a whole number of samples the analysed samples always exist *)
Lemma vad_inside_F (p : nat) (h : Z) (sig : list PrimFloat.float) (L : Z) :
  (2 <= p)%nat -> 1 <= h -> Z.of_nat p <= 1000 -> h < 2 ^ 24 ->
  4 * h < Z.of_nat (length sig) ->
  Z.of_nat (length sig) * (Z.of_nat p * (4 * h)) < 2 ^ 60 ->
  L = 1 + (Z.of_nat (length sig) - 4 * h) / h ->
  Z.of_nat p / 2 - 1 + Z.of_nat p <= L ->
  exists idx, vad_create_ref_patch_indices p L sig (4 * h) = Ret idx.
Proof.
  intros Hp Hh Hp1000 Hh24 Hn Hbig0 HLe HL.
  assert (Hbig : Z.of_nat (length sig) * (Z.of_nat p * (4 * h)) < two64) by (unfold two64; lia).
  unfold vad_create_ref_patch_indices.
  destruct sig as [|x0 sig']. { cbn [length] in Hn. lia. }
  set (sig := x0 :: sig') in *.
  set (len := Z.of_nat (length sig)) in *.
  assert (exists m, max_elem sig = Ret m) as [m Em] by (eexists; reflexivity).
  unfold normalize. rewrite Em. cbn [bind].
  assert (LH : (length sig) = length sig) by reflexivity.
  destruct (ntrunc_quarter_F p h) as [TQ1 TQ2]; [lia|clear - Hh Hp Hp1000 Hh24; nia|]. change (nofZ (4 * h)) with (F_ofZ (4 * h)).
  change (ntrunc (nmul (nofnat p) (nmul (F_ofZ (4 * h)) (ndec 25 2)))) with (F_trunc (PrimFloat.mul (F_ofZ (Z.of_nat p)) (PrimFloat.mul (F_ofZ (4 * h)) (ndec 25 2)))). rewrite TQ1.
  change (ntrunc (nmul (F_ofZ (4 * h)) (ndec 25 2))) with (F_trunc (PrimFloat.mul (F_ofZ (4 * h)) (ndec 25 2))). rewrite TQ2.
  set (first := Z.of_nat p / 2 - 1) in *.
  assert (Hf : 0 <= first) by (subst first; lia).
  assert (HLh : (L - 1) * h <= len - 4 * h).
  { subst L. replace (1 + (len - 4 * h) / h - 1) with ((len - 4 * h) / h) by lia.
    rewrite Z.mul_comm. apply Z.mul_div_le. lia. }
  assert (Hlen64 : len < two64).
  { eapply Z.le_lt_trans; [|exact Hbig]. apply le_mul_1; [lia|]. clear - Hp Hh. nia. }
  assert (HL64 : L < two64).
  { pose proof (le_mul_1 (L - 1) h ltac:(lia) Hh). lia. }
  rewrite (size_of_small first) by lia. rewrite (size_of_small (L - first)) by lia.
  set (n := (L - first) / Z.of_nat p).
  assert (Hn1 : 1 <= n) by (apply Z.div_le_lower_bound; lia).
  assert (Hnp : n * Z.of_nat p <= L - first).
  { rewrite Z.mul_comm. apply Z.mul_div_le. lia. }
  assert (Htot : n * (Z.of_nat p * h) <= (L - first) * h).
  { rewrite Z.mul_assoc. apply Z.mul_le_mono_nonneg_r; lia. }
  assert (Htot2 : first + n * (Z.of_nat p * h) <= len).
  { replace ((L - first) * h) with ((L - 1) * h + h - first * h) in Htot by ring.
    pose proof (le_mul_1 first h Hf Hh). lia. }
  assert (Hpos : 1 <= n * (Z.of_nat p * h)) by (clear - Hn1 Hp Hh; nia).
  rewrite (size_of_small (n * (Z.of_nat p * h))) by lia.
  assert (Hres : n < 2 ^ 57).
  { pose proof (le_mul_1 (L - 1) h ltac:(lia) Hh) as G1.
    assert (n * 2 <= n * Z.of_nat p) by (apply Z.mul_le_mono_nonneg_l; lia).
    assert (len * 8 <= len * (Z.of_nat p * (4 * h))) by (apply Z.mul_le_mono_nonneg_l; nia). lia. }
  unfold reserve. destruct (Z.ltb_spec n (2 ^ 57)); [|lia]. cbn [bind].
  unfold get_voice_activity. rewrite size_of_small by lia.
  unfold v_rows at 1. rewrite map_length. fold sig len.
  replace ((first <=? first + n * (Z.of_nat p * h) - 1) &&
           (first + n * (Z.of_nat p * h) - 1 <? len) && (0 <=? first)) with true by lia.
  cbn [bind].
  rewrite vad_feed_spec by (simpl; lia).
  destruct (to_int16s_F (firstn (Z.to_nat (first + n * (Z.of_nat p * h) - 1 - first + 1)) (skipn (Z.to_nat first) (map (fun x => ndiv x m) sig)))) as (zs & EZ & LZ).
  rewrite EZ. cbn [bind app].
  rewrite (select_blocks_spec p _ (seq 0 (Z.to_nat n)) first 0).
  - eexists. reflexivity.
  - rewrite seq_length. reflexivity.
  - rewrite seq_length, vad_results_length, chunks_length.
    unfold chunk_count. rewrite LZ, firstn_length, skipn_length, map_length.
    replace (first + n * (Z.of_nat p * h) - 1 - first + 1) with (n * (Z.of_nat p * h)) by lia.
    assert (Hl : (Nat.min (Z.to_nat (n * (Z.of_nat p * h))) (length sig - Z.to_nat first) =
            Z.to_nat (n * (Z.of_nat p * h)))%nat) by lia.
    rewrite Hl.
    assert (Hd : (Z.to_nat (n * (Z.of_nat p * h)) / Z.to_nat h = Z.to_nat n * p)%nat).
    { replace (n * (Z.of_nat p * h)) with ((n * Z.of_nat p) * h) by ring.
      rewrite Z2Nat.inj_mul by (clear - Hn1 Hp Hh; nia). rewrite Nat.div_mul by lia.
      rewrite Z2Nat.inj_mul, Nat2Z.id by lia. reflexivity. }
    rewrite Hd. apply Nat.le_max_r.
Qed.


Lemma speech_starts_F p h (L : Z) (sig : list PrimFloat.float) idx : (2 <= p)%nat -> 1 <= h -> Z.of_nat p * h < 2 ^ 50 /\ 4 * h < 2 ^ 50 ->
  Z.of_nat p / 2 - 1 + Z.of_nat p <= L -> L * (Z.of_nat p * (4 * h)) < two64 ->
  vad_create_ref_patch_indices p L sig (4 * h) = Ret idx ->
  patch_starts p L idx /\ (forall s, In s idx -> exists k : nat, s = Z.of_nat p / 2 - 1 + Z.of_nat k * Z.of_nat p).
Proof.
  intros Hp Hh HB HL Hb H. destruct (ntrunc_quarter_F p h Hh HB) as [T1 T2].
  destruct (vad_indices_members p L sig (4 * h) idx (Z.of_nat p * h) h Hp) as (norm & zs & _ & _ & _ & _ & S1 & S2 & S3); try lia; try assumption.
  { unfold two64 in *. nia. } { nia. }
  split; [|intros s Hs; apply S2 in Hs; destruct Hs as (k & _ & -> & _); eauto].
  split; [exact S1|]. split; [exact S3|]. intros s Hs. apply S2 in Hs. destruct Hs as (k & Hk & -> & _).
  split; [nia|]. set (f := (Z.of_nat p / 2 - 1)%Z) in *.
  assert (Z.of_nat k + 1 <= (L - f) / Z.of_nat p)%Z by lia.
  pose proof (Z.mul_div_le (L - f) (Z.of_nat p) ltac:(lia)). nia.
Qed.
