(** Loading wav files as mono signals (C44, C47, C64). *)
From Coq Require Import ZArith List Bool Ascii String Reals Lra Lia Arith.
From Verif Require Import Base.Res Base.Num Base.NumR Base.Lists Base.Mat Model.Amatrix Model.MiscMath
  Model.FilterBank Model.MiscAudio Model.Wav Spec.StatSpec Spec.AudioSpec Spec.WavSpec
  Proofs.RealP Proofs.ConvP Proofs.StatP Proofs.MiscAudioP Proofs.WavP.
Import ListNotations.
Open Scope nat_scope.

Lemma samples_of_length n : forall b, List.length (samples_of n b) = n.
Proof. induction n as [|n IH]; intros b; [reflexivity|]. cbn [samples_of List.length]. now rewrite IH. Qed.

Section Generic.
  Context {T : Type} {N : Num T}.

  Lemma of_cols_ret (cs : list (list T)) n : cs <> [] -> (forall k, k < List.length cs -> List.length (nth k cs []) = n) ->
    m_of_cols cs = Ret (MkMat n (List.length cs) (List.concat cs)) /\ wf (MkMat n (List.length cs) (List.concat cs)) /\
    forall k i, k < List.length cs -> i < n -> at_ (MkMat n (List.length cs) (List.concat cs)) i k = nth i (nth k cs []) n0.
  Proof.
    intros Hne HL.
    assert (HA : forall c, In c cs -> List.length c = n).
    { intros c Hc. destruct (In_nth _ _ [] Hc) as (k & Hk & <-). auto. }
    assert (E : m_of_cols cs = Ret (MkMat n (List.length cs) (List.concat cs))).
    { destruct cs as [|c0 cs]; [contradiction|]. unfold m_of_cols.
      replace (forallb _ _) with true.
      - rewrite (HA c0) by (left; reflexivity). reflexivity.
      - symmetry. apply forallb_forall. intros c Hc. apply Nat.eqb_eq.
        rewrite (HA c Hc), (HA c0) by (left; reflexivity). reflexivity. }
    split; [exact E|].
    assert (EC : List.concat cs = flat_map (fun c => c) cs).
    { clear. induction cs as [|c cs IH]; [reflexivity|]. cbn. now rewrite IH. }
    split.
    - unfold wf. cbn [elems nrows ncols]. rewrite EC, (flat_map_length_const _ _ n) by exact HA. lia.
    - intros k i Hk Hi. unfold at_, mget. cbn [elems nrows]. rewrite EC.
      rewrite (nth_flat_map_const _ _ n k i [] n0) by assumption. reflexivity.
  Qed.

  Lemma load_safe (all : bytes) : exists l, load_as_mono (T:=T) all = Ret l.
  Proof.
    unfold load_as_mono. destruct (parse_header all) as [w|] eqn:E; [|eexists; reflexivity].
    destruct (read_samples _ _ _) as [[b got] r']. destruct (0 <? got)%Z; [|eexists; reflexivity].
    apply parse_header_ok in E. destruct E as (_ & _ & _ & _ & _ & _ & HC & _).
    set (l := normalize_int16 _).
    destruct (extract_spec (Z.to_nat (wv_channels w)) l ltac:(lia)) as (chans & EX & LC & LL & _).
    rewrite EX. cbn [bind].
    destruct (of_cols_ret chans (List.length l / Z.to_nat (wv_channels w))) as (EO & _).
    - destruct chans; [cbn in LC; lia|discriminate].
    - intros k Hk. apply LL. lia.
    - rewrite EO. cbn [bind]. eexists; reflexivity.
  Qed.
End Generic.

Open Scope R_scope.

Lemma load_wav_file channels rate extra samples rest :
  (1 <= channels < 65536)%Z -> (0 <= rate < 2 ^ 31)%Z -> Forall other_chunk extra ->
  samples <> [] -> (2 * Z.of_nat (List.length samples) < 2 ^ 32)%Z ->
  Forall (fun z => -32768 <= z < 32768)%Z samples ->
  let ch := Z.to_nat channels in
  let frames := (List.length samples / ch)%nat in
  exists M, load_as_mono (T:=R) (wav_file channels rate extra samples rest) = Ret (MkLoaded M (Some rate)) /\
    wf M /\ nrows M = frames /\ ncols M = 1%nat /\
    forall i, (i < frames)%nat ->
      at_ M i 0 = mean (map (fun k => IZR (nth (i * ch + k) samples 0%Z) / 32768) (seq 0 ch)).
Proof.
  intros Hc Hr HF Hs Hn HR ch frames.
  destruct (parse_wav_file channels rate extra samples rest Hc Hr HF Hs Hn) as (off & EP & pre & EF & Lp).
  unfold load_as_mono. rewrite EP. cbn [wv_total wv_channels wv_rate].
  destruct (read_wav_file channels rate (Z.of_nat (List.length samples)) pre samples rest HR Hs eq_refl Hn)
    as (b & r' & ER & Eb & ES).
  rewrite EF, <- Lp, ER.
  assert (0 < List.length samples)%nat by (destruct samples; [contradiction|cbn; lia]).
  replace (0 <? Z.of_nat (List.length samples))%Z with true by (symmetry; apply Z.ltb_lt; lia).
  rewrite Nat2Z.id.
  replace (2 * List.length samples - List.length b)%nat with 0%nat
    by (rewrite Eb, flat_map_le2_length; lia).
  cbn [repeat]. rewrite app_nil_r, ES.
  set (l := normalize_int16 samples).
  assert (Ll : List.length l = List.length samples) by apply map_length.
  destruct (extract_spec ch l ltac:(unfold ch; lia)) as (chans & EX & LC & LL & G & _).
  fold ch. rewrite EX. cbn [bind]. rewrite Ll in *. fold frames in LL, G.
  destruct (of_cols_ret chans frames) as (EO & WO & GO).
  { destruct chans; [unfold ch in LC; cbn in LC; lia|discriminate]. }
  { intros k Hk. apply LL. lia. }
  rewrite EO. cbn [bind].
  assert (ESR : size_of rate = rate) by (unfold size_of, two64; rewrite Z.mod_small; lia). rewrite ESR.
  set (M := MkMat frames (List.length chans) (List.concat chans)) in *.
  assert (GM : forall i k, (i < frames)%nat -> (k < ch)%nat ->
    at_ M i k = IZR (nth (i * ch + k) samples 0%Z) / 32768).
  { intros i k Hi Hk. rewrite GO by lia. rewrite G by assumption.
    unfold l, normalize_int16. change (@n0 R NumR) with 0.
    replace 0 with (abs_scale (T:=R) 0%Z) by (rewrite abs_scale_R; lra). rewrite map_nth. apply abs_scale_R. }
  exists (to_mono M). split; [reflexivity|].
  assert (NC : ncols M = ch) by exact LC.
  destruct (Nat.eq_dec ch 1) as [E1|N1].
  - rewrite (to_mono_mono M) by lia. split; [exact WO|]. split; [reflexivity|]. split; [lia|].
    intros i Hi. rewrite GM by lia. rewrite E1. cbn [seq map]. unfold mean, total. cbn. lra.
  - destruct (to_mono_mean M ltac:(unfold ch in *; lia)) as (W & R1 & C1 & GG).
    split; [exact W|]. split; [exact R1|]. split; [exact C1|].
    intros i Hi. rewrite GG by exact Hi. f_equal. rewrite NC. apply map_ext_in. intros k Hk. apply in_seq in Hk.
    apply GM; lia.
Qed.
