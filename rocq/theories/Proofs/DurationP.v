(** Lemmas about durations (C80). *)
From Coq Require Import ZArith List Bool Ascii Lia Arith ZifyBool ZifyNat.
From Verif Require Import Base.Res Base.Num Base.Lists Base.Mat Model.Amatrix Model.FilterBank Model.MiscMath Model.MiscAudio Model.Wav Model.Duration
  Spec.AudioSpec Spec.WavSpec Proofs.MiscAudioP Proofs.WavP Proofs.WavLoadP Proofs.WavCutP.
Import ListNotations.
Open Scope Z_scope.

Section P.
  Context {T : Type} {N : Num T}.

  Lemma mono_rows (M : mat T) : nrows (to_mono M) = nrows M.
  Proof. unfold to_mono. destruct (Nat.ltb _ _); reflexivity. Qed.

  Lemma load_dims all w : parse_header all = Some w -> (wv_offset w + 2 <= List.length all)%nat ->
    exists s, load_as_mono (T:=T) all = Ret s /\ ld_sr s = Some (size_of (wv_rate w)) /\
      Z.of_nat (nrows (ld_data s)) = wv_total w / wv_channels w.
  Proof.
    intros E HL. destruct (parse_header_ok all w E) as (_ & _ & _ & _ & _ & _ & HC & _ & HT & _).
    unfold load_as_mono. rewrite E. destruct (read_at_start all w E) as [r ->].
    replace (0 <? _) with true by (symmetry; apply Z.ltb_lt; apply Z.div_str_pos; rewrite firstn_length, skipn_length; lia).
    cbv zeta.
    set (l := normalize_int16 _).
    assert (LL0 : List.length l = Z.to_nat (wv_total w)) by (unfold l, normalize_int16; rewrite map_length; apply samples_of_length).
    destruct (extract_spec (Z.to_nat (wv_channels w)) l ltac:(lia)) as (chans & EX & LC & LL & _).
    rewrite EX. cbn [bind].
    destruct (of_cols_ret chans (List.length l / Z.to_nat (wv_channels w))) as (EO & _).
    - destruct chans; [cbn in LC; lia|discriminate].
    - intros k Hk. apply LL. lia.
    - rewrite EO. cbn [bind]. eexists. split; [reflexivity|]. cbn [ld_sr ld_data]. split; [reflexivity|].
      rewrite mono_rows. cbn [nrows]. rewrite LL0, Nat2Z.inj_div, !Z2Nat.id by lia. reflexivity.
  Qed.

  Lemma same_duration all w : parse_header all = Some w -> (wv_offset w + 2 <= List.length all)%nat -> 0 <= wv_rate w ->
    exists s, load_as_mono (T:=T) all = Ret s /\ signal_duration s = Ret (wav_duration w).
  Proof.
    intros E HL HR. destruct (load_dims all w E HL) as (s & ES & SR & NR). exists s. split; [exact ES|].
    unfold signal_duration, wav_duration. rewrite SR, NR. unfold size_of. rewrite Z.mod_small; [reflexivity|].
    destruct (parse_header_ok all w E) as (HH & _). clear - HR E. unfold parse_header in E.
    split; [exact HR|].
    destruct (read_exact all 0 36) as [[h p]|]; [|discriminate]. cbv zeta in E.
    destruct (_ <? 16); [discriminate|].
    destruct (skip_extension _ _ _); [|discriminate]. destruct (skip_fact _ _ _); [|discriminate].
    destruct (negb _); [discriminate|].
    match type of E with context [snd ?x] => destruct (snd x) as [[size q]|]; [|discriminate] end.
    destruct (_ || _); [discriminate|]. injection E as <-. cbn [wv_rate] in *. unfold int_of, two64.
    pose proof (Z.mod_pos_bound (le_val (field h 24 4)) (2 ^ 32) ltac:(lia)). destruct (_ <? _); lia.
  Qed.

  (** a rate of 2^31 or more: the reader's is negative, the signal's is close to 2^64 *)
  Lemma huge_rate all w : parse_header all = Some w -> (wv_offset w + 2 <= List.length all)%nat -> - 2 ^ 31 <= wv_rate w < 0 ->
    exists s r, load_as_mono (T:=T) all = Ret s /\ ld_sr s = Some r /\ r = wv_rate w + 2 ^ 64.
  Proof.
    intros E HL HR. destruct (load_dims all w E HL) as (s & ES & SR & NR). exists s, (size_of (wv_rate w)).
    split; [exact ES|]. split; [exact SR|]. unfold size_of, two64.
    rewrite <- (Z.mod_add _ 1) by lia. rewrite Z.mod_small; lia.
  Qed.
End P.
