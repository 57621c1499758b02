(** The filter bank of the program is accurate (C115). *)
From Coq Require Import ZArith List Bool Reals Lra Lia Floats.
From Verif Require Import Base.Res Base.Num Base.NumF Base.NumR Base.Mat Model.Amatrix Model.Window Model.Erb Model.FilterBank Model.Fft Model.MiscAudio Model.Spectrogram Model.Mappers Model.Visqol Model.Manager
  Spec.ManagerSpec Spec.LibmSpec Spec.StableSpec Spec.FilterAccSpec Proofs.B64P Proofs.BankP Proofs.CenterP Proofs.AccurateRunP Proofs.FilterRangeP Proofs.FilterLevelP Proofs.StableCasesP Proofs.RoundedLibmP Proofs.AggregateP Proofs.AccurateCasesP.
Import ListNotations.
Open Scope R_scope.

Section Accurate.
  Context {L : Libm PrimFloat.float} (A : accurate L).
  Lemma all_channels (P : erb_coeffs PrimFloat.float -> Prop) speech sr n : (4000 <= sr <= 262144)%Z -> (1 <= n <= 32)%nat ->
    (forall cf, fin cf -> 49 <= FR cf <= 48 / 100 * IZR sr -> P (erb_channel sr cf)) -> Forall P (fst (make_filters sr n kMinimumFreq (builder_max_freq speech sr))).
  Proof.
    intros H Hn HP. destruct (high_b speech sr H) as (Fh & Hh & Hs). cbn zeta in *. unfold make_filters. cbn [fst]. set (h := capped_high sr (builder_max_freq speech sr)) in *.
    apply Forall_map, Forall_forall. intros cf Hcf. unfold center_freqs in Hcf. apply in_map_iff in Hcf. destruct Hcf as (i & <- & Hi). apply in_seq in Hi.
    destruct (center_b A h n i Fh Hh Hn ltac:(lia)) as [Fc Hc]. apply HP; [exact Fc|]. split; [apply Hc|]. apply Rle_trans with (1 := proj2 Hc). lra.
  Qed.
  Lemma filters_moderate speech sr n : (4000 <= sr <= 262144)%Z -> (1 <= n <= 32)%nat ->
    Forall (fun c => moderate_band c /\ band_gain (real_coeffs c) <= 3500) (fst (make_filters sr n kMinimumFreq (builder_max_freq speech sr))).
  Proof. intros H Hn. apply all_channels; [exact H|exact Hn|]. intros cf F C. exact (channel_moderate A sr cf H F C). Qed.
  Lemma filters_error speech sr n : (4000 <= sr <= 48000)%Z -> (1 <= n <= 32)%nat ->
    Forall (fun c => band_error (real_coeffs c) <= 6 / 1000000) (fst (make_filters sr n kMinimumFreq (builder_max_freq speech sr))).
  Proof. intros H Hn. apply all_channels; [lia|exact Hn|]. intros cf F C. apply (channel_error A sr cf ltac:(lia) F C ltac:(lia)). Qed.
  Lemma spectrogram_accurate (m : manager PrimFloat.float) (s : audio PrimFloat.float) (w : window PrimFloat.float) sp b t : reachable m -> (4000 <= au_sr s <= 48000)%Z -> (2 <= Z.of_nat (w_size w) <= 2 ^ 20)%Z ->
    Forall (within 1) (au_data s) -> let speech := st_speech (mg_settings m) in snd (build speech (mg_bank m) s w) = Ret sp -> (b < nrows (sp_data sp))%nat -> (t < ncols (sp_data sp))%nat ->
    let c := nth b (rev (fst (make_filters (au_sr s) (bk_bands (mg_bank m)) (bk_min (mg_bank m)) (builder_max_freq speech (au_sr s))))) (erb_channel 0 0%float) in
    exists h f, hop_size w = Some h /\ apply_hann w (frame w (au_data s) (t * Z.to_nat h)) = Ret f /\ fin (at_ (sp_data sp) b t) /\
      Rabs (FR (at_ (sp_data sp) b t) - exact_level (real_coeffs c) (map FR f)) <= 1 / 100000.
  Proof.
    intros HR Hsr Hw HF speech E Hb Ht c. destruct (bank_invariant m HR) as [E1 E2].
    assert (N32 : (1 <= bk_bands (mg_bank m) <= 32)%nat) by (rewrite E1; unfold num_bands; destruct (st_speech _); lia).
    assert (EX : exists h, hop_size w = Some h /\ (1 <= h)%Z /\ (w_size w < length (au_data s))%nat).
    { unfold build in E. destruct (prepared_bank speech (mg_bank m) (au_sr s)). destruct (hop_size w) as [h|]; [|discriminate]. exists h. split; [reflexivity|].
      destruct (Nat.leb_spec (length (au_data s)) (w_size w)); [discriminate|]. destruct (Z.leb_spec h 0); [discriminate|]. lia. }
    destruct EX as (h & Eh & H1 & Hl). destruct (build_ret speech (mg_bank m) s w h Eh H1 Hl) as (sp' & E' & _ & NR & _). rewrite E in E'. injection E' as <-.
    assert (P : moderate_band c /\ band_error (real_coeffs c) + / 2 ^ 29 * band_gain (real_coeffs c) + / 2 ^ 400 <= 1 / 100000).
    { assert (AL : Forall (fun c => moderate_band c /\ band_error (real_coeffs c) + / 2 ^ 29 * band_gain (real_coeffs c) + / 2 ^ 400 <= 1 / 100000) (rev (fst (make_filters (au_sr s) (bk_bands (mg_bank m)) (bk_min (mg_bank m)) (builder_max_freq speech (au_sr s)))))).
      { apply Forall_rev. rewrite E2. apply all_channels; [lia|exact N32|]. intros cf F C. split; [apply (channel_moderate A (au_sr s) cf ltac:(lia) F C)|apply (channel_error A (au_sr s) cf ltac:(lia) F C ltac:(lia))]. }
      rewrite Forall_forall in AL. apply AL. apply nth_In. rewrite rev_length. unfold make_filters, center_freqs. cbn [fst]. rewrite !map_length, seq_length. rewrite NR in Hb. exact Hb. }
    destruct P as [MB B]. destruct (entries_accurate (accurate_cos A) speech (mg_bank m) s w sp b t Hw HF E Hb Ht MB) as (h' & f & Eh' & Ef & Fe & X). exists h', f. split; [exact Eh'|]. split; [exact Ef|]. split; [exact Fe|]. exact (Rle_trans _ _ _ X B).
  Qed.
End Accurate.

(** a constant of 2700 samples at 4000 Hz, in windows of 320 samples *)
Definition tone_window : window PrimFloat.float := MkWin 320 0.25%float.
Lemma tone_within : Forall (within 1) (au_data (tone 0.5%float)).
Proof. apply Forall_repeat_. reflexivity. Qed.
Lemma tone_built : exists sp, snd (build (L:=rounded_libm) (st_speech (mg_settings (plain_manager true))) (mg_bank (plain_manager true)) (tone 0.5%float) tone_window) = Ret sp /\
  nrows (sp_data sp) = 21%nat /\ ncols (sp_data sp) = 30%nat.
Proof.
  assert (LN : length (au_data (tone 0.5%float)) = Z.to_nat 2700) by (apply repeat_length).
  destruct (build_ret (L:=rounded_libm) (st_speech (mg_settings (plain_manager true))) (mg_bank (plain_manager true)) (tone 0.5%float) tone_window 80) as (sp & E & _ & NR & NC & _); [vm_compute; reflexivity|lia|rewrite LN; cbn [tone_window w_size]; lia|].
  exists sp. split; [exact E|]. split; [rewrite NR; vm_compute; reflexivity|rewrite NC, LN; vm_compute; reflexivity].
Qed.
