(** Comparing wav files in binary64 (C105). *)
From Coq Require Import String.
From Coq Require Import ZArith List Bool Ascii Lia Floats Reals Permutation ZifyNat.
From Flocq Require Import Core.Core IEEE754.BinarySingleNaN IEEE754.PrimFloat.
From Verif Require Import Base.Res Base.Num Base.NumF Base.Lists Base.Mat Model.Amatrix Model.MiscMath Model.Window Model.FilterBank Model.MiscAudio Model.Wav Model.Fft Model.Mappers Model.Visqol Model.Manager
  Spec.StableSpec Spec.PcmSpec Spec.WavSpec Spec.DownmixSpec Spec.ManagerSpec Spec.TotalSpec Spec.LibmSpec
  Proofs.FftP Proofs.WavP Proofs.B64P Proofs.WavFloatP Proofs.ToyRunP Proofs.AccurateRunP Proofs.RoundedLibmP Proofs.AccurateCasesP.
Import ListNotations.
Open Scope Z_scope.

Lemma zsum_fold l : zsum l = fold_right Z.add 0 l. Proof. induction l; cbn; congruence. Qed.
Lemma closest_rnd r x : fin x -> FR x = rnd r -> closest r x.
Proof.
  intros Fx E. split; [exact Fx|]. intros y _. rewrite E. pose proof (@round_N_pt radix2 (SpecFloat.fexp prec emax) (fexp_correct prec emax Hprec) (fun z => negb (Z.even z)) r) as [_ H].
  apply (H (FR y)). apply generic_format_B2R.
Qed.
Lemma file_loads channels rate extra samples rest : holdable channels rate samples -> Forall other_chunk extra ->
  exists M, load_as_mono (T:=F) (wav_file channels rate extra samples rest) = Ret (MkLoaded M (Some rate)) /\ length (elems M) = (length samples / Z.to_nat channels)%nat /\
    (forall i x, nth_error (elems M) i = Some x -> closest (mean_level (at_once (Z.to_nat channels) samples i)) x) /\ Forall pcm (elems M).
Proof.
  intros (Hc & Hr & Hs & Hn & HR) HF. destruct (load_file_shape scale_zero_F channels rate extra samples rest Hc Hr HF Hs Hn HR) as (M & E & EM). exists M. split; [exact E|]. rewrite EM. split; [|split].
  - unfold mixed. rewrite map_length. apply seq_length.
  - intros i x Hx. unfold mixed in Hx. rewrite nth_error_map in Hx. destruct (nth_error (seq 0 _) i) as [j|] eqn:Ej; [|discriminate].
    assert (j = i). { assert (Hi : (i < length samples / Z.to_nat channels)%nat) by (rewrite <- (seq_length (length samples / Z.to_nat channels) 0); apply nth_error_Some; rewrite Ej; discriminate).
      rewrite (nth_error_nth' _ 0%nat) in Ej by (rewrite seq_length; exact Hi). rewrite seq_nth in Ej by exact Hi. injection Ej as <-. lia. }
    subst j. cbn in Hx. injection Hx as <-. destruct (mix_real _ (row_int16s channels samples i ltac:(lia) HR)) as (Fx & Ex & _). rewrite zsum_fold in Ex. apply closest_rnd; [exact Fx|exact Ex].
  - apply mixed_pcm; [lia|exact HR].
Qed.
Lemma order_irrelevant channels rate extra extra' samples samples' rest rest' : holdable channels rate samples -> holdable channels rate samples' -> Forall other_chunk extra -> Forall other_chunk extra' ->
  length samples = length samples' -> (forall i, (i < length samples / Z.to_nat channels)%nat -> Permutation (at_once (Z.to_nat channels) samples i) (at_once (Z.to_nat channels) samples' i)) ->
  exists M M', load_as_mono (T:=F) (wav_file channels rate extra samples rest) = Ret (MkLoaded M (Some rate)) /\ load_as_mono (T:=F) (wav_file channels rate extra' samples' rest') = Ret (MkLoaded M' (Some rate)) /\ elems M = elems M'.
Proof.
  intros (Hc & Hr & Hs & Hn & HR) (_ & _ & Hs' & Hn' & HR') HF HF' HL HP.
  destruct (load_file_shape scale_zero_F channels rate extra samples rest Hc Hr HF Hs Hn HR) as (M & E & EM). destruct (load_file_shape scale_zero_F channels rate extra' samples' rest' Hc Hr HF' Hs' Hn' HR') as (M' & E' & EM').
  exists M, M'. split; [exact E|]. split; [exact E'|]. rewrite EM, EM', <- HL. apply map_ext_in. intros i Hi. apply in_seq in Hi. apply mix_perm; [apply row_int16s; [lia|exact HR]|]. apply HP. lia.
Qed.
Section Files.
  Context {L : Libm F}.
  Lemma files_defined (w : world F) (m : manager F) rp dp cr er sr rr cd ed sd rd rate :
    accurate L -> keeps_length (w_fft w) -> mg_init m = true -> reachable m -> let st := mg_settings m in
    holdable cr rate sr -> holdable cd rate sd -> Forall other_chunk er -> Forall other_chunk ed ->
    w_file w rp = Some (wav_file cr rate er sr rr) -> w_file w dp = Some (wav_file cd rate ed sd rd) ->
    let nr := Z.of_nat (length sr) / cr in let nd := Z.of_nat (length sd) / cd in
    4000 <= rate <= 262144 -> nr < 2 ^ 29 -> nd < 2 ^ 29 -> nr + 2 * window_samples rate < 2 * nd ->
    (if st_speech st then 29 else 45) <= frames_in rate (Z.to_nat nr) -> (st_speech st = true -> window_samples rate mod 4 = 0) ->
    1 <= st_radius st -> frames_in rate (Z.to_nat nr) + st_radius st * (if st_speech st then 20 else 30) <= 2 ^ 31 -> can_predict (st_mapper st) ->
    (exists msg, snd (run_files w m rp dp) = Ret msg) \/ (st_no_realign st = false /\ snd (run_files w m rp dp) = Throw).
  Proof.
    intros A KL MI RE st Hr Hd Er Ed Wr Wd nr nd Hrate Nr Nd N2 FR_ W4 R1 R2 CP.
    destruct (file_loads cr rate er sr rr Hr Er) as (Mr & LR & LenR & _ & PR). destruct (file_loads cd rate ed sd rd Hd Ed) as (Md & LD & LenD & _ & PD).
    destruct Hr as (Cr & _). destruct Hd as (Cd & _).
    assert (ER : length (elems Mr) = Z.to_nat nr) by (rewrite LenR; unfold nr; rewrite Z2Nat.inj_div by lia; rewrite Nat2Z.id; reflexivity).
    assert (ED : length (elems Md) = Z.to_nat nd) by (rewrite LenD; unfold nd; rewrite Z2Nat.inj_div by lia; rewrite Nat2Z.id; reflexivity).
    assert (Nr0 : 0 <= nr) by (apply Z.div_pos; lia). assert (Nd0 : 0 <= nd) by (apply Z.div_pos; lia).
    unfold run_files. rewrite MI, Wr, Wd. cbn [negb load_file]. rewrite LR, LD. unfold audio_of. cbn [bind ld_sr ld_data].
    pose proof (run_accurate w m (MkAudio (elems Mr) rate) (MkAudio (elems Md) rate) A KL MI RE) as X. cbv zeta in X. cbn [au_sr au_data] in X. rewrite ER, ED, !Z2Nat.id in X by assumption.
    specialize (X eq_refl Hrate Nr Nd N2 FR_ W4 R1 R2 CP PR PD).
    destruct (run w m (MkAudio (elems Mr) rate) (MkAudio (elems Md) rate)) as [[m' d'] r]. cbn [snd] in X |- *. destruct X as [[msg ->]|[X ->]]; [left; eexists; reflexivity|right; split; [exact X|reflexivity]].
  Qed.
End Files.

(** *** files of a stereo reference and a silent mono recording *)
Definition stereo_file : list ascii := wav_file 2 4000 [] (repeat 16384 (Z.to_nat 5400)) [].
Definition silent_file : list ascii := wav_file 1 4000 [] (repeat 0 (Z.to_nat 2700)) [].
Definition file_world : world F := MkWorld (w_fft run_world) (w_svr run_world) (w_tfl run_world) (fun p => if String.eqb p "s"%string then Some stereo_file else Some silent_file) String.EmptyString.
Lemma held z n c : -32768 <= z < 32768 -> 1 <= Z.of_nat n <= 100000 -> 1 <= c < 65536 -> holdable c 4000 (repeat z n).
Proof.
  intros Hz Hn Hc. split; [exact Hc|]. split; [lia|]. split; [destruct n; [lia|discriminate]|]. split; [rewrite repeat_length; lia|]. apply Forall_forall. intros x Hx. apply repeat_spec in Hx. subst x. exact Hz.
Qed.
Lemma files_run : (exists msg, snd (run_files (L:=rounded_libm) file_world (plain_manager false) "s"%string "q"%string) = Ret msg).
Proof.
  destruct (plain_reached false) as (R1 & R2 & R3). assert (KL : keeps_length (w_fft file_world)) by (split; intros l; reflexivity).
  pose proof (files_defined (L:=rounded_libm) file_world (plain_manager false) "s"%string "q"%string 2 [] (repeat 16384 (Z.to_nat 5400)) [] 1 [] (repeat 0 (Z.to_nat 2700)) [] 4000 rounded_accurate KL R2 R1) as X. cbv zeta in X.
  rewrite !repeat_length in X. rewrite !Z2Nat.id in X by lia. change (5400 / 2) with 2700 in X. change (2700 / 1) with 2700 in X.
  destruct X as [X|[X _]]; [apply held; lia|apply held; lia|constructor|constructor|reflexivity|reflexivity|lia|lia|lia| | |intros _; reflexivity| | | |exact X|].
  - unfold window_samples. change ((4 * 4000 + 25) / 50) with 320. lia.
  - unfold frames_in. rewrite Z2Nat.id by lia. vm_compute. discriminate.
  - cbn. lia.
  - unfold frames_in. rewrite Z2Nat.id by lia. vm_compute. discriminate.
  - exact I.
  - clear - X R3. exfalso. rewrite R3 in X. discriminate X.
Qed.
