(** Concrete cases for C02-C08: whole calls, evaluated in binary64. *)
From Coq Require Import ZArith List Bool String Floats Lia.
From Verif Require Import Base.Res Base.Num Base.NumF Base.Mat Model.Amatrix Model.MiscMath Model.Window Model.FilterBank Model.Fft Model.Alignment Model.MiscAudio
  Model.Spectrogram Model.Nsim Model.Mappers Model.Visqol Model.Manager Spec.ManagerSpec Spec.ApiSpec
  Proofs.ShapeP Proofs.AggregateP Proofs.FftP Proofs.ApiP Proofs.ShortP Proofs.ToyRunP.
Import ListNotations.
Open Scope Z_scope.

(** *** an accurate transform of 32, 64 or 128 points *)
Definition cos_table : list PrimFloat.float := [
  0x1.0000000000000p+0; 0x1.ff621e3796d7ep-1; 0x1.fd88da3d12526p-1; 0x1.fa7557f08a517p-1;
  0x1.f6297cff75cb0p-1; 0x1.f0a7efb9230d7p-1; 0x1.e9f4156c62ddap-1; 0x1.e212104f686e5p-1;
  0x1.d906bcf328d46p-1; 0x1.ced7af43cc773p-1; 0x1.c38b2f180bdb1p-1; 0x1.b728345196e3ep-1;
  0x1.a9b66290ea1a3p-1; 0x1.9b3e047f38741p-1; 0x1.8bc806b151741p-1; 0x1.7b5df226aafafp-1;
  0x1.6a09e667f3bcdp-1; 0x1.57d69348cec9fp-1; 0x1.44cf325091dd6p-1; 0x1.30ff7fce17036p-1;
  0x1.1c73b39ae68c9p-1; 0x1.073879922ffedp-1; 0x1.e2b5d3806f63ep-2; 0x1.b5d1009e15cc2p-2;
  0x1.87de2a6aea964p-2; 0x1.58f9a75ab1fddp-2; 0x1.294062ed59f05p-2; 0x1.f19f97b215f1ep-3;
  0x1.8f8b83c69a60dp-3; 0x1.2c8106e8e613ap-3; 0x1.917a6bc29b438p-4; 0x1.91f65f10dd824p-5;
  0; (-0x1.91f65f10dd813p-5); (-0x1.917a6bc29b42fp-4); (-0x1.2c8106e8e6136p-3);
  (-0x1.8f8b83c69a608p-3); (-0x1.f19f97b215f1ap-3); (-0x1.294062ed59f02p-2); (-0x1.58f9a75ab1fdbp-2);
  (-0x1.87de2a6aea962p-2); (-0x1.b5d1009e15cbcp-2); (-0x1.e2b5d3806f63cp-2); (-0x1.073879922ffedp-1);
  (-0x1.1c73b39ae68c6p-1); (-0x1.30ff7fce17035p-1); (-0x1.44cf325091dd5p-1); (-0x1.57d69348ceca0p-1);
  (-0x1.6a09e667f3bccp-1); (-0x1.7b5df226aafadp-1); (-0x1.8bc806b151741p-1); (-0x1.9b3e047f38740p-1);
  (-0x1.a9b66290ea1a4p-1); (-0x1.b728345196e3dp-1); (-0x1.c38b2f180bdb0p-1); (-0x1.ced7af43cc773p-1);
  (-0x1.d906bcf328d46p-1); (-0x1.e212104f686e4p-1); (-0x1.e9f4156c62ddap-1); (-0x1.f0a7efb9230d7p-1);
  (-0x1.f6297cff75cb0p-1); (-0x1.fa7557f08a517p-1); (-0x1.fd88da3d12525p-1); (-0x1.ff621e3796d7ep-1);
  (-0x1.0000000000000p+0); (-0x1.ff621e3796d7ep-1); (-0x1.fd88da3d12526p-1); (-0x1.fa7557f08a517p-1);
  (-0x1.f6297cff75cb0p-1); (-0x1.f0a7efb9230d7p-1); (-0x1.e9f4156c62ddbp-1); (-0x1.e212104f686e5p-1);
  (-0x1.d906bcf328d47p-1); (-0x1.ced7af43cc774p-1); (-0x1.c38b2f180bdb1p-1); (-0x1.b728345196e3ep-1);
  (-0x1.a9b66290ea1a5p-1); (-0x1.9b3e047f38741p-1); (-0x1.8bc806b151742p-1); (-0x1.7b5df226aafafp-1);
  (-0x1.6a09e667f3bcep-1); (-0x1.57d69348ceca2p-1); (-0x1.44cf325091ddap-1); (-0x1.30ff7fce17033p-1);
  (-0x1.1c73b39ae68c8p-1); (-0x1.073879922ffeep-1); (-0x1.e2b5d3806f63fp-2); (-0x1.b5d1009e15cc7p-2);
  (-0x1.87de2a6aea96dp-2); (-0x1.58f9a75ab1fdbp-2); (-0x1.294062ed59f07p-2); (-0x1.f19f97b215f23p-3);
  (-0x1.8f8b83c69a619p-3); (-0x1.2c8106e8e614ep-3); (-0x1.917a6bc29b421p-4); (-0x1.91f65f10dd816p-5);
  0; 0x1.91f65f10dd7e1p-5; 0x1.917a6bc29b407p-4; 0x1.2c8106e8e6141p-3;
  0x1.8f8b83c69a60cp-3; 0x1.f19f97b215f16p-3; 0x1.294062ed59f00p-2; 0x1.58f9a75ab1fd5p-2;
  0x1.87de2a6aea967p-2; 0x1.b5d1009e15cc1p-2; 0x1.e2b5d3806f63ap-2; 0x1.073879922ffecp-1;
  0x1.1c73b39ae68c5p-1; 0x1.30ff7fce17031p-1; 0x1.44cf325091dd7p-1; 0x1.57d69348cec9fp-1;
  0x1.6a09e667f3bcbp-1; 0x1.7b5df226aafadp-1; 0x1.8bc806b15173ep-1; 0x1.9b3e047f38742p-1;
  0x1.a9b66290ea1a3p-1; 0x1.b728345196e3dp-1; 0x1.c38b2f180bdafp-1; 0x1.ced7af43cc771p-1;
  0x1.d906bcf328d44p-1; 0x1.e212104f686e5p-1; 0x1.e9f4156c62ddap-1; 0x1.f0a7efb9230d7p-1;
  0x1.f6297cff75cafp-1; 0x1.fa7557f08a516p-1; 0x1.fd88da3d12526p-1; 0x1.ff621e3796d7ep-1]%float.
Definition cosn (n i : Z) : PrimFloat.float := nth (Z.to_nat (128 / n * (i mod n))) cos_table 0%float.
Definition sinn (n i : Z) : PrimFloat.float := cosn n (i - n / 4).
Definition zrange (n : nat) : list Z := map Z.of_nat (seq 0 n).
Definition dot (w : Z -> PrimFloat.float) (l : list PrimFloat.float) : PrimFloat.float :=
  nsum (map (fun p => nmul (snd p) (w (fst p))) (combine (zrange (List.length l)) l)).
Definition fwd (l : list PrimFloat.float) : list PrimFloat.float :=
  let n := Z.of_nat (List.length l) in
  map (fun j => if Z.eqb j 1 then dot (fun i => cosn n (n / 2 * i)) l
                else if Z.even j then dot (fun i => cosn n (j / 2 * i)) l
                else PrimFloat.opp (dot (fun i => sinn n (j / 2 * i)) l)) (zrange (List.length l)).
Definition bwd (p : list PrimFloat.float) : list PrimFloat.float :=
  let n := Z.of_nat (List.length p) in
  map (fun i => dot (fun j => if Z.eqb j 0 then 1%float
                              else if Z.eqb j 1 then cosn n (n / 2 * i)
                              else nmul 2%float (if Z.even j then cosn n (j / 2 * i) else PrimFloat.opp (sinn n (j / 2 * i)))) p)
      (zrange (List.length p)).
Definition small_fft : pffft PrimFloat.float := MkPffft fwd bwd (fun x => x).

(** *** a model that always loads, in audio mode *)
Definition svr_world : world PrimFloat.float :=
  MkWorld small_fft (fun _ => Some (fun _ => 3%float)) (fun _ => inl Unknown) (fun _ => None) EmptyString.
Definition audio_args : init_args := MkInit EmptyString false false 60 false false true.
Definition audio_manager : manager PrimFloat.float := fst (init svr_world manager_new audio_args).
Definition click (n at_ : nat) : audio PrimFloat.float :=
  MkAudio (map (fun i => if Nat.eqb i at_ then 5%float else 0%float) (seq 0 n)) 50.
Lemma audio_manager_history (L : Libm PrimFloat.float) : history true audio_manager.
Proof. exact (h_init_ok false svr_world manager_new audio_args audio_manager h_new eq_refl). Qed.

(** four samples against forty-eight: the four samples fit in one window, but sixteen zeros and more are put in front *)
Lemma window_50 : make_window 50 = Ret (MkWin 4 (kOverlap : PrimFloat.float)) /\ hop_size (MkWin 4 (kOverlap : PrimFloat.float)) = Some 1.
Proof. split; vm_compute; reflexivity. Qed.
Lemma padded_click : exists lag, globally_align small_fft (click 48 20) (click 4 2) = Ret (MkAudio (repeat 0%float 18 ++ au_data (click 4 2)) 50, lag).
Proof. eexists. vm_compute. reflexivity. Qed.
Lemma short_degraded_accepted (L : Libm PrimFloat.float) :
  snd (run svr_world audio_manager (click 48 20) (click 4 2)) <> Err InvalidArgument.
Proof.
  destruct padded_click as [lag P].
  refine (long_not_invalid svr_world audio_manager (click 48 20) (click 4 2) (MkWin 4 kOverlap) _ lag 1 eq_refl eq_refl eq_refl
            (proj1 window_50) (proj2 window_50) P _ _ _); [apply Nat.ltb_lt; reflexivity|apply Nat.ltb_lt; reflexivity|].
  intros _. apply Nat.leb_le. reflexivity.
Qed.

(** *** nothing at all *)
Lemma empty_pair (L : Libm PrimFloat.float) : run svr_world audio_manager (MkAudio [] 50) (MkAudio [] 50) = (audio_manager, MkAudio [] 50, Ub).
Proof. vm_compute. reflexivity. Qed.

(** *** failed re-initialisation *)
Definition lattice_args : init_args := MkInit "missing.tflite" true false 0 true true true.
Lemma run_manager_history (L : Libm PrimFloat.float) : history true run_manager.
Proof. exact (h_init_ok false run_world manager_new run_args run_manager h_new eq_refl). Qed.
Lemma failed_reinit : exists m', init run_world run_manager lattice_args = (m', Some Unknown) /\
  (exists x, snd (run (L:=run_libm) run_world run_manager (run_audio 1) (run_audio 2)) = Ret x) /\
  snd (run (L:=run_libm) run_world m' (run_audio 1) (run_audio 2)) = Ub.
Proof.
  eexists. split; [reflexivity|]. destruct toy_result as (m1 & d1 & x & E & _). split; [exists x; rewrite E; reflexivity|].
  eapply failed_load_breaks with (m := run_manager) (a := lattice_args) (w := run_world); try exact E; try reflexivity.
  apply run_manager_history.
Qed.

(** the same through the API: a config with sample rate 0 is refused, yet the rate is kept *)
Definition speech_config (sr : Z) : config := MkConfig (Some sr) (Some (MkOptions EmptyString true false false (-1) false)).
Definition toy_api : api PrimFloat.float := fst (create run_world api_new (speech_config 50)).
Definition toy_samples (k : Z) : list PrimFloat.float := au_data (run_audio k).
Lemma toy_api_history (L : Libm PrimFloat.float) : api_history true true toy_api.
Proof. exact (a_create_ok false false run_world api_new (speech_config 50) toy_api a_new eq_refl). Qed.
Lemma toy_measure : exists p x, measure (L:=run_libm) run_world toy_api (toy_samples 1) (toy_samples 2) = (p, Ret x) /\ List.length (ms_patches x) = 1%nat.
Proof. eexists _, _. split; vm_compute; reflexivity. Qed.
Lemma window_0 : make_window 0 = Ret (MkWin 0 (kOverlap : PrimFloat.float)) /\ hop_size (MkWin 0 (kOverlap : PrimFloat.float)) = Some 0.
Proof. split; vm_compute; reflexivity. Qed.
Lemma rate_0_scores_nothing (L : Libm PrimFloat.float) w (m : manager PrimFloat.float) ref deg x : au_sr ref = 0 -> snd (run w m ref deg) <> Ret x.
Proof.
  intros E H. unfold run in H. destruct (negb _); [discriminate|]. destruct (validate _ _); [discriminate|].
  destruct (if mg_no_global m then _ else _) as [[d lag]| | |]; try discriminate. rewrite E, (proj1 window_0) in H.
  unfold calculate_similarity in H. destruct (build _ (mg_bank m) ref _) as [k1 rs] eqn:B.
  destruct rs as [rs| | |]; try discriminate. apply build_inv in B. destruct B as (_ & _ & _ & _ & _ & h & EH & H1 & _).
  rewrite (proj2 window_0) in EH. assert (h = 0) by congruence. lia.
Qed.
Lemma rejected_rate_kept : exists p', create run_world toy_api (speech_config 0) = (p', Some InvalidArgument) /\
  (exists x, snd (measure (L:=run_libm) run_world toy_api (toy_samples 1) (toy_samples 2)) = Ret x) /\
  forall L ref deg x, snd (measure (L:=L) run_world p' ref deg) <> Ret x.
Proof.
  eexists. split; [reflexivity|]. split; [destruct toy_measure as (p & x & E & _); exists x; rewrite E; reflexivity|].
  intros L ref deg x. unfold measure. cbn [ap_sr].
  pose proof (rate_0_scores_nothing L run_world (ap_manager toy_api) (MkAudio ref 0) (MkAudio deg 0) x eq_refl) as R.
  change (Amatrix.size_of 0) with 0. cbn [ap_manager].
  destruct (run run_world (ap_manager toy_api) _ _) as [[m' d'] r]. exact R.
Qed.

(** *** a reference of one frame less than a speech patch needs *)
Lemma short_speech_case : exists m', init run_world manager_new run_args = (m', None) /\
  let ref := MkAudio (repeat 1%float 31) 50 in
  snd (run (L:=run_libm) run_world m' ref ref) = Throw.
Proof.
  eexists. split; [reflexivity|]. cbv zeta. destruct window_50 as [W H].
  eapply short_speech with (win := MkWin 4 kOverlap) (h := 1) (psl := 20); try reflexivity; try assumption; try lia.
  - apply (r_init (L:=run_libm) run_world manager_new run_args). constructor.
  - cbn. lia.
  - cbn. lia.
  - vm_compute. lia.
Qed.

(** *** four samples, with the second alignment switched on *)
Definition realign_args : init_args := MkInit EmptyString false false 60 false false false.
Definition realign_manager : manager PrimFloat.float := fst (init svr_world manager_new realign_args).
Lemma short_realigning : exists m, history (L:=run_libm) true m /\ st_no_realign (mg_settings m) = false /\
  keeps_length (w_fft svr_world) /\ snd (run (L:=run_libm) svr_world m (click 4 2) (click 4 2)) = Err InvalidArgument.
Proof.
  exists realign_manager. split; [exact (h_init_ok false svr_world manager_new realign_args realign_manager h_new eq_refl)|].
  split; [reflexivity|]. split; [|vm_compute; reflexivity].
  split; intros l; cbn; unfold fwd, bwd, zrange; now rewrite !map_length, seq_length.
Qed.
