(** What is logged about incomplete input (C113). *)
From Coq Require Import ZArith List Bool Ascii Lia Arith Floats.
From Coq Require Import ZifyBool ZifyNat.
From Verif Require Import Base.Res Base.Num Base.NumF Base.Lists Base.Mat Model.Amatrix Model.MiscMath Model.FilterBank Model.MiscAudio Model.Wav Model.Nsim Model.Selector Model.LoadLog
  Spec.WavSpec Spec.LoadLogSpec Proofs.ShapeP Proofs.MiscAudioP Proofs.WavP Proofs.WavLoadP Proofs.WavCutP.
Import ListNotations.
Open Scope Z_scope.
Ltac Zify.zify_post_hook ::= Z.div_mod_to_equations.

(** the number of whole samples after the header *)
Lemma messages_of all w : parse_header all = Some w -> let got := Z.min (wv_total w) ((Z.of_nat (length all) - Z.of_nat (wv_offset w)) / 2) in
  load_messages all = (if got =? wv_total w then [] else [FewerSamples got (wv_total w)]) ++ (if 0 <? got then [] else [NoData]).
Proof.
  intros E got. unfold load_messages. rewrite E. destruct (read_at_start all w E) as [r ->]. destruct (parse_header_ok all w E) as (_ & _ & _ & _ & _ & _ & _ & _ & HT & HO & _).
  replace (Z.of_nat (length (firstn (2 * Z.to_nat (wv_total w)) (skipn (wv_offset w) all))) / 2) with got; [reflexivity|].
  rewrite firstn_length, skipn_length. unfold got. lia.
Qed.
Lemma quiet_complete all : load_messages all = [] <-> complete all.
Proof.
  unfold complete. destruct (parse_header all) as [w|] eqn:E.
  - rewrite (messages_of all w E). destruct (parse_header_ok all w E) as (_ & _ & _ & _ & _ & _ & _ & _ & HT & HO & _).
    set (got := Z.min _ _). destruct (Z.eqb_spec got (wv_total w)) as [C|C]; cbn [app].
    + replace (0 <? got) with true by lia. split; [intros _|reflexivity]. exists w. split; [reflexivity|]. unfold got in C. lia.
    + split; [discriminate|]. intros (w' & E' & H). exfalso. assert (w' = w) by congruence. subst w'. unfold got in C. lia.
  - unfold load_messages. rewrite E. split; [discriminate|]. intros (w & C & _). discriminate C.
Qed.
Lemma fewer_right all r t : In (FewerSamples r t) (load_messages all) <->
  exists w, parse_header all = Some w /\ t = wv_total w /\ r = (Z.of_nat (length all) - Z.of_nat (wv_offset w)) / 2 /\ r < t.
Proof.
  destruct (parse_header all) as [w|] eqn:E.
  - rewrite (messages_of all w E). destruct (parse_header_ok all w E) as (_ & _ & _ & _ & _ & _ & _ & _ & HT & HO & _).
    set (got := Z.min _ _). rewrite in_app_iff. split.
    + intros [H|H]; [|destruct (0 <? got); [destruct H|destruct H as [H|[]]; discriminate H]]. destruct (Z.eqb_spec got (wv_total w)) as [C|C]; [destruct H|]. destruct H as [H|[]].
      assert (E1 : got = r) by congruence. assert (E2 : wv_total w = t) by congruence. exists w. split; [reflexivity|]. unfold got in *. lia.
    + intros (w' & E' & -> & -> & HL). assert (w' = w) by congruence. subst w'. left. replace (got =? wv_total w) with false by (unfold got; lia). left. f_equal. unfold got. lia.
  - unfold load_messages. rewrite E. split; [intros [H|[]]; discriminate H|]. intros (w & C & _). discriminate C.
Qed.

Section Load.
  Context {T : Type} {N : Num T}.
  Lemma loaded_rows all w : parse_header all = Some w -> (wv_offset w + 2 <= length all)%nat ->
    exists M, load_as_mono (T:=T) all = Ret (MkLoaded M (Some (size_of (wv_rate w)))) /\ nrows M = (Z.to_nat (wv_total w) / Z.to_nat (wv_channels w))%nat.
  Proof.
    intros E HL. destruct (parse_header_ok all w E) as (_ & _ & _ & _ & _ & _ & HC & _ & HT & HO & _). unfold load_as_mono. rewrite E. destruct (read_at_start all w E) as [r ->].
    replace (0 <? _) with true by (rewrite firstn_length, skipn_length; lia).
    set (l := normalize_int16 _). assert (LL : length l = Z.to_nat (wv_total w)) by (unfold l, normalize_int16; rewrite map_length; apply samples_of_length).
    destruct (extract_spec (Z.to_nat (wv_channels w)) l ltac:(lia)) as (chans & EX & LC & LE & _). rewrite EX. cbn [bind].
    destruct (of_cols_ret chans (length l / Z.to_nat (wv_channels w))%nat) as (EO & _); [destruct chans; [cbn in LC; lia|discriminate]|intros k Hk; apply LE; lia|].
    rewrite EO. cbn [bind]. eexists. split; [reflexivity|]. unfold to_mono. destruct (Nat.ltb _ _); cbn [nrows tab]; rewrite LL; reflexivity.
  Qed.
  (** an error is reported exactly if nothing is loaded; otherwise the samples of every frame are there *)
  Lemma error_empty content : reports_error (file_messages content) ->
    exists s, load_file (T:=T) content = Ret s /\ nrows (ld_data s) = 0%nat.
  Proof.
    intros H. destruct content as [all|]; [|eexists; split; reflexivity]. cbn [file_messages load_file] in *.
    destruct (parse_header all) as [w|] eqn:E; [|unfold load_as_mono; rewrite E; eexists; split; reflexivity].
    destruct (parse_header_ok all w E) as (_ & _ & _ & _ & _ & _ & _ & _ & HT & HO & _).
    rewrite (messages_of all w E) in H. set (got := Z.min _ _) in H.
    assert (Z0 : got <= 0). { destruct (Z.lt_ge_cases 0 got) as [C|C]; [|exact C]. exfalso. replace (0 <? got) with true in H by lia. rewrite app_nil_r in H. destruct (got =? wv_total w); unfold reports_error in H; cbn [In] in H; intuition discriminate. }
    rewrite (load_no_sample all w E) by (unfold got in Z0; lia). eexists. split; reflexivity.
  Qed.
  Lemma no_error_loaded all : ~ reports_error (load_messages all) ->
    exists w M, parse_header all = Some w /\ load_as_mono (T:=T) all = Ret (MkLoaded M (Some (size_of (wv_rate w)))) /\ nrows M = (Z.to_nat (wv_total w) / Z.to_nat (wv_channels w))%nat.
  Proof.
    intros H. destruct (parse_header all) as [w|] eqn:E.
    - destruct (parse_header_ok all w E) as (_ & _ & _ & _ & _ & _ & _ & _ & HT & HO & _). destruct (le_lt_dec (wv_offset w + 2) (length all)) as [C|C].
      + destruct (loaded_rows all w E C) as (M & EM & RM). exists w, M. split; [reflexivity|]. split; assumption.
      + exfalso. apply H. right; left. rewrite (messages_of all w E). apply in_or_app. right. replace (0 <? _) with false by lia. left. reflexivity.
    - exfalso. apply H. right; right. unfold load_messages. rewrite E. left. reflexivity.
  Qed.
End Load.

(** *** dropped patches *)
Section Dropped.
  Context {T : Type} {N : Num T}.
  Variable measure : mat T -> mat T -> res (psr T).
  Lemma backtrack_count (M : mat T) fd pd items : forall last acc l, backtrack measure M fd pd items last acc = Ret l -> length l = (length items + length acc)%nat.
  Proof.
    induction items as [|[[ref i] bt] t IH]; intros last acc l H; cbn [backtrack] in H.
    - injection H as <-. reflexivity.
    - apply bind_ret in H. destruct H as (deg & _ & H). apply bind_ret in H. destruct H as (r & _ & H). destruct (_ && _); [|discriminate H]. apply IH in H. cbn [length] in *. lia.
  Qed.
  Lemma dp_rows_count degs nc sw items : forall prev rows, dp_rows measure degs nc sw prev items = Ret rows -> length rows = length items.
  Proof.
    induction items as [|[ref i] t IH]; intros prev rows H; cbn [dp_rows] in H.
    - injection H as <-. reflexivity.
    - apply bind_ret in H. destruct H as (sl & _ & H). apply bind_ret in H. destruct H as ([row bt] & _ & H). apply bind_ret in H. destruct H as (rest & ER & H). injection H as <-. cbn [length]. rewrite (IH _ _ ER). reflexivity.
  Qed.
  Lemma max_loop_le l nf p n : max_num_patches_loop (T:=T) l nf p = Ret n -> (n <= length l)%nat.
  Proof.
    induction l as [|i t IH]; [discriminate|]. cbn [max_num_patches_loop]. destruct (ngtb _ _); intros H; [apply IH in H; cbn [length]; lia|]. assert (E : n = length (i :: t)) by congruence. rewrite E. apply Nat.le_refl.
  Qed.
  Lemma max_le idx nf p n : calc_max_num_patches (T:=T) idx nf p = Ret n -> (n <= length idx)%nat.
  Proof. unfold calc_max_num_patches. destruct idx as [|i t]; [intros H; injection H as <-; lia|]. intros H. apply max_loop_le in H. rewrite rev_length in H. exact H. Qed.
  Lemma dropped_count refs idx M fd radius l : Z.of_nat (length idx) < two64 -> find_most_optimal_deg_patches measure refs idx M fd radius = Ret l ->
    (1 <= length l <= length idx)%nat /\ dropped_message refs idx M = Ret (if Nat.ltb (length l) (length idx) then Some (Z.of_nat (length idx) - Z.of_nat (length l), Z.of_nat (length idx)) else None).
  Proof.
    intros HI H. unfold find_most_optimal_deg_patches in H. unfold dropped_message. destruct refs as [|ref0 refs']; [discriminate H|]. set (refs := ref0 :: refs') in *.
    cbv zeta in H. apply bind_ret in H. destruct H as (n & EN & H). rewrite EN. cbn [bind]. pose proof (max_le _ _ _ _ EN) as Hn.
    destruct (Nat.eqb_spec n 0) as [C|C]; [discriminate H|]. apply bind_ret in H. destruct H as (degs & _ & H). destruct (Nat.ltb_spec (length refs) n) as [C2|C2]; [discriminate H|].
    apply bind_ret in H. destruct H as (rows & ER & H). apply bind_ret in H. destruct H as (last & _ & H). apply backtrack_count in H. apply dp_rows_count in ER.
    rewrite rev_length, combine_length, map_length, ER, combine_length, !firstn_length in H. cbn [length] in H. assert (EL : length l = n) by lia. rewrite EL. split; [lia|].
    unfold size_of. rewrite Z.mod_small by (unfold two64 in *; lia). reflexivity.
  Qed.
End Dropped.

(** *** two channels and one sample *)
Definition half_frame : bytes := wav_file 2 48000 [] [7] [].
Lemma half_frame_silent : load_messages half_frame = [] /\ load_as_mono (T:=PrimFloat.float) half_frame = Ret (MkLoaded (MkMat 0 1 []) (Some 48000)).
Proof. split; vm_compute; reflexivity. Qed.
Definition cut_file : bytes := firstn 46 (wav_file 1 8000 [] [5; 600; 7] []).
Lemma cut_file_messages : load_messages cut_file = [FewerSamples 1 3]. Proof. vm_compute. reflexivity. Qed.
(** three reference patches of two frames, the last one starting at frame 9, and four degraded frames *)
Definition drop_measure (a b : mat PrimFloat.float) : res (psr PrimFloat.float) := measure_patch_similarity a b.
Definition drop_refs : list (mat PrimFloat.float) := [MkMat 1 2 [1; 2]; MkMat 1 2 [3; 4]; MkMat 1 2 [5; 6]]%float.
Definition drop_deg : mat PrimFloat.float := MkMat 1 4 [1; 2; 3; 4]%float.
Definition drop_length : option nat := match find_most_optimal_deg_patches drop_measure drop_refs [0; 2; 9] drop_deg 1%float 1 with Ret l => Some (length l) | _ => None end.
Lemma drop_example : drop_length = Some 2%nat /\ dropped_message drop_refs [0; 2; 9] drop_deg = Ret (Some (1, 3)).
Proof. split; vm_compute; reflexivity. Qed.
Lemma drop_returns : exists l, find_most_optimal_deg_patches measure_patch_similarity drop_refs [0; 2; 9] drop_deg 1%float 1 = Ret l /\ length l = 2%nat.
Proof.
  pose proof (proj1 drop_example) as H. unfold drop_length, drop_measure in H. destruct (find_most_optimal_deg_patches _ _ _ _ _ _) as [l| | |]; try discriminate H. exists l. split; [reflexivity|]. congruence.
Qed.

(** *** files *)
Lemma files_quiet content : file_messages content = [] <-> exists all, content = Some all /\ complete all.
Proof.
  destruct content as [b|]; cbn [file_messages].
  - rewrite quiet_complete. split; [intros H; exists b; split; [reflexivity|exact H]|]. intros (a & E & H). injection E as ->. exact H.
  - split; [discriminate|]. intros (a & E & _). discriminate E.
Qed.
Lemma missing_right content : In FileMissing (file_messages content) <-> content = None.
Proof.
  destruct content as [b|]; cbn [file_messages]; [|split; [reflexivity|intros _; left; reflexivity]].
  split; [|discriminate]. intros H. exfalso. destruct (parse_header b) as [w|] eqn:E.
  - rewrite (messages_of b w E) in H. apply in_app_iff in H. destruct H as [H|H]; revert H; [destruct (_ =? _)|destruct (_ <? _)]; intros H; try destruct H as [H|H]; (discriminate H || destruct H).
  - unfold load_messages in H. rewrite E in H. destruct H as [H|H]; [discriminate H|destruct H].
Qed.
