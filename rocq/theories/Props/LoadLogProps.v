(** Property C113: incomplete input is announced. *)
From Coq Require Import ZArith List Bool Floats.
From Verif Require Import Base.Res Base.Num Base.NumF Base.Mat Model.Amatrix Model.Wav Model.Nsim Model.Selector Model.LoadLog Spec.WavSpec Spec.LoadLogSpec Proofs.LoadLogP.
Import ListNotations.
Open Scope Z_scope.

(** C113 is false: a file with two channels and a single sample is loaded as an empty recording and nothing is logged. *)
Theorem C113_empty_refuted : exists (all : bytes) (s : loaded PrimFloat.float), load_messages all = [] /\ load_as_mono all = Ret s /\ nrows (ld_data s) = 0%nat.
Proof. exact (ex_intro _ half_frame (ex_intro _ _ (conj (proj1 half_frame_silent) (conj (proj2 half_frame_silent) eq_refl)))). Qed.
Print Assumptions C113_empty_refuted.
Example C113_refuted_example : complete half_frame. Proof. apply quiet_complete. exact (proj1 half_frame_silent). Qed.

(** What holds: nothing is logged exactly if the header is accepted and all the samples it announces are there. *)
Theorem C113_quiet_partial (all : bytes) : load_messages all = [] <-> complete all.
Proof. exact (quiet_complete all). Qed.
Print Assumptions C113_quiet_partial.
Example C113_quiet_example : complete half_frame /\ ~ complete cut_file.
Proof. split; [apply quiet_complete; exact (proj1 half_frame_silent)|]. intros H. apply quiet_complete in H. rewrite cut_file_messages in H. discriminate H. Qed.

(** And for files: nothing is logged exactly if the file can be opened and is complete, and a file is said to be missing exactly if it is. *)
Theorem C113_files_partial (content : option bytes) : file_messages content = [] <-> exists all, content = Some all /\ complete all.
Proof. exact (files_quiet content). Qed.
Print Assumptions C113_files_partial.
Example C113_files_example : file_messages (Some half_frame) = [] /\ file_messages (Some cut_file) = [FewerSamples 1 3].
Proof. exact (conj (proj1 half_frame_silent) cut_file_messages). Qed.
Theorem C113_missing (content : option bytes) : In FileMissing (file_messages content) <-> content = None.
Proof. exact (missing_right content). Qed.
Print Assumptions C113_missing.
Example C113_missing_example : In FileMissing (file_messages None) /\ ~ In FileMissing (file_messages (Some [])).
Proof. split; [left; reflexivity|]. intros H. apply missing_right in H. discriminate H. Qed.

(** The warning about missing samples is given exactly if some are missing, and says how many whole samples there are. *)
Theorem C113_fewer (all : bytes) (r t : Z) : In (FewerSamples r t) (load_messages all) <->
  exists w, parse_header all = Some w /\ t = wv_total w /\ r = (Z.of_nat (length all) - Z.of_nat (wv_offset w)) / 2 /\ r < t.
Proof. exact (fewer_right all r t). Qed.
Print Assumptions C113_fewer.
(** a file of three samples cut after the first *)
Example C113_fewer_example : load_messages cut_file = [FewerSamples 1 3]. Proof. exact cut_file_messages. Qed.

(** Where an error is reported the recording is empty; where none is, it has all the announced whole frames, which is none only if there are
    fewer samples than channels. *)
Theorem C113_error {T : Type} {N : Num T} (content : option bytes) : reports_error (file_messages content) ->
  exists s, load_file (T:=T) content = Ret s /\ nrows (ld_data s) = 0%nat.
Proof. exact (error_empty content). Qed.
Print Assumptions C113_error.
Example C113_error_example : reports_error (file_messages None) /\ reports_error (file_messages (Some [])).
Proof. split; [left; left; reflexivity|right; right; left; reflexivity]. Qed.
Theorem C113_loaded {T : Type} {N : Num T} (all : bytes) : ~ reports_error (load_messages all) ->
  exists w M, parse_header all = Some w /\ load_as_mono (T:=T) all = Ret (MkLoaded M (Some (size_of (wv_rate w)))) /\
    nrows M = (Z.to_nat (wv_total w) / Z.to_nat (wv_channels w))%nat.
Proof. exact (no_error_loaded all). Qed.
Print Assumptions C113_loaded.
Example C113_loaded_example : ~ reports_error (load_messages cut_file).
Proof. rewrite cut_file_messages. intros [[H|[]]|[[H|[]]|[H|[]]]]; discriminate H. Qed.

(** The warning about dropped reference patches is given exactly if fewer results than reference patches are returned, with both numbers. *)
Theorem C113_dropped {T : Type} {N : Num T} (measure : mat T -> mat T -> res (psr T)) (refs : list (mat T)) (idx : list Z) (M : mat T) (fd : T) (radius : Z) (l : list (psr T)) :
  Z.of_nat (length idx) < two64 -> find_most_optimal_deg_patches measure refs idx M fd radius = Ret l ->
  (1 <= length l <= length idx)%nat /\
  dropped_message refs idx M = Ret (if Nat.ltb (length l) (length idx) then Some (Z.of_nat (length idx) - Z.of_nat (length l), Z.of_nat (length idx)) else None).
Proof. exact (dropped_count measure refs idx M fd radius l). Qed.
Print Assumptions C113_dropped.
(** the last of three patches is dropped *)
Example C113_dropped_example : (exists l, find_most_optimal_deg_patches measure_patch_similarity drop_refs [0; 2; 9] drop_deg 1%float 1 = Ret l /\ length l = 2%nat) /\
  dropped_message drop_refs [0; 2; 9] drop_deg = Ret (Some (1, 3)).
Proof. exact (conj drop_returns (proj2 drop_example)). Qed.
