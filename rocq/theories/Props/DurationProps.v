(** Property C80: the two durations of a recording. *)
From Coq Require Import ZArith List Bool Ascii Floats.
From Verif Require Import Base.Res Base.Num Base.NumF Model.Amatrix Model.Wav Model.Duration Spec.WavSpec Proofs.DurationP.
Import ListNotations.
Open Scope Z_scope.

(** C80 for rates below 2^31 (those the reader does not turn negative): the duration computed from the header is that of
    the loaded signal, also for a recording that ends early (full claim: for every accepted file with a sample). *)
Theorem C80_same_duration_partial {T} {N : Num T} (all : bytes) w : parse_header all = Some w ->
  (wv_offset w + 2 <= List.length all)%nat -> 0 <= wv_rate w ->
  exists s, load_as_mono (T:=T) all = Ret s /\ signal_duration s = Ret (wav_duration w).
Proof. exact (same_duration all w). Qed.
Print Assumptions C80_same_duration_partial.
(** five samples on two channels at 8 Hz: the odd sample is dropped by both *)
Example C80_example : exists w s, parse_header (wav_file 2 8 [] [1; 2; 3; 4; 5] []) = Some w /\ wv_rate w = 8 /\ wv_offset w = 44%nat /\
  load_as_mono (wav_file 2 8 [] [1; 2; 3; 4; 5] []) = Ret s /\ signal_duration s = Ret 0.25%float /\ wav_duration w = 0.25%float.
Proof. eexists. eexists. repeat split; vm_compute; reflexivity. Qed.

(** C80 fails for the others: the reader's rate is negative, the signal's is that plus 2^64. *)
Theorem C80_huge_rate_refuted {T} {N : Num T} (all : bytes) w : parse_header all = Some w ->
  (wv_offset w + 2 <= List.length all)%nat -> - 2 ^ 31 <= wv_rate w < 0 ->
  exists s r, load_as_mono (T:=T) all = Ret s /\ ld_sr s = Some r /\ r = wv_rate w + 2 ^ 64.
Proof. exact (huge_rate all w). Qed.
Print Assumptions C80_huge_rate_refuted.
(** one sample at 2^31 Hz in binary64: -2^-31 seconds by the header, about 2^-64 by the signal *)
Example C80_witness : exists w s d, parse_header (wav_file 1 (2 ^ 31) [] [7] []) = Some w /\ wv_rate w = - 2 ^ 31 /\ wv_offset w = 44%nat /\
  load_as_mono (wav_file 1 (2 ^ 31) [] [7] []) = Ret s /\ signal_duration (N:=NumF) s = Ret d /\ PrimFloat.ltb zero d = true /\ PrimFloat.ltb (wav_duration w) zero = true.
Proof. eexists. eexists. eexists. repeat split; vm_compute; reflexivity. Qed.
