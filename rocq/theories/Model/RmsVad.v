(** Model of src/rms_vad.cc. *)
From Coq Require Import ZArith List Bool.
From Verif Require Import Base.Res Base.Num Base.Lists.
Import ListNotations.
Open Scope Z_scope.

Section RmsVad.
  Context {T : Type} {N : Num T}.

  (** rms_vad.cc:23 kSilentChunkCount, 24 kRmsThreshold *)
  Definition kSilentChunkCount : nat := 3.
  Definition kRmsThreshold : T := nofZ 5000.

  (** include/rms_vad.h: the two result vectors; activity is stored as 1.0 / 0.0, here as a boolean *)
  Record vad_state := MkVad { each_chunk_result : list bool; vad_results : list bool }.

  (** rms_vad.cc:28-34 constructor: the first kSilentChunkCount - 1 results are "present" *)
  Definition vad_init : vad_state :=
    MkVad [] (repeat true (kSilentChunkCount - 1)).

  (** rms_vad.cc:61-69 CalcRootMeanSquare; chunk of int16_t *)
  Definition calc_rms (chunk : list Z) : T :=
    nsqrt (ndiv (fold_left (fun s x => nadd s (nmul (nofZ x) (nofZ x))) chunk n0)
                (nofnat (length chunk))).

  (** rms_vad.cc:36-44 ProcessChunk *)
  Definition process_chunk (s : vad_state) (chunk : list Z) : vad_state :=
    MkVad (each_chunk_result s ++ [negb (nltb (calc_rms chunk) kRmsThreshold)]) (vad_results s).

  (** rms_vad.cc:71-80 CheckPreviousChunksForSilence(idx): each_chunk_result_[idx-1], [idx-2] *)
  Definition prev_silent (l : list bool) (idx : nat) : bool :=
    forallb (fun j => negb (nth (idx - j) l true)) (seq 1 (kSilentChunkCount - 1)).

  (** rms_vad.cc:46-59 GetVadResults: appends one result for every chunk from index 2 on *)
  Definition get_vad_results (s : vad_state) : vad_state * list bool :=
    let l := each_chunk_result s in
    let out := vad_results s ++
      map (fun i => negb (negb (nth i l true) && prev_silent l i))
          (seq (kSilentChunkCount - 1) (length l - (kSilentChunkCount - 1))) in
    (MkVad l out, out).
End RmsVad.
