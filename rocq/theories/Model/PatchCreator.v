(** Model of src/image_patch_creator.cc and src/vad_patch_creator.cc. *)
From Coq Require Import ZArith List Bool.
From Verif Require Import Base.Res Base.Num Base.Lists Base.Mat Model.Amatrix Model.MiscMath Model.RmsVad.
Import ListNotations.
Open Scope Z_scope.

(** image_patch_creator.cc:68-70: for (i = i0; i < max_index; i += p) push_back(i - 1).
    [fuel] bounds the number of iterations; [None] means it was not enough. *)
Fixpoint index_loop (fuel : nat) (i max_index p : Z) : option (list Z) :=
  match fuel with
  | O => None
  | S f =>
      if i <? max_index then
        match index_loop f (i + p) max_index p with
        | Some l => Some (size_of (i - 1) :: l)
        | None => None
        end
      else Some []
  end.

(** image_patch_creator.cc:50-72 CreateRefPatchIndices(spectrogram), as a function of the number L of
    spectrogram columns and of patch_size_; a loop that does not end (p = 0) is [Ub] *)
Definition create_ref_patch_indices (p L : Z) : res (list Z) :=
  let init := p / 2 in
  if L <? p + init then Err InvalidArgument
  else
    let max_index := if init <? L - p then L - p else init + 1 in
    match index_loop (S (Z.to_nat max_index)) init max_index p with
    | Some l => Ret l
    | None => Ub
    end.

Section Patches.
  Context {T : Type} {N : Num T}.

  (** image_patch_creator.cc:34-48 CreatePatchesFromIndices *)
  Fixpoint create_patches (p : Z) (S : mat T) (idx : list Z) : res (list (mat T)) :=
    match idx with
    | [] => Ret []
    | i :: t =>
        do patch <- m_cols S i (size_of (i + p - 1));
        do rest <- create_patches p S t;
        Ret (patch :: rest)
    end.

  (** vad_patch_creator.cc:42-47: scale to 16 bit, clamp, convert *)
  Definition to_int16 (x : T) : res Z :=
    let v := nmul x (nofZ 32768) in
    let v := nmax (nofZ (-32768)) (nmin (nofZ 32767) v) in
    match ntrunc v with Some z => Ret z | None => Ub end.

  (** vad_patch_creator.cc:39-52: collect frames of frame_len samples, process each full one *)
  Fixpoint vad_feed (frame_len : nat) (l : list T) (frame : list Z) (s : vad_state) : res vad_state :=
    match l with
    | [] => Ret s
    | x :: t =>
        do z <- to_int16 x;
        let frame' := frame ++ [z] in
        if Nat.eqb (length frame') frame_len
        then vad_feed frame_len t [] (process_chunk s frame')
        else vad_feed frame_len t frame' s
    end.

  (** vad_patch_creator.cc:32-55 GetVoiceActivity *)
  Definition get_voice_activity (sig : list T) (start_sample total_samples : Z) (frame_len : nat)
    : res (list bool) :=
    do patch <- v_rows sig start_sample (size_of (start_sample + total_samples - 1));
    do s <- vad_feed frame_len patch [] vad_init;
    Ret (snd (get_vad_results s)).

  (** vad_patch_creator.cc:82-92: sum the activity of one block of p frames and compare with 1.0;
      reading past the end of vad_res is undefined *)
  Definition block_active (p : nat) (vad : list bool) (i : nat) : res bool :=
    if Nat.leb (i * p + p) (length vad)
    then Ret (Nat.leb 1 (count_occ bool_dec (firstn p (skipn (i * p) vad)) true))
    else Ub.

  (** vad_patch_creator.cc:78-94 *)
  Fixpoint select_blocks (p : nat) (vad : list bool) (patch_idx : Z) (is : list nat) : res (list Z) :=
    match is with
    | [] => Ret []
    | i :: t =>
        do b <- block_active p vad i;
        do rest <- select_blocks p vad (patch_idx + Z.of_nat p) t;
        Ret (if b then patch_idx :: rest else rest)
    end.

  (** vad_patch_creator.cc:68-69 refPatchIndices.reserve(patch_count): a request of 2^60 bytes or more is
      refused with an exception; smaller ones are taken to succeed *)
  Definition reserve (n : Z) : res unit := if n <? 2 ^ 57 then Ret tt else Throw.

  (** vad_patch_creator.cc:57-97 CreateRefPatchIndices.  [w] is window.size, [L] the number of
      spectrogram columns; frame_size = window.size * 0.25 is a double (visqol_manager.cc:49);
      size_t subtraction and multiplication wrap. *)
  Definition vad_create_ref_patch_indices (p : nat) (L : Z) (sig : list T) (w : Z) : res (list Z) :=
    do norm <- normalize sig;
    let frame_size := nmul (nofZ w) (ndec 25 2) in
    match ntrunc (nmul (nofnat p) frame_size), ntrunc frame_size with
    | Some patch_sample_len, Some frame_len =>
        let first_patch_idx := size_of (Z.of_nat p / 2 - 1) in
        let patch_count := size_of (L - first_patch_idx) / Z.of_nat p in
        let total := size_of (patch_count * patch_sample_len) in
        do _ <- reserve patch_count;
        do vad <- get_voice_activity norm first_patch_idx total (Z.to_nat frame_len);
        select_blocks p vad first_patch_idx (seq 0 (Z.to_nat patch_count))
    | _, _ => Ub
    end.
End Patches.
