(** Model of src/wav_reader.cc and of MiscAudio::LoadAsMono (src/misc_audio.cc:88-148).

    A stream is its bytes, the read position and the good() flag.  Multi-byte fields are read by
    copying bytes into structs, little-endian host.  Reading n bytes one by one (extension and fact
    data, wav_reader.cc:134-142, 161-169) is modelled as one read of n bytes: both fail exactly when
    fewer than n bytes are left. *)
From Coq Require Import ZArith List Bool Ascii String.
From Verif Require Import Base.Res Base.Num Base.Lists Base.Mat Model.Amatrix Model.MiscMath
  Model.FilterBank Model.MiscAudio.
Import ListNotations.
Open Scope Z_scope.

Definition bytes := list ascii.
Definition byte_val (a : ascii) : Z := Z.of_N (N_of_ascii a).

(** unsigned little-endian value *)
Fixpoint le_val (b : bytes) : Z :=
  match b with [] => 0 | x :: t => byte_val x + 256 * le_val t end.
(** int16_t *)
Definition int16_val (b : bytes) : Z := let v := le_val b in if v <? 2 ^ 15 then v else v - 2 ^ 16.

Definition field (h : bytes) (off len : nat) : bytes := firstn len (skipn off h).
Fixpoint bytes_eqb (a b : bytes) : bool :=
  match a, b with
  | [], [] => true
  | x :: a', y :: b' => Ascii.eqb x y && bytes_eqb a' b'
  | _, _ => false
  end.
Definition tag (s : string) : bytes := list_ascii_of_string s.

(** exact read of n bytes at a position: the bytes and the new position *)
Definition read_exact (all : bytes) (pos : nat) (n : Z) : option (bytes * nat) :=
  if n <=? Z.of_nat (List.length all) - Z.of_nat pos
  then Some (field all pos (Z.to_nat n), (pos + Z.to_nat n)%nat) else None.

(** what a successfully parsed header provides: wav_reader.h:88-124 *)
Record wav_info := MkWav {
  wv_channels : Z;       (* num_channels_ *)
  wv_rate : Z;           (* sample_rate_hz_, an int *)
  wv_total : Z;          (* num_total_samples_ *)
  wv_offset : nat }.     (* pcm_offset_bytes_ = stream position *)

(** wav_reader.cc:122-143 *)
Definition skip_extension (all : bytes) (pos : nat) (format_size : Z) : option nat :=
  if format_size =? 16 then Some pos
  else
    match read_exact all pos 2 with
    | None => None
    | Some (e, pos) =>
        match read_exact all pos (size_of (int16_val e)) with
        | None => None
        | Some (_, pos) => Some pos
        end
    end.

(** wav_reader.cc:144-170 *)
Definition skip_fact (all : bytes) (pos : nat) (format_tag : Z) : option nat :=
  if format_tag =? 65534 then
    match read_exact all pos 8 with
    | None => None
    | Some (h, pos) =>
        if bytes_eqb (field h 0 4) (tag "fact") then
          match read_exact all pos (le_val (field h 4 4)) with
          | None => None
          | Some (_, pos) => Some pos
          end
        else None
    end
  else Some pos.

(** wav_reader.cc:181-208: chunk headers until "data"; the chunk size and the position after its
    header.  The first component of the result is [false] when the fuel runs out. *)
Fixpoint find_data (fuel : nat) (all : bytes) (pos : nat) : bool * option (Z * nat) :=
  match fuel with
  | O => (false, None)
  | S f =>
      match read_exact all pos 8 with
      | None => (true, None)
      | Some (h, pos) =>
          let size := le_val (field h 4 4) in
          if bytes_eqb (field h 0 4) (tag "data") then (true, Some (size, pos))
          else if Z.of_nat (List.length all) <? Z.of_nat pos + size then (true, None)
          else find_data f all (pos + Z.to_nat size)
      end
  end.

(** wav_reader.cc:105-233 ParseHeader.  [None]: false is returned. *)
Definition parse_header (all : bytes) : option wav_info :=
  match read_exact all 0 36 with
  | None => None
  | Some (h, pos) =>
      let format_size := le_val (field h 16 4) in
      let format_tag := le_val (field h 20 2) in
      let channels := le_val (field h 22 2) in
      if format_size <? 16 then None
      else
        match skip_extension all pos format_size with
        | None => None
        | Some pos =>
            match skip_fact all pos format_tag with
            | None => None
            | Some pos =>
                if negb (le_val (field h 34 2) / 8 =? 2) then None
                else
                  match snd (find_data (S (List.length all)) all pos) with
                  | None => None
                  | Some (size, pos) =>
                      let total := size / 2 in
                      if (channels =? 0) || (total =? 0) || negb (size mod 2 =? 0)
                         || negb ((format_tag =? 1) || (format_tag =? 65534))
                         || negb (bytes_eqb (field h 0 4) (tag "RIFF"))
                         || negb (bytes_eqb (field h 8 4) (tag "WAVE"))
                         || negb (bytes_eqb (field h 12 4) (tag "fmt "))
                      then None
                      else Some (MkWav channels (int_of (le_val (field h 24 4))) total pos)
                  end
            end
        end
  end.

(** reader state after the header: position, good(), num_remaining_samples_ *)
Record reader := MkReader { rd_pos : nat; rd_good : bool; rd_remaining : Z }.
Definition reader_init (w : wav_info) : reader := MkReader (wv_offset w) true (wv_total w).

(** little-endian 16-bit samples *)
Fixpoint samples_of (n : nat) (b : bytes) : list Z :=
  match n with
  | O => []
  | S n' => int16_val (firstn 2 b) :: samples_of n' (skipn 2 b)
  end.

(** wav_reader.cc:87-93 ReadBinaryDataFromStream: what was copied; a short read clears good() *)
Definition read_binary (all : bytes) (r : reader) (n : Z) : bytes * reader :=
  if rd_good r then
    let left := Z.of_nat (List.length all) - Z.of_nat (rd_pos r) in
    let got := Z.to_nat (Z.min n left) in
    (field all (rd_pos r) got, MkReader (rd_pos r + got)%nat (n <=? left) (rd_remaining r))
  else ([], r).

(** wav_reader.cc:235-247 ReadSamples(num_samples, buffer): the bytes stored in the buffer, the returned
    number of samples, the new state.  The request is num_samples, not the minimum with the rest. *)
Definition read_samples (all : bytes) (r : reader) (num_samples : Z) : bytes * Z * reader :=
  if Z.min (rd_remaining r) num_samples =? 0 then ([], 0, r)
  else
    let '(b, r') := read_binary all r (num_samples * 2) in
    let got := Z.of_nat (List.length b) / 2 in
    (b, got, MkReader (rd_pos r') (rd_good r') (size_of (rd_remaining r - got))).

Section Load.
  Context {T : Type} {N : Num T}.

  (** an AudioSignal whose sample_rate may never have been set (misc_audio.cc:103) *)
  Record loaded := MkLoaded { ld_data : mat T; ld_sr : option Z }.
  Definition not_loaded : loaded := MkLoaded (MkMat 0 0 []) None.

  (** misc_audio.cc:101-148 LoadAsMono: the sample buffer starts as zeros and keeps them where nothing
      was read *)
  Definition load_as_mono (all : bytes) : res loaded :=
    match parse_header all with
    | None => Ret not_loaded
    | Some w =>
        let '(b, got, _) := read_samples all (reader_init w) (wv_total w) in
        if 0 <? got then
          let total := Z.to_nat (wv_total w) in
          let buffer := b ++ repeat zero (2 * total - List.length b) in
          let samples := normalize_int16 (samples_of total buffer) in
          do chans <- extract_multi_channel (Z.to_nat (wv_channels w)) samples;
          do M <- m_of_cols chans;
          Ret (MkLoaded (to_mono M) (Some (size_of (wv_rate w))))
        else Ret not_loaded
    end.

  (** misc_audio.cc:88-99 LoadAsMono(path): [None] if the file cannot be opened.  "AudioSignal()" there
      value-initialises, so the sample rate is 0; "AudioSignal sig;" above leaves it indeterminate. *)
  Definition load_file (content : option bytes) : res loaded :=
    match content with
    | Some b => load_as_mono b
    | None => Ret (MkLoaded (MkMat 0 0 []) (Some 0))
    end.
End Load.
Arguments loaded : clear implicits.
