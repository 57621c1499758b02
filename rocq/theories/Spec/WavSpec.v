(** Spec: canonical RIFF/WAVE encoding of 16-bit PCM. *)
From Coq Require Import ZArith List Ascii String.
Import ListNotations.
Open Scope Z_scope.

Definition byte_of (v : Z) : ascii := ascii_of_N (Z.to_N (v mod 256)).
(** little-endian, n bytes *)
Fixpoint le (n : nat) (v : Z) : list ascii :=
  match n with O => [] | S m => byte_of v :: le m (v / 256) end.
Definition str (s : string) : list ascii := list_ascii_of_string s.

(** a chunk: tag, size, payload *)
Definition chunk (tag : string) (payload : list ascii) : list ascii :=
  str tag ++ le 4 (Z.of_nat (List.length payload)) ++ payload.

(** a file with the given channel count, rate, bytes between the format and the data, samples
    (interleaved), and whatever follows the data *)
Definition wav_bytes (channels rate : Z) (between : list ascii) (samples : list Z)
    (rest : list ascii) : list ascii :=
  let body :=
    str "WAVE" ++
    str "fmt " ++ le 4 16 ++ le 2 1 ++ le 2 channels ++ le 4 rate ++ le 4 (rate * channels * 2) ++
                  le 2 (channels * 2) ++ le 2 16 ++
    between ++
    chunk "data" (flat_map (le 2) samples) ++
    rest in
  str "RIFF" ++ le 4 (Z.of_nat (List.length body)) ++ body.
(** the bytes between are chunks *)
Definition wav_file (channels rate : Z) (extra : list (string * list ascii)) (samples : list Z)
    (rest : list ascii) : list ascii :=
  wav_bytes channels rate (flat_map (fun c => chunk (fst c) (snd c)) extra) samples rest.

(** chunk that a reader has to skip: a four-character tag that is not "data" and a payload of even length *)
Definition other_chunk (c : string * list ascii) : Prop :=
  String.length (fst c) = 4%nat /\ fst c <> "data"%string /\
  Nat.Even (List.length (snd c)) /\ Z.of_nat (List.length (snd c)) < 2 ^ 32.
