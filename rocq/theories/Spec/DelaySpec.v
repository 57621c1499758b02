(** Spec: recordings that start late, and the message of a comparison without its lag (C111). *)
From Coq Require Import ZArith List.
From Verif Require Import Base.Num Model.Window Model.FilterBank Model.MiscAudio Model.Alignment Model.Visqol Model.Manager.
Import ListNotations.

(** the recording [s] with something else in front *)
Definition late {T} (front : list T) (s : audio T) : audio T := MkAudio (front ++ au_data s) (au_sr s).
(** the same instance with the first alignment switched off *)
Definition unaligned {T} (m : manager T) : manager T := MkManager (mg_init m) (mg_settings m) true (mg_bank m).
(** the message with another lag *)
Definition with_lag {T} (x : sim_msg T) (lag : T) : sim_msg T :=
  MkMsg (ms_moslqo x) (ms_vnsim x) (ms_fvnsim x) (ms_fvnsim10 x) (ms_fstdnsim x) (ms_cfb x) (ms_fvdegenergy x) (ms_patches x)
        (ms_ref_path x) (ms_deg_path x) lag.
