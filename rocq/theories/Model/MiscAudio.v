(** Model of src/misc_audio.cc (PrepareSpectrogramsForComparison is in Model/Spectrogram.v). *)
From Coq Require Import ZArith List Bool.
From Verif Require Import Base.Res Base.Num Base.Lists Base.Mat Model.Amatrix Model.MiscMath
  Model.FilterBank.
Import ListNotations.
Open Scope Z_scope.

Section MiscAudio.
  Context {T : Type} {N : Num T} {L : Libm T}.

  (** misc_audio.cc:48-55 CalcSoundPressureLevel, 34 kSplReferencePoint; pow(datum, 2) is a product *)
  Definition kSplReferencePoint : T := ndec 2 5.
  Definition sound_pressure_level (s : audio T) : T :=
    let pressure := nsqrt (ndiv (nsum (map nsq (au_data s))) (nofnat (length (au_data s)))) in
    nmul (nofZ 20) (mlog10 (ndiv pressure kSplReferencePoint)).

  (** misc_audio.cc:38-46 ScaleToMatchSoundPressureLevel *)
  Definition spl_scale_factor (ref deg : audio T) : T :=
    mpow10 (ndiv (nsub (sound_pressure_level ref) (sound_pressure_level deg)) (nofZ 20)).
  Definition scale_to_match_spl (ref deg : audio T) : audio T :=
    let f := spl_scale_factor ref deg in
    MkAudio (map (fun x => nmul x f) (au_data deg)) (au_sr deg).

  (** misc_audio.cc:57-86 ToMono: per sample, the channels are added to 0.0 in order *)
  Definition to_mono (M : mat T) : mat T :=
    if Nat.ltb 1 (ncols M)
    then tab (nrows M) 1 (fun r _ => ndiv (nsum (row_list M r)) (nofnat (ncols M)))
    else M.

  (** misc_audio.cc:157-163: one iterator walks through the interleaved samples; [n] frames of [nch] *)
  Fixpoint frames (n nch : nat) (l : list T) : list (list T) :=
    match n with
    | O => []
    | S n' => firstn nch l :: frames n' nch (skipn nch l)
    end.

  (** misc_audio.cc:150-165 ExtractMultiChannel: one list per channel; no channels divides by zero *)
  Definition extract_multi_channel (nch : nat) (l : list T) : res (list (list T)) :=
    if Nat.eqb nch 0 then Ub
    else
      let fs := frames (length l / nch) nch l in
      Ret (map (fun c => map (fun f => nth c f n0) fs) (seq 0 nch)).
End MiscAudio.
