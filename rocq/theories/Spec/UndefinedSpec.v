(** What C98 says about undefined numbers in a spectrogram. *)
From Coq Require Import ZArith List Bool Floats.
From Verif Require Import Base.Res Base.Num Base.NumF Base.Mat Model.MiscAudio Model.Window Model.FilterBank Model.Spectrogram Model.Alignment Model.Visqol Model.Manager.
Import ListNotations.

(** not a number; one of the two infinities; a finite number between two integers *)
Definition undefined (x : float) : Prop := PrimFloat.eqb x x = false.
Definition infinite (x : float) : Prop := PrimFloat.eqb (PrimFloat.abs x) infinity = true.
Definition from_to (a b : float) (x : float) : Prop := PrimFloat.leb a x = true /\ PrimFloat.leb x b = true.

(** the same spectrogram with silence in place of everything undefined *)
Definition silenced (M : mat float) : mat float := mmap (fun x => if PrimFloat.eqb x x then x else 0%float) M.

(** what is asked of log10: a positive finite number has a logarithm between -400 and 400, that of 2^-52 is at
    most -5, and that of an undefined number is undefined *)
Definition sane_log (lg : float -> float) : Prop :=
  (forall x, PrimFloat.ltb 0 x = true -> PrimFloat.ltb x infinity = true -> from_to (-400) 400 (lg x)) /\
  PrimFloat.leb (lg 0x1p-52%float) (-5) = true /\
  (forall x, undefined x -> undefined (lg x)).

(** the spectrogram of a signal, if there is one, has no infinite entry; a signal none of whose samples is larger than b *)
Definition no_overflow {L : Libm float} (speech : bool) (k : bank float) (w : window float) (x : audio float) : Prop :=
  forall s, snd (build speech k x w) = Ret s -> Forall (fun e => ~ infinite e) (elems (sp_data s)).
Definition at_most (b : float) (x : audio float) : Prop := Forall (fun s => PrimFloat.ltb b (PrimFloat.abs s) = false) (au_data x).
(** the degraded signal that is compared: shifted by the global alignment unless it is switched off, and scaled to the level of the reference *)
Definition compared {L : Libm float} (w : world float) (m : manager float) (ref deg x : audio float) : Prop :=
  exists d lag, (if mg_no_global m then Ret (deg, n0) else globally_align (w_fft w) ref deg) = Ret (d, lag) /\ x = scale_to_match_spl ref d.
