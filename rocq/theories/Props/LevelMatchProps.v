(** Property C107: in binary64 the degraded recording is brought to the level of the reference. *)
From Coq Require Import ZArith List Bool Reals Floats.
From Verif Require Import Base.Res Base.Num Base.NumF Model.Window Model.FilterBank Model.MiscAudio Spec.AudioSpec Spec.StableSpec Spec.LibmSpec Spec.PcmSpec Proofs.B64P Proofs.RoundedLibmP Proofs.AccurateCasesP Proofs.AccurateRunP Proofs.LevelEqualP.
Import ListNotations.
Open Scope Z_scope.

(** C107 for the level: the computed level of a recording that is not silent is within 1/100000 dB of the exact level of its samples. *)
Theorem C107_level {L : Libm float} (s : audio float) : accurate L -> Forall pcm (au_data s) -> 1 <= Z.of_nat (length (au_data s)) < 2 ^ 30 ->
  Exists (fun x => PrimFloat.eqb x 0 = false) (au_data s) ->
  fin (sound_pressure_level s) /\ (Rabs (FR (sound_pressure_level s) - spl (map FR (au_data s))) <= 1 / 100000)%R.
Proof. exact (fun A => level_close A s). Qed.
Print Assumptions C107_level.
(** C107 for the scaled recording: every sample is finite, the mean power is that of the reference to one part in 100000,
    and the exact levels differ by at most 1/10000 dB. *)
Theorem C107_matched {L : Libm float} (ref d : audio float) : accurate L -> Forall pcm (au_data ref) -> Forall pcm (au_data d) ->
  1 <= Z.of_nat (length (au_data ref)) < 2 ^ 30 -> 1 <= Z.of_nat (length (au_data d)) < 2 ^ 30 ->
  Exists (fun x => PrimFloat.eqb x 0 = false) (au_data ref) -> Exists (fun x => PrimFloat.eqb x 0 = false) (au_data d) ->
  let s := scale_to_match_spl ref d in
  Forall fin (au_data s) /\ length (au_data s) = length (au_data d) /\ au_sr s = au_sr d /\
  (Rabs (energy (map FR (au_data s)) / INR (length (au_data s)) - energy (map FR (au_data ref)) / INR (length (au_data ref))) <=
     1 / 100000 * (energy (map FR (au_data ref)) / INR (length (au_data ref))))%R /\
  (Rabs (spl (map FR (au_data s)) - spl (map FR (au_data ref))) <= 1 / 10000)%R.
Proof. exact (fun A => matched A ref d). Qed.
Print Assumptions C107_matched.
(** a loud and a very quiet recording *)
Example C107_example : accurate rounded_libm /\ Forall pcm [0.5; -1; 0.25]%float /\ Forall pcm [0; 0x1p-31]%float /\
  Exists (fun x => PrimFloat.eqb x 0 = false) [0.5; -1; 0.25]%float /\ Exists (fun x => PrimFloat.eqb x 0 = false) [0; 0x1p-31]%float.
Proof.
  refine (conj rounded_accurate (conj _ (conj _ (conj _ _)))); [| |apply Exists_cons_hd; reflexivity|apply Exists_cons_tl, Exists_cons_hd; reflexivity];
    repeat constructor; first [left; reflexivity|right; reflexivity].
Qed.
