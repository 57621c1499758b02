(** The second alignment failing: a matched patch whose content is the same, one sample late because of rounding. *)
From Coq Require Import ZArith List Bool Floats.
From Verif Require Import Base.Res Base.Num Base.NumF Base.Mat Model.Amatrix Model.Window Model.FilterBank Model.Fft Model.Nsim Model.Alignment Model.Selector
  Spec.FineSpec Proofs.ApiCasesP.
Import ListNotations.
Open Scope Z_scope.

Definition patch_content : list PrimFloat.float := map (fun i => nofZ (Z.of_nat i * Z.of_nat i * 5 mod 23 - 11)) (seq 0 40).
Definition early_ref : audio PrimFloat.float := MkAudio (repeat 0%float 190 ++ patch_content ++ repeat 0%float 10) 50.
Definition early_deg : audio PrimFloat.float := MkAudio (repeat 0%float 112 ++ patch_content ++ repeat 0%float 10) 50.
Definition early_patch : psr PrimFloat.float :=
  MkPsr (MkMat 0 0 []) (MkMat 0 0 []) (MkMat 0 0 []) 0.5%float (frame_time 1 50 194) (frame_end 1 50 30 194)
    (frame_time 1 50 116) (frame_end 1 50 30 116).
Definition sliced (r : res (audio PrimFloat.float)) : res nat := do a <- r; Ret (length (au_data a)).
Lemma early_slices : sliced (slice early_ref (frame_time 1 50 194) (frame_end 1 50 30 194)) = Ret 29%nat /\
  sliced (slice early_deg (frame_time 1 50 116) (frame_end 1 50 30 116)) = Ret 31%nat.
Proof. split; vm_compute; reflexivity. Qed.
Lemma early_throw : (do ra <- slice early_ref (frame_time 1 50 194) (frame_end 1 50 30 194);
  do da <- slice early_deg (frame_time 1 50 116) (frame_end 1 50 30 116); align_and_truncate small_fft ra da) = Throw.
Proof. vm_compute. reflexivity. Qed.
Lemma early_fails {L : Libm PrimFloat.float} measure speech w k : snd (finely_align measure small_fft speech w early_ref early_deg k [early_patch]) = Throw.
Proof.
  cbn [finely_align]. unfold finely_align_one. replace (is_lost early_patch) with false by (vm_compute; reflexivity).
  change (ps_ref_start early_patch) with (frame_time 1 50 194 : PrimFloat.float). change (ps_ref_end early_patch) with (frame_end 1 50 30 194 : PrimFloat.float).
  change (ps_deg_start early_patch) with (frame_time 1 50 116 : PrimFloat.float). change (ps_deg_end early_patch) with (frame_end 1 50 30 116 : PrimFloat.float).
  rewrite early_throw. reflexivity.
Qed.
(** the same numbers at 48 kHz: the reference patch starts at sample 186240 and ends before 215039, the degraded one
    starts at 111359 and ends before 140160, where both should have 28800 samples *)
Definition sample_at (t : PrimFloat.float) (sr : Z) : res Z := to_int (nmul t (nofZ sr)).
Lemma at_48000 : sample_at (frame_time 960 48000 194) 48000 = Ret 186240 /\ sample_at (frame_end 960 48000 30 194) 48000 = Ret 215039 /\
  sample_at (frame_time 960 48000 116) 48000 = Ret 111359 /\ sample_at (frame_end 960 48000 30 116) 48000 = Ret 140160.
Proof. repeat split; vm_compute; reflexivity. Qed.
