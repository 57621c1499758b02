(** One complete comparison, evaluated: 50 samples per second, 33 samples, speech mode, stand-ins for the FFT and for
    libm.  Used as a concrete case next to the theorems about whole runs. *)
From Coq Require Import ZArith List Bool String Floats.
From Verif Require Import Base.Res Base.Num Base.NumF Base.Mat Model.FilterBank Model.Fft Model.Mappers Model.Visqol Model.Manager
  Spec.ManagerSpec.
Import ListNotations.
Open Scope Z_scope.

Definition run_libm : Libm PrimFloat.float :=
  Build_Libm _ (fun x => if (x <? 1)%float then 1%float else 266%float) (fun x => x) (fun x => x) (fun _ => 1%float)
             (fun _ => 0%float) (fun _ => 1%float) 3%float.
Definition run_world : world PrimFloat.float :=
  MkWorld (MkPffft (fun l => l) (fun l => l) (fun x => x)) (fun _ => None) (fun _ => inl Unknown) (fun _ => None) EmptyString.
Definition run_args : init_args := MkInit EmptyString true false 0 false true true.
Definition run_manager : manager PrimFloat.float := fst (init run_world manager_new run_args).
Definition run_audio (k : Z) : audio PrimFloat.float :=
  MkAudio (map (fun i => nofZ (k * (Z.of_nat i * Z.of_nat i mod 7))) (seq 0 33)) 50.
Lemma toy_full : exists m d x, run (L:=run_libm) run_world run_manager (run_audio 1) (run_audio 2) = (m, d, Ret x) /\ List.length (ms_patches x) = 1%nat /\
  ms_vnsim x = 0x1.2727891b0e23ep-1%float /\ ms_moslqo x = 0x1.f65957a631a44p+1%float /\
  forallb (fun p => forallb (fun v => PrimFloat.leb (F_ofZ (-4)) v && PrimFloat.leb v (F_ofZ 4)) (pm_means p)) (ms_patches x) = true /\ List.length (au_data d) = 33%nat.
Proof. eexists _, _, _. split; [vm_compute; reflexivity|repeat split]. Qed.
Lemma toy_result : exists m d x, run (L:=run_libm) run_world run_manager (run_audio 1) (run_audio 2) = (m, d, Ret x) /\ List.length (ms_patches x) = 1%nat /\
  ms_vnsim x = 0x1.2727891b0e23ep-1%float /\ ms_moslqo x = 0x1.f65957a631a44p+1%float.
Proof. destruct toy_full as (m & d & x & E & L & V & Q & _). exact (ex_intro _ m (ex_intro _ d (ex_intro _ x (conj E (conj L (conj V Q)))))). Qed.
