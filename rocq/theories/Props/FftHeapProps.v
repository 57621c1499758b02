(** Property C86: the buffers of the FFT wrappers. *)
From Coq Require Import ZArith List Bool Lia Floats.
From Verif Require Import Base.Res Base.Num Base.NumF Base.Lists Base.Cplx Model.Fft Model.FftHeap
  Spec.FftHeapSpec Proofs.FftP Proofs.FftHeapP Proofs.FftHeapCallsP Proofs.FftHeapUseP.
Import ListNotations.
Open Scope nat_scope.

(** C86: a manager made for any number of samples up to 2^30 and used for any list of calls: nothing
    undefined happens, every result is that of the buffers taken as values, so nothing left by an
    earlier call shows, and every block allocated is freed. *)
Theorem C86_session {T} {N : Num T} (enough : heap T -> nat -> bool) (fwd zre inv : list T -> list T) (f32 : T -> T) samples calls h :
  (forall h n, enough h n = true) -> same_lengths fwd -> same_lengths zre -> same_lengths inv ->
  (Z.of_nat samples <= 2 ^ 30)%Z -> Forall (fits samples) calls ->
  exists results h', session enough zre inv (MkPffft fwd (fun b => inv (zre b)) f32) samples calls h = Ret (results, h') /\ same_memory h h' /\
    Forall2 (fun c r => by_value fwd zre inv f32 samples c = Ret r) calls results.
Proof. intros EN LF LZ LI Hn. exact (session_ok enough EN samples Hn fwd zre inv f32 LF LZ LI calls h). Qed.
Print Assumptions C86_session.
(** The two users: the cross-correlation and the envelope. *)
Theorem C86_cross_correlation {T} {N : Num T} (enough : heap T -> nat -> bool) (fwd zre inv : list T -> list T) (f32 : T -> T) s1 s2 h :
  (forall h n, enough h n = true) -> same_lengths fwd -> same_lengths zre -> same_lengths inv ->
  1 <= Nat.max (length s1) (length s2) -> (2 * Z.of_nat (Nat.max (length s1) (length s2)) <= 2 ^ 30)%Z ->
  let pf := MkPffft fwd (fun b => inv (zre b)) f32 in
  exists v h', xcorr_mem enough zre inv pf s1 s2 h = Ret (v, h') /\ same_memory h h' /\ inverse_fft_pointwise_product pf s1 s2 = Ret v.
Proof. intros EN LF LZ LI. exact (xcorr_mem_ok enough EN fwd zre inv f32 LF LZ LI s1 s2 h). Qed.
Print Assumptions C86_cross_correlation.
Theorem C86_envelope {T} {N : Num T} (enough : heap T -> nat -> bool) (fwd zre inv : list T -> list T) (f32 : T -> T) sig h :
  (forall h n, enough h n = true) -> same_lengths fwd -> same_lengths zre -> same_lengths inv -> (Z.of_nat (length sig) <= 2 ^ 30)%Z ->
  let pf := MkPffft fwd (fun b => inv (zre b)) f32 in
  exists z h', hilbert_mem enough zre inv pf sig h = Ret (z, h') /\ same_memory h h' /\ hilbert pf sig = Ret z.
Proof. intros EN LF LZ LI. exact (hilbert_mem_ok enough EN fwd zre inv f32 LF LZ LI sig h). Qed.
Print Assumptions C86_envelope.
(** The result of an allocation is never looked at: without memory even making and destroying a
    manager is undefined. *)
Theorem C86_needs_memory {T} {N : Num T} zre inv pf samples (calls : list (fft_call T)) h :
  session (fun _ _ => false) zre inv pf samples calls h = Ub.
Proof. exact (no_memory zre inv pf samples calls h). Qed.
Print Assumptions C86_needs_memory.
(** Two forward transforms and an inverse one in one manager; a signal that is too short. *)
Example C86_example : let fl := fun z => nofZ z : PrimFloat.float in
  match session (fun _ _ => true) (fun l => l) (@rev _) (MkPffft (@rev _) (fun b => rev b) (fun x => x)) 3
      [Forward (map fl [1; 2; 3]%Z); Forward (map fl [4; 5; 6; 7]%Z); Inverse (repeat (fl 32%Z, fl 64%Z) 17)] [] with
  | Ret ([a; b; c], h) => (length a, length b, length c) = (32, 32, 3) /\ forallb (fun x => match x with None => true | _ => false end) h = true /\ length h = 7
  | _ => False
  end.
Proof. vm_compute. auto. Qed.
Example C86_short_signal : let fl := fun z => nofZ z : PrimFloat.float in
  session (fun _ _ => true) (fun l => l) (@rev _) (MkPffft (@rev _) (fun b => rev b) (fun x => x)) 3 [Forward (map fl [1; 2]%Z)] [] = Ub.
Proof. vm_compute. reflexivity. Qed.
