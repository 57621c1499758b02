(** The FFT buffers: the two users, and what the conditions are for (C86). *)
From Coq Require Import ZArith List Bool Lia.
From Coq Require Import ZifyBool ZifyNat.
From Verif Require Import Base.Res Base.Num Base.Lists Base.Cplx Model.MiscMath Model.Fft Model.FftHeap
  Spec.FftHeapSpec Proofs.FftP Proofs.FftHeapP Proofs.FftHeapCallsP.
Import ListNotations.
Open Scope nat_scope.

Section Use.
  Context {T : Type} {N : Num T}.
  Variable enough : heap T -> nat -> bool.
  Hypothesis EN : forall h n, enough h n = true.
  Variables (fwd zre inv : list T -> list T) (f32 : T -> T).
  Hypothesis LF : same_lengths fwd.
  Hypothesis LZ : same_lengths zre.
  Hypothesis LI : same_lengths inv.
  Notation pf := (MkPffft fwd (fun b => inv (zre b)) f32).
  Lemma keeps : keeps_length pf.
  Proof. split; intros l; cbn [pf_fwd pf_bwd]; [apply LF|rewrite LI; apply LZ]. Qed.
  Lemma forward_length n (sig : list T) f : (Z.of_nat n <= 2 ^ 30)%Z -> n <= length sig ->
    forward1d pf (make_fft_manager n) sig = Ret f -> length f = fm_size (make_fft_manager n).
  Proof.
    intros Hn Hs E. destruct (size_facts n Hn) as ((h & Hm & Hh) & LE & _).
    unfold forward1d in E. change (fm_samples (make_fft_manager n)) with n in E.
    replace (Nat.ltb (length sig) n || Nat.ltb (fm_size (make_fft_manager n)) n) with false in E by lia. cbv zeta in E. cbn [pf_fwd pf_f32] in E.
    match type of E with unpack_spectrum ?p = _ => destruct (unpack_spec h p) as (s & Es & Ls & _) end.
    - rewrite LF, app_length, map_length, firstn_length, repeat_length. lia.
    - lia.
    - rewrite Es in E. apply (f_equal (fun x => match x with Ret y => length y | _ => 0 end)) in E. cbn in E. lia.
  Qed.
  Lemma scaling_length n k : length (hilbert_scaling (T := T) n k) = k.
  Proof.
    unfold hilbert_scaling.
    assert (FL : forall is (l : list T), length (fold_left (fun s i => upd s i (nofZ 2)) is l) = length l).
    { induction is as [|i is IH]; intros l; [reflexivity|]. cbn [fold_left]. now rewrite IH, upd_length. }
    rewrite FL. destruct (Nat.eqb n 0); rewrite ?upd_length; apply repeat_length.
  Qed.

  Lemma hilbert_mem_ok (sig : list T) h : (Z.of_nat (length sig) <= 2 ^ 30)%Z ->
    exists z h', hilbert_mem enough zre inv pf sig h = Ret (z, h') /\ same_memory h h' /\ hilbert pf sig = Ret z.
  Proof.
    intros Hn. destruct (size_facts _ Hn) as ((hf & Hm & Hh) & LE & _).
    destruct (construct_ok enough EN (length sig) Hn h) as (k & h1 & E1 & G1).
    destruct (forward_ok enough EN (length sig) Hn fwd zre inv f32 LF k _ h1 sig G1 (le_n _)) as (f & h2 & E2 & V2 & G2).
    pose proof (forward_length _ sig f Hn (le_n _) V2) as Lf.
    destruct (inverse_ok enough EN (length sig) Hn fwd zre inv f32 LZ LI k _ h2 (map (fun p => cscale (fst p) (snd p)) (combine f (hilbert_scaling (length sig) (length f)))) G2)
      as (z & h3 & E3 & V3 & G3).
    { rewrite map_length, combine_length, scaling_length. lia. }
    destruct (destroy_ok (length sig) k _ h3 G3) as (h4 & E4 & L4).
    exists z, h4. unfold hilbert_mem. unfold next at 1. rewrite E1. cbn [bind]. unfold next at 1. rewrite E2. cbn [bind]. unfold next at 1. rewrite E3. cbn [bind].
    unfold next at 1. rewrite E4. cbn [bind]. split; [reflexivity|]. split; [exact L4|]. unfold hilbert. cbv zeta. rewrite V2. cbn [bind]. exact V3.
  Qed.

  Lemma xcorr_mem_ok (s1 s2 : list T) h : 1 <= Nat.max (length s1) (length s2) -> (2 * Z.of_nat (Nat.max (length s1) (length s2)) <= 2 ^ 30)%Z ->
    exists v h', xcorr_mem enough zre inv pf s1 s2 h = Ret (v, h') /\ same_memory h h' /\ inverse_fft_pointwise_product pf s1 s2 = Ret v.
  Proof.
    set (n := Nat.max (length s1) (length s2)). intros H1 H2.
    assert (HP : (Z.of_nat (fft_points n) <= 2 ^ 30)%Z).
    { unfold fft_points. rewrite Z2Nat.id by (apply Z.pow_nonneg; lia). apply Z.pow_le_mono_r; [lia|]. replace (Z.abs (Z.of_nat n * 2 - 1)) with (2 * Z.of_nat n - 1)%Z by lia.
      assert (Z.log2 (2 * Z.of_nat n - 1) < 30)%Z by (apply Z.log2_lt_pow2; lia). lia. }
    set (p := fft_points n) in *. destruct (size_facts p HP) as ((hf & Hm & Hh) & LE & _).
    destruct (construct_ok enough EN p HP h) as (k & h1 & E1 & G1).
    set (padded := fun s => firstn p (pad_to n s) ++ repeat n0 (p - length (pad_to n s))).
    assert (LP : forall s, p <= length (padded s)) by (intros s; unfold padded; rewrite app_length, firstn_length, repeat_length; lia).
    destruct (forward_ok enough EN p HP fwd zre inv f32 LF k _ h1 (padded s2) G1 (LP s2)) as (f2 & h2 & E2 & V2 & G2).
    destruct (forward_ok enough EN p HP fwd zre inv f32 LF k _ h2 (padded s1) G2 (LP s1)) as (f1 & h3 & E3 & V3 & G3).
    pose proof (forward_length _ _ f2 HP (LP s2) V2) as L2. pose proof (forward_length _ _ f1 HP (LP s1) V3) as L1.
    destruct (inverse_ok enough EN p HP fwd zre inv f32 LZ LI k _ h3 (map (fun p => cmul (fst p) (snd p)) (combine f1 (map cconj f2))) G3) as (z & h4 & E4 & V4 & G4).
    { rewrite map_length, combine_length, map_length. lia. }
    destruct (destroy_ok p k _ h4 G4) as (h5 & E5 & L5).
    assert (EQ : Nat.eqb (length f1) (length (map cconj f2)) = true) by (rewrite map_length; lia).
    exists (map cre z), h5. unfold xcorr_mem. cbv zeta. fold n p. unfold next at 1. rewrite E1. cbn [bind]. unfold next at 1. fold (padded s2). rewrite E2. cbn [bind].
    unfold next at 1. fold (padded s1). rewrite E3. cbn [bind]. rewrite EQ. unfold next at 1. rewrite E4. cbn [bind]. unfold next at 1. rewrite E5. cbn [bind].
    split; [reflexivity|]. split; [exact L5|].
    unfold inverse_fft_pointwise_product, fft_pointwise_product, forward1d_points, inverse1d_conj_sym. cbv zeta. fold n p. fold (padded s1) (padded s2).
    rewrite V2. cbn [bind]. rewrite V3. cbn [bind]. rewrite EQ. cbn [bind]. rewrite V4. reflexivity.
  Qed.
End Use.

Section NoMemory.
  Context {T : Type} {N : Num T}.
  (** the destructor gives the null setup to the library *)
  Lemma no_memory zre inv pf n (cs : list (fft_call T)) h : session (fun _ _ => false) zre inv pf n cs h = Ub.
  Proof.
    unfold session, next at 1, fm_construct. cbv zeta.
    assert (E : (if (16384 <? Z.of_nat (fm_size (make_fft_manager n)))%Z then alloc (fun _ _ => false) (2 * fm_size (make_fft_manager n)) else done None) h = Ret (None, h))
      by (destruct (16384 <? _)%Z; reflexivity).
    unfold next at 1. rewrite E. cbn [bind]. unfold next at 1. unfold ch_init at 1, next at 1, alloc at 1. cbn [bind]. unfold done at 1. cbn [bind].
    unfold next at 1. unfold ch_init at 1, next at 1, alloc at 1. cbn [bind]. unfold done at 1. cbn [bind].
    unfold next at 1, new_setup. 
    assert (E' : (if ((2 ^ Z.log2 (Z.of_nat (fm_size (make_fft_manager n))) =? Z.of_nat (fm_size (make_fft_manager n)))%Z && (32 <=? Z.of_nat (fm_size (make_fft_manager n)))%Z && (Z.of_nat (fm_size (make_fft_manager n)) <? 2 ^ 31)%Z)%bool
                  then alloc (fun _ _ => false) 1 else done None) h = Ret (None, h)) by (destruct (_ && _ && _); reflexivity).
    rewrite E'. cbn [bind]. unfold done at 1. cbn [bind].
    destruct cs as [|[sig|spec] cs]; reflexivity.
  Qed.
End NoMemory.
