(** The Hilbert transform in terms of packed buffers, in any arithmetic (C109). *)
From Coq Require Import ZArith List Bool Lia Arith.
From Coq Require Import ZifyBool ZifyNat.
From Verif Require Import Base.Res Base.Num Base.Lists Base.Cplx Model.MiscMath Model.Fft Proofs.FftP.
Import ListNotations.
Open Scope nat_scope.
Ltac Zify.zify_post_hook ::= Z.div_mod_to_equations.

Section Packed.
  Context {T : Type} {N : Num T}.
  Lemma scaling_at n h k : (1 <= h)%nat -> (2 <= n <= 2 * h)%nat -> (k <= h)%nat ->
    nth k (hilbert_scaling (T := T) n (2 * h)) n0 = if Nat.eqb k 0 then n1 else if Nat.ltb k h then nofZ 2 else if Nat.eqb n (2 * h) then n1 else n0.
  Proof.
    intros Hh Hn Hk. unfold hilbert_scaling. cbv zeta. replace (Nat.eqb n 0) with false by lia.
    replace (if Nat.eqb (n mod 2) 1 then ((2 * h + 1) / 2)%nat else (2 * h / 2)%nat) with h by (destruct (Nat.eqb (n mod 2) 1); lia).
    assert (FL : forall is (l : list T), (forall i, In i is -> (i < length l)%nat) -> nth k (fold_left (fun s i => upd s i (nofZ 2)) is l) n0 = if in_dec Nat.eq_dec k is then nofZ 2 else nth k l n0).
    { induction is as [|i is IH]; intros l Hl; [reflexivity|]. cbn [fold_left]. rewrite IH by (intros j Hj; rewrite upd_length; apply Hl; right; exact Hj).
      destruct (in_dec Nat.eq_dec k is) as [I|I].
      - destruct (in_dec Nat.eq_dec k (i :: is)) as [J|J]; [reflexivity|]. exfalso. apply J. right. exact I.
      - destruct (Nat.eq_dec i k) as [->|C].
        + rewrite nth_upd_same by (apply Hl; left; reflexivity). destruct (in_dec Nat.eq_dec k (k :: is)) as [J|J]; [reflexivity|]. exfalso. apply J. left. reflexivity.
        + rewrite nth_upd_other by exact C. destruct (in_dec Nat.eq_dec k (i :: is)) as [J|J]; [|reflexivity]. destruct J as [J|J]; contradiction. }
    rewrite FL. 2:{ intros i Hi. apply in_seq in Hi. rewrite !upd_length, repeat_length. lia. }
    destruct (in_dec Nat.eq_dec k (seq 1 (h - 1))) as [I|I].
    - apply in_seq in I. replace (Nat.eqb k 0) with false by lia. replace (Nat.ltb k h) with true by lia. reflexivity.
    - assert (~ (1 <= k < 1 + (h - 1))%nat) by (intros C; apply I, in_seq; exact C). destruct (Nat.eqb_spec k 0) as [->|K0].
      + rewrite nth_upd_other by lia. apply nth_upd_same. rewrite repeat_length. lia.
      + replace (Nat.ltb k h) with false by lia. assert (k = h) as -> by lia.
        rewrite nth_upd. destruct (Nat.eqb_spec (n / 2) h) as [C|C].
        * replace (Nat.ltb (n / 2) (length (upd (repeat n0 (2 * h)) 0 n1))) with true by (rewrite upd_length, repeat_length; lia).
          replace (Nat.eqb n (2 * h)) with true by lia. replace (Nat.eqb (n mod 2) 1) with false by lia. reflexivity.
        * replace (Nat.eqb n (2 * h)) with false by lia. rewrite nth_upd_other by lia. apply nth_repeat.
  Qed.
  Lemma scaling_size n k : length (hilbert_scaling (T := T) n k) = k.
  Proof.
    unfold hilbert_scaling.
    assert (FL : forall is (l : list T), length (fold_left (fun s i => upd s i (nofZ 2)) is l) = length l).
    { induction is as [|i is IH]; intros l; [reflexivity|]. cbn [fold_left]. now rewrite IH, upd_length. }
    rewrite FL. destruct (Nat.eqb n 0); rewrite ?upd_length; apply repeat_length.
  Qed.

  Definition weight (n h j : nat) : T := if Nat.eqb j 0 then n1 else if Nat.eqb j 1 then if Nat.eqb n (2 * h) then n1 else n0 else nofZ 2.
  Definition buffer (pf : pffft T) (h : nat) (sig : list T) : list T := map (pf_f32 pf) sig ++ repeat n0 (2 * h - length sig).
  Lemma hilbert_packed (pf : pffft T) h sig : fm_size (make_fft_manager (length sig)) = (2 * h)%nat -> (1 <= h)%nat -> (2 <= length sig <= 2 * h)%nat ->
    length (pf_fwd pf (buffer pf h sig)) = (2 * h)%nat ->
    exists q, length q = (2 * h)%nat /\ (forall j, (j < 2 * h)%nat -> nth j q n0 = nmul (nth j (pf_fwd pf (buffer pf h sig)) n0) (weight (length sig) h j)) /\
      hilbert pf sig = Ret (map (fun x => (nmul x (ndiv n1 (nofnat (2 * h))), n0)) (firstn (length sig) (pf_bwd pf (map (pf_f32 pf) q)))).
  Proof.
    intros E Hh Hn La. set (a := pf_fwd pf (buffer pf h sig)) in *. destruct (unpack_spec h a La Hh) as (f & A0 & A1 & A2 & A3 & A4 & _).
    set (n := length sig) in *. set (sc := hilbert_scaling (T := T) n (2 * h)). assert (Ls : length sc = (2 * h)%nat) by apply scaling_size.
    set (P := map (fun p => cscale (fst p) (snd p)) (combine f sc)).
    assert (LP : length P = (2 * h)%nat) by (unfold P; rewrite map_length, combine_length; unfold cplx in *; lia).
    assert (NP : forall k, (k < 2 * h)%nat -> nth k P (n0, n0) = cscale (nth k f (n0, n0)) (nth k sc n0)).
    { intros k Hk. unfold P. set (g := fun p : cplx T * T => cscale (fst p) (snd p)). rewrite (nth_indep (map g _) (n0, n0) (g ((n0, n0), n0))) by (rewrite map_length, combine_length; unfold cplx in *; lia).
      rewrite (map_nth g), combine_nth by (unfold cplx in *; lia). reflexivity. }
    destruct (pack_spec h P ltac:(unfold cplx in *; lia) Hh) as (q & Q0 & Q1 & Q2 & Q3 & Q4). exists q. split; [exact Q1|]. split.
    - intros j Hj. destruct (Nat.eq_dec j 0) as [->|J0]; [|destruct (Nat.eq_dec j 1) as [->|J1]].
      + rewrite Q2, NP by lia. rewrite A2. unfold sc. rewrite scaling_at by lia. reflexivity.
      + rewrite Q3, NP by lia. rewrite A3. unfold sc. rewrite scaling_at by lia. replace (Nat.eqb h 0) with false by lia. rewrite Nat.ltb_irrefl. reflexivity.
      + assert (W : weight n h j = nofZ 2) by (unfold weight; replace (Nat.eqb j 0) with false by lia; replace (Nat.eqb j 1) with false by lia; reflexivity). rewrite W.
        destruct (Q4 (j / 2) ltac:(lia)) as [E0 E1]. assert (V : nth (j / 2) sc n0 = nofZ 2) by (unfold sc; rewrite scaling_at by lia; replace (Nat.eqb (j / 2) 0) with false by lia; replace (Nat.ltb (j / 2) h) with true by lia; reflexivity).
        rewrite NP, A4, V in E0, E1 by lia. cbn [cscale cre cim fst snd] in E0, E1.
        destruct (Nat.eq_dec (j mod 2) 0) as [M0|M1]; [replace j with (2 * (j / 2))%nat by lia; exact E0|replace j with (2 * (j / 2) + 1)%nat by lia; exact E1].
    - unfold hilbert. fold n. unfold forward1d. rewrite E. change (fm_samples (make_fft_manager n)) with n. fold n. rewrite Nat.ltb_irrefl. replace (Nat.ltb (2 * h) n) with false by lia. cbn [orb].
      rewrite firstn_all2 by (unfold n; lia). cbv zeta. change (map (pf_f32 pf) sig ++ repeat n0 (2 * h - n)) with (buffer pf h sig). fold a. rewrite A0. cbn [bind].
      rewrite A1. fold sc P. unfold inverse1d. rewrite E, Q0. cbn [bind]. change (fm_samples (make_fft_manager n)) with n. rewrite simd_spec, map_map. reflexivity.
  Qed.
End Packed.
