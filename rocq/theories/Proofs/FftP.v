(** The FFT wrappers: buffer layout, padded size, block multiply; no property of the FFT itself. *)
From Coq Require Import ZArith List Bool Lia Arith.
From Coq Require Import ZifyBool ZifyNat.
From Verif Require Import Base.Res Base.Num Base.Lists Base.Cplx Model.MiscMath Model.Fft.
Import ListNotations.
Open Scope nat_scope.
Ltac Zify.zify_post_hook ::= Z.div_mod_to_equations.

(** *** NextPowTwo *)
Section Smear.
  Open Scope Z_scope.
  Definition smear (n : Z) : Z :=
    let n := Z.lor n (Z.shiftr n 1) in
    let n := Z.lor n (Z.shiftr n 2) in
    let n := Z.lor n (Z.shiftr n 4) in
    let n := Z.lor n (Z.shiftr n 8) in
    Z.lor n (Z.shiftr n 16).

  Definition ored (w n m : Z) : Prop :=
    forall i, 0 <= i -> Z.testbit m i = true <-> exists j, 0 <= j < w /\ Z.testbit n (i + j) = true.
  Lemma ored_step w n m : 0 < w -> ored w n m -> ored (2 * w) n (Z.lor m (Z.shiftr m w)).
  Proof.
    intros Hw H i Hi. rewrite Z.lor_spec, Z.shiftr_spec by lia. rewrite orb_true_iff, (H i), (H (i + w)) by lia.
    split.
    - intros [(j & A & B)|(j & A & B)]; [exists j; split; [lia|exact B]|exists (w + j); split; [lia|]].
      now rewrite Z.add_assoc.
    - intros (j & A & B). destruct (Z.lt_ge_cases j w); [left; exists j; split; [lia|exact B]|].
      right. exists (j - w). split; [lia|]. replace (i + w + (j - w)) with (i + j) by lia. exact B.
  Qed.
  Lemma ored_smear n : ored 32 n (smear n).
  Proof.
    unfold smear.
    assert (H : ored 1 n n).
    { intros i Hi. split; [intros H; exists 0; split; [lia|now rewrite Z.add_0_r]|].
      intros (j & A & B). replace j with 0 in B by lia. now rewrite Z.add_0_r in B. }
    apply (ored_step 1) in H; [|lia]. apply (ored_step 2) in H; [|lia]. apply (ored_step 4) in H; [|lia].
    apply (ored_step 8) in H; [|lia]. apply (ored_step 16) in H; [|lia]. exact H.
  Qed.
  Lemma smear_ones n : 0 < n < 2 ^ 32 -> smear n = Z.ones (Z.log2 n + 1).
  Proof.
    intros Hn. pose proof (Z.log2_nonneg n) as L0.
    assert (L1 : Z.log2 n < 32) by (apply Z.log2_lt_pow2; lia).
    apply Z.bits_inj'. intros i Hi. pose proof (ored_smear n i Hi) as H.
    destruct (Z.lt_ge_cases i (Z.log2 n + 1)) as [C|C].
    - rewrite Z.ones_spec_low by lia. apply H. exists (Z.log2 n - i). split; [lia|].
      replace (i + (Z.log2 n - i)) with (Z.log2 n) by lia. apply Z.bit_log2. lia.
    - rewrite Z.ones_spec_high by lia. destruct (Z.testbit (smear n) i) eqn:E; [|reflexivity].
      destruct (proj1 H eq_refl) as (j & A & B). rewrite Z.bits_above_log2 in B by lia. discriminate.
  Qed.
  Lemma next_pow_two_spec n : 1 <= n <= 2 ^ 31 -> next_pow_two n = 2 ^ Z.log2_up n.
  Proof.
    intros Hn. unfold next_pow_two.
    change (u32 (smear (u32 (u32 n - 1)) + 1) = 2 ^ Z.log2_up n).
    assert (E : u32 (u32 n - 1) = n - 1) by (unfold u32; rewrite (Z.mod_small n) by lia; apply Z.mod_small; lia).
    rewrite E. destruct (Z.eq_dec n 1) as [->|N]; [reflexivity|].
    rewrite smear_ones by lia. rewrite Z.ones_equiv. unfold Z.log2_up.
    rewrite (proj2 (Z.compare_lt_iff 1 n)) by lia.
    replace (Z.pred (2 ^ (Z.log2 (n - 1) + 1)) + 1) with (2 ^ (Z.log2 (n - 1) + 1)) by lia.
    replace (Z.pred n) with (n - 1) by lia. unfold u32. change (Z.succ (Z.log2 (n - 1))) with (Z.log2 (n - 1) + 1).
    apply Z.mod_small. split; [apply Z.pow_nonneg; lia|]. apply Z.pow_lt_mono_r; [lia|lia|].
    assert (Z.log2 (n - 1) < 31) by (apply Z.log2_lt_pow2; lia). lia.
  Qed.
End Smear.

(** the size of the FFT *)
Lemma fm_size_spec n : (1 <= Z.of_nat n <= 2 ^ 31)%Z ->
  Z.of_nat (fm_size (make_fft_manager n)) = Z.max (2 ^ Z.log2_up (Z.of_nat n)) 32.
Proof.
  intros H. unfold make_fft_manager. cbn [fm_size]. rewrite next_pow_two_spec by exact H. lia.
Qed.
Lemma fm_size_even n : (1 <= Z.of_nat n <= 2 ^ 31)%Z -> exists h, fm_size (make_fft_manager n) = 2 * h /\ 16 <= h.
Proof.
  intros H. pose proof (fm_size_spec n H) as E.
  destruct (Z.le_gt_cases 5 (Z.log2_up (Z.of_nat n))) as [C|C].
  - assert (P : (2 ^ Z.log2_up (Z.of_nat n) = 32 * 2 ^ (Z.log2_up (Z.of_nat n) - 5))%Z).
    { change 32%Z with (2 ^ 5)%Z. rewrite <- Z.pow_add_r by lia. f_equal. lia. }
    assert (Q : (0 < 2 ^ (Z.log2_up (Z.of_nat n) - 5))%Z) by (apply Z.pow_pos_nonneg; lia).
    rewrite P in E. exists (Z.to_nat (16 * 2 ^ (Z.log2_up (Z.of_nat n) - 5))). lia.
  - assert (P : (2 ^ Z.log2_up (Z.of_nat n) <= 2 ^ 5)%Z) by (apply Z.pow_le_mono_r; lia).
    exists 16. lia.
Qed.
Lemma fm_size_ge n : (1 <= Z.of_nat n <= 2 ^ 31)%Z -> n <= fm_size (make_fft_manager n).
Proof.
  intros H. pose proof (fm_size_spec n H) as E. 
  assert (Z.of_nat n <= 2 ^ Z.log2_up (Z.of_nat n))%Z; [|lia].
  destruct (Z.eq_dec (Z.of_nat n) 1) as [->|N]; [cbn; lia|]. apply Z.log2_up_spec. lia.
Qed.

Section Layout.
  Context {T : Type} {N : Num T}.

  (** *** the block multiply *)
  Lemma mul_at_length g (l : list T) i : length (mul_at g l i) = length l.
  Proof. apply upd_length. Qed.
  Lemma fold_mul_length g is : forall l : list T, length (fold_left (mul_at g) is l) = length l.
  Proof. induction is as [|i is IH]; intros l; [reflexivity|]. cbn [fold_left]. rewrite IH. apply mul_at_length. Qed.
  Lemma fold_mul_nth g is : forall (l : list T) j, NoDup is -> j < length l ->
    nth j (fold_left (mul_at g) is l) n0 =
    if in_dec Nat.eq_dec j is then nmul (nth j l n0) g else nth j l n0.
  Proof.
    induction is as [|i is IH]; intros l j D Hj; [reflexivity|].
    inversion D as [|? ? D1 D2]; subst. cbn [fold_left].
    rewrite IH by (rewrite ?mul_at_length; assumption). unfold mul_at.
    destruct (Nat.eq_dec i j) as [->|E].
    - rewrite nth_upd_same by exact Hj. destruct (in_dec Nat.eq_dec j is); [contradiction|].
      destruct (in_dec Nat.eq_dec j (j :: is)) as [_|C]; [reflexivity|]. exfalso. apply C. now left.
    - rewrite nth_upd_other by exact E.
      destruct (in_dec Nat.eq_dec j is) as [A|A], (in_dec Nat.eq_dec j (i :: is)) as [B|B]; try reflexivity.
      + exfalso. apply B. now right.
      + destruct B; [congruence|contradiction].
  Qed.
  Lemma fold_blocks g k : forall l : list T,
    fold_left (fun b i => fold_left (mul_at g) [4 * i; 4 * i + 1; 4 * i + 2; 4 * i + 3] b) (seq 0 k) l =
    fold_left (mul_at g) (seq 0 (4 * k)) l.
  Proof.
    induction k as [|k IH]; intros l; [reflexivity|].
    rewrite seq_S, fold_left_app, IH. replace (4 * S k) with (4 * k + 4) by lia.
    rewrite seq_app, fold_left_app. cbn [Nat.add fold_left seq].
    replace (4 * k + 1) with (S (4 * k)) by lia. replace (4 * k + 2) with (S (S (4 * k))) by lia.
    replace (4 * k + 3) with (S (S (S (4 * k)))) by lia. reflexivity.
  Qed.
  Lemma simd_spec g (l : list T) : simd_scalar_multiply g l = map (fun x => nmul x g) l.
  Proof.
    unfold simd_scalar_multiply. rewrite fold_blocks, <- fold_left_app.
    replace (length l - length l mod 4) with (0 + 4 * (length l / 4)) by lia. rewrite <- seq_app.
    replace (4 * (length l / 4) + length l mod 4) with (length l) by lia.
    apply (list_ext _ _ n0); [rewrite map_length; apply fold_mul_length|].
    rewrite fold_mul_length. intros i Hi. rewrite fold_mul_nth by (auto using seq_NoDup).
    destruct (in_dec Nat.eq_dec i (seq 0 (length l))) as [_|C]; [|exfalso; apply C; apply in_seq; lia].
    rewrite (nth_indep (map _ _) n0 (nmul n0 g)) by (now rewrite map_length).
    now rewrite (map_nth (fun x => nmul x g)).
  Qed.

  (** *** packed buffers *)
  Lemma pairs_spec h : forall p : list T, length p = 2 * h ->
    length (pairs p) = h /\ forall k, k < h -> nth k (pairs p) (n0, n0) = (nth (2 * k) p n0, nth (2 * k + 1) p n0).
  Proof.
    induction h as [|h IH]; intros p Hp.
    - destruct p; [|discriminate]. split; [reflexivity|lia].
    - destruct p as [|a [|b p]]; [discriminate|cbn in Hp; lia|].
      destruct (IH p) as [A B]; [cbn in Hp; lia|]. cbn [pairs]. split; [cbn; lia|].
      intros [|k] Hk; [reflexivity|]. cbn [nth]. rewrite B by lia.
      replace (2 * S k) with (S (S (2 * k))) by lia. replace (S (S (2 * k)) + 1) with (S (S (2 * k + 1))) by lia. reflexivity.
  Qed.
  Lemma unpairs_length (l : list (cplx T)) : length (unpairs l) = 2 * length l.
  Proof. induction l as [|[a b] l IH]; [reflexivity|]. cbn [unpairs length]. lia. Qed.
  Lemma unpairs_nth : forall (l : list (cplx T)) k, k < length l ->
    nth (2 * k) (unpairs l) n0 = cre (nth k l (n0, n0)) /\ nth (2 * k + 1) (unpairs l) n0 = cim (nth k l (n0, n0)).
  Proof.
    induction l as [|[a b] l IH]; intros k Hk; [cbn in Hk; lia|].
    destruct k as [|k]; [split; reflexivity|]. cbn in Hk.
    replace (2 * S k) with (S (S (2 * k))) by lia. replace (S (S (2 * k)) + 1) with (S (S (2 * k + 1))) by lia.
    cbn [unpairs nth]. apply IH. lia.
  Qed.

  Lemma unpack_spec h (p : list T) : length p = 2 * h -> 1 <= h ->
    exists s, unpack_spectrum p = Ret s /\ length s = 2 * h /\
      nth 0 s (n0, n0) = (nth 0 p n0, n0) /\ nth h s (n0, n0) = (nth 1 p n0, n0) /\
      (forall k, 1 <= k < h -> nth k s (n0, n0) = (nth (2 * k) p n0, nth (2 * k + 1) p n0)) /\
      (forall k, h < k < 2 * h ->
         nth k s (n0, n0) = (nth (2 * (2 * h - k)) p n0, nmul (nth (2 * (2 * h - k) + 1) p n0) (nofZ (-1)))).
  Proof.
    intros Hp Hh. destruct (pairs_spec h p Hp) as [A B]. unfold unpack_spectrum.
    pose proof (B 0 ltac:(lia)) as B0.
    destruct (pairs p) as [|[a b] rest] eqn:E; [cbn in A; lia|].
    change (2 * 0) with 0 in B0. cbn [nth Nat.add] in B0. injection B0 as Ea Eb. cbn in A.
    assert (BR : forall k, 1 <= k < h -> nth (k - 1) rest (n0, n0) = (nth (2 * k) p n0, nth (2 * k + 1) p n0)).
    { intros k Hk. rewrite <- B by lia. destruct k as [|k]; [lia|]. cbn [nth]. f_equal. lia. }
    eexists. split; [reflexivity|].
    assert (L : length ((a, n0) :: rest) = h) by exact A.
    split; [|split; [|split; [|split]]].
    - cbn [length app]. rewrite app_length. cbn [length]. rewrite map_length, rev_length. unfold cplx in *. lia.
    - cbn [app nth]. now rewrite Ea.
    - rewrite app_nth2 by lia. rewrite L, Nat.sub_diag. cbn [nth]. now rewrite Eb.
    - intros k Hk. rewrite app_nth1 by lia. destruct k as [|k]; [lia|]. cbn [nth].
      rewrite <- BR by lia. rewrite Nat.sub_succ, Nat.sub_0_r. reflexivity.
    - intros k Hk. rewrite app_nth2 by lia. rewrite L. destruct (k - h) as [|m] eqn:Em; [lia|]. cbn [nth].
      set (f := fun z : cplx T => (cre z, nmul (cim z) (nofZ (-1)))).
      rewrite (nth_indep _ (n0, n0) (f (n0, n0))) by (rewrite map_length, rev_length; lia).
      rewrite (map_nth f). rewrite rev_nth by lia. 
      replace (length rest - S m) with (2 * h - k - 1) by lia. rewrite (BR (2 * h - k)) by lia. reflexivity.
  Qed.

  Lemma pack_spec h (s : list (cplx T)) : h < length s -> 1 <= h ->
    exists p, pack_spectrum (2 * h) s = Ret p /\ length p = 2 * h /\
      nth 0 p n0 = cre (nth 0 s (n0, n0)) /\ nth 1 p n0 = cre (nth h s (n0, n0)) /\
      (forall k, 1 <= k < h -> nth (2 * k) p n0 = cre (nth k s (n0, n0)) /\
                               nth (2 * k + 1) p n0 = cim (nth k s (n0, n0))).
  Proof.
    intros Hs Hh. unfold pack_spectrum. replace (2 * h / 2) with h by lia.
    destruct (nth_error s h) as [nyq|] eqn:E; [|apply nth_error_None in E; lia].
    apply (nth_error_nth s h (n0, n0)) in E.
    assert (Lf : length (firstn h s) = h) by (rewrite firstn_length; lia).
    assert (U : forall k, k < h -> nth (2 * k) (unpairs (firstn h s)) n0 = cre (nth k s (n0, n0)) /\
                                   nth (2 * k + 1) (unpairs (firstn h s)) n0 = cim (nth k s (n0, n0))).
    { intros k Hk. destruct (unpairs_nth (firstn h s) k ltac:(lia)) as [A B].
      rewrite A, B, nth_firstn by lia. split; reflexivity. }
    eexists. split; [reflexivity|]. rewrite upd_length, unpairs_length, Lf.
    split; [reflexivity|]. split; [|split].
    - rewrite nth_upd_other by lia. apply (proj1 (U 0 ltac:(lia))).
    - rewrite nth_upd_same by (rewrite unpairs_length, Lf; lia). now rewrite E.
    - intros k Hk. rewrite !nth_upd_other by lia. apply U. lia.
  Qed.

  (** the layout round-trips *)
  Lemma pack_unpack h (p : list T) s : length p = 2 * h -> 1 <= h -> unpack_spectrum p = Ret s ->
    pack_spectrum (2 * h) s = Ret p.
  Proof.
    intros Hp Hh Hs. destruct (unpack_spec h p Hp Hh) as (s' & A & B & C & D & E & _).
    rewrite Hs in A. injection A as <-.
    destruct (pack_spec h s ltac:(lia) Hh) as (q & Q0 & Q1 & Q2 & Q3 & Q4). rewrite Q0. f_equal.
    apply (list_ext _ _ n0); [lia|]. intros i Hi. rewrite Q1 in Hi.
    destruct (Nat.eq_dec i 0) as [->|I0]; [rewrite Q2, C; reflexivity|].
    destruct (Nat.eq_dec i 1) as [->|I1]; [rewrite Q3, D; reflexivity|].
    destruct (Q4 (i / 2) ltac:(lia)) as [X Y]. rewrite (E (i / 2)) in X, Y by lia. cbn [cre cim fst snd] in X, Y.
    destruct (Nat.eq_dec (i mod 2) 0).
    - replace i with (2 * (i / 2)) by lia. exact X.
    - replace i with (2 * (i / 2) + 1) by lia. exact Y.
  Qed.

  (** *** lengths *)
  Definition keeps_length (pf : pffft T) : Prop :=
    (forall l, length (pf_fwd pf l) = length l) /\ (forall l, length (pf_bwd pf l) = length l).

  Lemma forward_returns pf n (sig : list T) : keeps_length pf -> (1 <= Z.of_nat n <= 2 ^ 31)%Z -> n <= length sig ->
    exists s, forward1d pf (make_fft_manager n) sig = Ret s /\ length s = fm_size (make_fft_manager n).
  Proof.
    intros [K1 K2] Hn Hl. unfold forward1d.
    destruct (fm_size_even n Hn) as (h & E & Hh). pose proof (fm_size_ge n Hn) as G.
    assert (F : fm_samples (make_fft_manager n) = n) by reflexivity. rewrite F.
    replace (_ || _) with false by (symmetry; apply orb_false_iff; split; apply Nat.ltb_ge; lia).
    destruct (unpack_spec h (pf_fwd pf (map (pf_f32 pf) (firstn n sig) ++
               repeat n0 (fm_size (make_fft_manager n) - n)))) as (s & A & B & _).
    - rewrite K1, app_length, map_length, firstn_length, repeat_length. lia.
    - lia.
    - exists s. split; [exact A|lia].
  Qed.
  Lemma inverse_returns pf n (spec : list (cplx T)) : keeps_length pf -> (1 <= Z.of_nat n <= 2 ^ 31)%Z ->
    length spec = fm_size (make_fft_manager n) ->
    exists z, inverse1d pf (make_fft_manager n) spec = Ret z /\ length z = n.
  Proof.
    intros [K1 K2] Hn Hl. unfold inverse1d.
    destruct (fm_size_even n Hn) as (h & E & Hh). pose proof (fm_size_ge n Hn) as G.
    rewrite E. destruct (pack_spec h spec ltac:(lia) ltac:(lia)) as (p & P & P1 & _). rewrite P. cbn [bind].
    eexists. split; [reflexivity|]. rewrite map_length, simd_spec, map_length, firstn_length, K2, map_length, P1.
    change (fm_samples (make_fft_manager n)) with n. lia.
  Qed.

  Lemma envelope_returns pf (sig : list T) : keeps_length pf -> (1 <= Z.of_nat (length sig) <= 2 ^ 31)%Z ->
    exists e, calc_upper_env pf sig = Ret e /\ length e = length sig.
  Proof.
    intros K H. unfold calc_upper_env, hilbert. rewrite map_length.
    destruct (forward_returns pf (length sig) (map (fun x => nsub x (vec_mean sig)) sig) K H
                ltac:(now rewrite map_length)) as (f & F & Lf).
    rewrite F. cbn [bind].
    assert (Ls : length (hilbert_scaling (T:=T) (length sig) (length f)) = length f).
    { unfold hilbert_scaling.
      assert (FL : forall is (l : list T), length (fold_left (fun s i => upd s i (nofZ 2)) is l) = length l).
      { induction is as [|i is IH]; intros l; [reflexivity|]. cbn [fold_left]. now rewrite IH, upd_length. }
      rewrite FL. destruct (Nat.eqb (length sig) 0); rewrite ?upd_length; apply repeat_length. }
    destruct (inverse_returns pf (length sig) (map (fun p => cscale (fst p) (snd p)) (combine f (hilbert_scaling (length sig) (length f)))) K H)
      as (z & Z & Lz).
    { rewrite map_length, combine_length, Ls. lia. }
    rewrite Z. cbn [bind]. eexists. split; [reflexivity|]. now rewrite map_length.
  Qed.

  Lemma fft_points_spec n : 1 <= n -> (2 * Z.of_nat n - 1 < 2 ^ 31)%Z ->
    let P := Z.of_nat (fft_points n) in
    (2 * Z.of_nat n <= P /\ P <= 2 ^ 31 /\ (9 <= Z.of_nat n -> 32 <= P) /\ (Z.of_nat n <= 8 -> P <= 16) /\
     next_pow_two P = P)%Z.
  Proof.
    intros H1 H2. cbn zeta. unfold fft_points. replace (Z.abs (Z.of_nat n * 2 - 1)) with (2 * Z.of_nat n - 1)%Z by lia.
    set (e := Z.log2 (2 * Z.of_nat n - 1)).
    assert (E0 : (0 <= e)%Z) by apply Z.log2_nonneg.
    destruct (Z.log2_spec (2 * Z.of_nat n - 1) ltac:(lia)) as [S1 S2]. fold e in S1, S2.
    assert (E1 : (e < 31)%Z) by (apply Z.log2_lt_pow2; lia).
    assert (P0 : (0 < 2 ^ (e + 1))%Z) by (apply Z.pow_pos_nonneg; lia).
    rewrite Z2Nat.id by lia. change (Z.succ e) with (e + 1)%Z in S2.
    assert (P1 : (2 ^ (e + 1) = 2 * 2 ^ e)%Z) by (rewrite Z.pow_add_r by lia; lia).
    repeat split.
    - assert (2 ^ (e + 1) mod 2 = 0)%Z by (rewrite P1; lia). lia.
    - apply Z.pow_le_mono_r; lia.
    - intros H. change 32%Z with (2 ^ 5)%Z. apply Z.pow_le_mono_r; [lia|].
      assert (4 <= e)%Z by (apply Z.log2_le_pow2; lia). lia.
    - intros H. change 16%Z with (2 ^ 4)%Z. apply Z.pow_le_mono_r; [lia|].
      assert (e < 4)%Z by (apply Z.log2_lt_pow2; lia). lia.
    - rewrite next_pow_two_spec.
      + f_equal. apply Z.log2_up_pow2; lia.
      + split; [lia|]. apply Z.pow_le_mono_r; lia.
  Qed.

  Lemma argmax_from_bound : forall (l : list T) b bi i, bi < i -> argmax_from b bi i l < i + length l.
  Proof.
    induction l as [|x l IH]; intros b bi i H; [cbn; lia|]. cbn [argmax_from length].
    destruct (nltb b x); [specialize (IH x i (S i))|specialize (IH b bi (S i))]; lia.
  Qed.
  Lemma argmax_bound (l : list T) : l <> [] -> argmax l < length l.
  Proof.
    destruct l as [|x l]; [congruence|]. intros _. cbn [argmax length].
    pose proof (argmax_from_bound l x 0 1). lia.
  Qed.

  Lemma product_returns pf (s1 s2 : list T) : keeps_length pf ->
    let n := Nat.max (length s1) (length s2) in
    1 <= n -> (2 * Z.of_nat n - 1 < 2 ^ 31)%Z ->
    exists v, inverse_fft_pointwise_product pf s1 s2 = Ret v /\ length v = fft_points n.
  Proof.
    intros K n H1 H2. unfold inverse_fft_pointwise_product, fft_pointwise_product, forward1d_points, inverse1d_conj_sym.
    fold n. destruct (fft_points_spec n H1 H2) as (P1 & P2 & _).
    assert (HP : (1 <= Z.of_nat (fft_points n) <= 2 ^ 31)%Z) by lia.
    assert (LP : forall s, length s <= n ->
      fft_points n <= length (firstn (fft_points n) (pad_to n s) ++ repeat n0 (fft_points n - length (pad_to n s)))).
    { intros s Hs. rewrite app_length, firstn_length, repeat_length. lia. }
    destruct (forward_returns pf (fft_points n) _ K HP (LP s2 ltac:(lia))) as (f2 & F2 & L2).
    destruct (forward_returns pf (fft_points n) _ K HP (LP s1 ltac:(lia))) as (f1 & F1 & L1).
    rewrite F2. cbn [bind]. rewrite F1. cbn [bind]. rewrite map_length, L1, L2, Nat.eqb_refl. cbn [bind].
    destruct (inverse_returns pf (fft_points n) (map (fun p => cmul (fst p) (snd p)) (combine f1 (map cconj f2))) K HP)
      as (z & Z & Lz).
    { rewrite map_length, combine_length, map_length. lia. }
    rewrite Z. cbn [bind]. eexists. split; [reflexivity|]. now rewrite map_length.
  Qed.

  Lemma lag_returns pf (s1 s2 : list T) : keeps_length pf ->
    let n := Nat.max (length s1) (length s2) in
    1 <= n -> (2 * Z.of_nat n - 1 < 2 ^ 31)%Z ->
    exists g, find_lowest_lag_index pf s1 s2 = Ret g /\ (- Z.of_nat n < g < Z.of_nat n)%Z.
  Proof.
    intros K n H1 H2. destruct (product_returns pf s1 s2 K H1 H2) as (v & V & Lv). fold n in Lv.
    destruct (fft_points_spec n H1 H2) as (P1 & P2 & _).
    unfold find_lowest_lag_index. fold n. rewrite V. cbn [bind].
    replace (_ || _) with false by (symmetry; apply orb_false_iff; split; [apply Nat.eqb_neq|apply Nat.ltb_ge]; lia).
    eexists. split; [reflexivity|].
    set (c := skipn _ _ ++ _).
    assert (Lc : length c = 2 * n - 1) by (unfold c; rewrite app_length, skipn_length, firstn_length; lia).
    assert (argmax c < length c) by (apply argmax_bound; intros E; rewrite E in Lc; cbn in Lc; lia). lia.
  Qed.
End Layout.
