(** The FFT wrappers and the cross-correlation with an ideal FFT. *)
From Coq Require Import ZArith List Bool Lia Arith Reals Lra.
From Coq Require Import ZifyBool ZifyNat.
From Verif Require Import Base.Res Base.Num Base.NumR Base.Lists Base.Cplx Model.MiscMath Model.Fft
  Spec.FftSpec Proofs.RealP Proofs.FftP Proofs.DftP.
Import ListNotations.
Open Scope R_scope.
Ltac Zify.zify_post_hook ::= Z.div_mod_to_equations.

(** the first [n] samples of a list, then silence *)
Definition padded (n : nat) (l : list R) (i : nat) : R := if Nat.ltb i n then smp l i else 0.

Lemma spectrum_ext M x y : (forall i, (i < M)%nat -> x i = y i) -> spectrum M x = spectrum M y.
Proof.
  intros H. unfold spectrum. apply map_ext. intros k. unfold dft_re, dft_im. f_equal; [|f_equal];
    apply sum_ext; intros i Hi; now rewrite H.
Qed.

Section AnyManager.
Variables (h P : nat) (fm : fft_manager).
Hypotheses (Hh : (1 <= h)%nat) (E : fm_size fm = (2 * h)%nat) (Es : fm_samples fm = P) (G : (P <= 2 * h)%nat).

Lemma forward_fm (sig : list R) : (P <= length sig)%nat ->
  forward1d ideal_fft fm sig = Ret (spectrum (2 * h) (padded P sig)).
Proof.
  intros Hl. unfold forward1d. rewrite E, Es.
  replace (_ || _) with false by (symmetry; apply orb_false_iff; split; apply Nat.ltb_ge; lia).
  cbn [pf_fwd pf_f32 ideal_fft]. rewrite map_id.
  set (buf := firstn P sig ++ _).
  assert (Lb : length buf = (2 * h)%nat) by (unfold buf; rewrite app_length, firstn_length, repeat_length; lia).
  rewrite Lb. rewrite unpack_packed by lia. f_equal. apply spectrum_ext. intros i Hi.
  unfold padded, smp, buf. destruct (Nat.ltb_spec i P).
  - rewrite app_nth1 by (rewrite firstn_length; lia). apply nth_firstn. lia.
  - rewrite app_nth2 by (rewrite firstn_length; lia). apply nth_repeat.
Qed.

Lemma inverse_fm (s : list (cplx R)) : (h < length s)%nat ->
  exists p, pack_spectrum (2 * h) s = Ret p /\ length p = (2 * h)%nat /\
  inverse1d ideal_fft fm s =
    Ret (map (fun j => (nth j (inverse_packed (2 * h) (smp p)) 0 / INR (2 * h), 0)) (seq 0 P)).
Proof.
  intros Hs. destruct (pack_spec h s Hs Hh) as (p & Q & P1 & _).
  exists p. split; [exact Q|]. split; [exact P1|]. unfold inverse1d. rewrite E, Es, Q. cbn [bind]. f_equal.
  cbn [pf_bwd pf_f32 ideal_fft]. rewrite map_id, P1, simd_spec, map_map.
  assert (LI : length (inverse_packed (2 * h) (smp p)) = (2 * h)%nat)
    by (unfold inverse_packed; now rewrite map_length, seq_length).
  apply (list_ext _ _ (0, 0)).
  - rewrite !map_length, seq_length, firstn_length, LI. lia.
  - rewrite map_length, firstn_length, LI. intros i Hi.
    rewrite (nth_map_seq _ P i) by lia.
    change (@n0 R NumR) with 0.
    set (f := fun x : R => (nmul x (ndiv n1 (nofnat (2 * h))), 0)).
    rewrite (nth_indep _ (0, 0) (f 0)) by (rewrite map_length, firstn_length, LI; lia).
    rewrite (map_nth f). rewrite nth_firstn by lia. unfold f. rewrite nofnat_INR. f_equal.
    change (nth i (inverse_packed (2 * h) (smp p)) 0 * (1 / INR (2 * h)) = nth i (inverse_packed (2 * h) (smp p)) 0 / INR (2 * h)).
    unfold Rdiv. ring.
Qed.

Lemma round_trip_fm (sig : list R) : length sig = P ->
  exists s, forward1d ideal_fft fm sig = Ret s /\ inverse1d ideal_fft fm s = Ret (map (fun x => (x, 0)) sig).
Proof.
  intros Hl. eexists. split; [apply forward_fm; lia|]. set (x := padded P sig).
  assert (Ls : length (spectrum (2 * h) x) = (2 * h)%nat) by (unfold spectrum; now rewrite map_length, seq_length).
  destruct (inverse_fm (spectrum (2 * h) x)) as (p & Q & P1 & P2); [unfold cplx; rewrite Ls; lia|].
  rewrite P2. f_equal.
  rewrite (pack_unpack h (packed_dft (2 * h) x) (spectrum (2 * h) x)) in Q;
    [|unfold packed_dft; now rewrite map_length, seq_length|lia|apply unpack_packed; lia].
  injection Q as <-.
  apply (list_ext _ _ (0, 0)); [now rewrite !map_length, seq_length|].
  rewrite map_length, seq_length. intros i Hi. rewrite nth_map_seq by exact Hi.
  rewrite inverse_packed_dft by lia.
  pose proof (map_nth (fun x : R => (x, 0 : R)) sig 0 i) as MN. cbv beta in MN. rewrite MN. f_equal. unfold x, padded, smp.
  replace (Nat.ltb i P) with true by (symmetry; apply Nat.ltb_lt; lia).
  rewrite mult_INR. change (INR 2) with 2. field. apply not_0_INR. lia.
Qed.
End AnyManager.

Lemma forward_ideal n (sig : list R) : (1 <= Z.of_nat n <= 2 ^ 31)%Z -> (n <= length sig)%nat ->
  forward1d ideal_fft (make_fft_manager n) sig =
  Ret (spectrum (fm_size (make_fft_manager n)) (padded n sig)).
Proof.
  intros Hn Hl. destruct (fm_size_even n Hn) as (h & E & Hh). pose proof (fm_size_ge n Hn) as G. rewrite E.
  rewrite E in G. apply (forward_fm h n (make_fft_manager n)); [lia|exact E|reflexivity|exact G|exact Hl].
Qed.
(** round trip *)
Lemma round_trip n (sig : list R) : (1 <= Z.of_nat n <= 2 ^ 31)%Z -> length sig = n ->
  exists s, forward1d ideal_fft (make_fft_manager n) sig = Ret s /\
            inverse1d ideal_fft (make_fft_manager n) s = Ret (map (fun x => (x, 0)) sig).
Proof.
  intros Hn Hl. destruct (fm_size_even n Hn) as (h & E & Hh). pose proof (fm_size_ge n Hn) as G.
  rewrite E in G. apply (round_trip_fm h n (make_fft_manager n)); [lia|exact E|reflexivity|exact G|exact Hl].
Qed.

(** *** correlation *)
Definition prod_bins (a b : list (cplx R)) : list (cplx R) :=
  map (fun p => cmul (fst p) (snd p)) (combine a (map cconj b)).
Lemma prod_bins_nth M x y k : (k < M)%nat ->
  nth k (prod_bins (spectrum M x) (spectrum M y)) (0, 0) =
    (dft_re M x k * dft_re M y k + dft_im M x k * dft_im M y k,
     dft_im M x k * dft_re M y k - dft_re M x k * dft_im M y k).
Proof.
  intros Hk. unfold prod_bins. set (g := fun p : cplx R * cplx R => cmul (fst p) (snd p)).
  assert (Ls : forall z, length (spectrum M z) = M) by (intros; unfold spectrum; now rewrite map_length, seq_length).
  rewrite (nth_indep _ (0, 0) (g ((0, 0), cconj (0, 0)))).
  2:{ rewrite map_length, combine_length, map_length. unfold cplx. rewrite !Ls. lia. }
  rewrite (map_nth g), combine_nth by (rewrite map_length; unfold cplx; now rewrite !Ls).
  rewrite (map_nth cconj). unfold spectrum. unfold cplx. rewrite !nth_map_seq by exact Hk.
  unfold g, cmul, cconj, cre, cim. cbn. f_equal; ring.
Qed.

Lemma dft_product_re M x y k :
  dft_re M x k * dft_re M y k + dft_im M x k * dft_im M y k =
  sum M (fun a => sum M (fun b => x a * y b * cos (angle M k a - angle M k b))).
Proof.
  unfold dft_re, dft_im. rewrite Rmult_opp_opp, !sum_prod, <- sum_plus. apply sum_ext. intros a _.
  rewrite <- sum_plus. apply sum_ext. intros b _. rewrite cos_minus. ring.
Qed.
Lemma dft_product_im M x y k :
  dft_im M x k * dft_re M y k - dft_re M x k * dft_im M y k =
  - sum M (fun a => sum M (fun b => x a * y b * sin (angle M k a - angle M k b))).
Proof.
  unfold dft_re, dft_im.
  replace (- sum M (fun n => x n * sin (angle M k n)) * sum M (fun n => y n * cos (angle M k n)) -
           sum M (fun n => x n * cos (angle M k n)) * - sum M (fun n => y n * sin (angle M k n)))
    with (- (sum M (fun n => x n * sin (angle M k n)) * sum M (fun n => y n * cos (angle M k n)) +
             (-1) * (sum M (fun n => x n * cos (angle M k n)) * sum M (fun n => y n * sin (angle M k n))))) by ring.
  f_equal. rewrite !sum_prod, <- sum_scal, <- sum_plus. apply sum_ext. intros a _.
  rewrite <- sum_scal, <- sum_plus. apply sum_ext. intros b _. rewrite sin_minus. ring.
Qed.

(** a double sum as one sum *)
Lemma sum_flat M (f : nat -> nat -> R) : (1 <= M)%nat ->
  forall n, sum n (fun a => sum M (fun b => f a b)) = sum (n * M) (fun i => f (i / M)%nat (i mod M)%nat).
Proof.
  intros HM. induction n as [|n IH]; [reflexivity|]. cbn [sum]. rewrite IH.
  assert (SS : forall m, (m <= M)%nat -> sum (n * M + m) (fun i => f (i / M)%nat (i mod M)%nat) =
    sum (n * M) (fun i => f (i / M)%nat (i mod M)%nat) + sum m (fun b => f n b)).
  { induction m as [|m IHm]; intros Hm; [rewrite Nat.add_0_r; cbn [sum]; ring|].
    rewrite Nat.add_succ_r. cbn [sum]. rewrite IHm by lia.
    replace ((n * M + m) / M)%nat with n by (symmetry; rewrite Nat.div_add_l, Nat.div_small by lia; lia).
    replace ((n * M + m) mod M)%nat with m by (rewrite Nat.add_comm, Nat.mod_add, Nat.mod_small by lia; lia).
    ring. }
  replace (S n * M)%nat with (n * M + M)%nat by lia. rewrite SS by lia. reflexivity.
Qed.

Definition circular (M : nat) (x y : nat -> R) (j : nat) : R :=
  sum M (fun b => x ((b + j) mod M)%nat * y b).

Lemma inverse_product h x y j : (1 <= h)%nat -> (j < 2 * h)%nat ->
  forall p, pack_spectrum (2 * h) (prod_bins (spectrum (2 * h) x) (spectrum (2 * h) y)) = Ret p ->
  nth j (inverse_packed (2 * h) (smp p)) 0 = 2 * INR h * circular (2 * h) x y j.
Proof.
  intros Hh Hj p Hp. set (M := (2 * h)%nat) in *.
  assert (H0 : INR h <> 0) by (apply not_0_INR; lia).
  assert (Lq : length (prod_bins (spectrum M x) (spectrum M y)) = M).
  { unfold prod_bins, spectrum. rewrite map_length, combine_length, !map_length, seq_length. lia. }
  destruct (pack_spec h (prod_bins (spectrum M x) (spectrum M y)) ltac:(lia) Hh) as (q & Q & Q1 & Q2 & Q3 & Q4).
  fold M in Q. rewrite Hp in Q. injection Q as <-. change (@n0 R NumR) with 0 in *.
  rewrite prod_bins_nth in Q2 by lia. rewrite prod_bins_nth in Q3 by lia. cbn [cre fst] in Q2, Q3.
  rewrite dft_product_re, (sum_flat M) in Q2, Q3 by lia.
  set (w := fun i => x (i / M)%nat * y (i mod M)%nat).
  set (ph := fun i => (Z.of_nat (i / M) - Z.of_nat (i mod M))%Z).
  assert (AN : forall k i, angle M k (i / M) - angle M k (i mod M) = PI * INR k * IZR (ph i) / INR h).
  { intros k i. unfold M at 1 3. rewrite !angle_h by exact Hh. unfold ph. rewrite minus_IZR, <- !INR_IZR_INZ. field. exact H0. }
  rewrite (inverse_of_phases h _ (M * M) w ph j Hh Hj).
  - assert (E : sum (M * M) (fun n => w n * kernel h (Z.of_nat j - ph n)) =
                sum M (fun a => sum M (fun b => x a * y b * kernel h (Z.of_nat j - (Z.of_nat a - Z.of_nat b))))).
    { rewrite (sum_flat M) by lia. reflexivity. }
    rewrite E, sum_exchange. unfold circular. rewrite <- sum_scal. apply sum_ext. intros b Hb.
    rewrite (sum_one M _ ((b + j) mod M)%nat).
    + assert (K : exists q, (Z.of_nat j - (Z.of_nat ((b + j) mod M) - Z.of_nat b) = q * (2 * Z.of_nat h))%Z).
      { exists (Z.of_nat ((b + j) / M)). rewrite Nat2Z.inj_div, Nat2Z.inj_mod. unfold M in *.
        rewrite Nat2Z.inj_mul. pose proof (Z.div_mod (Z.of_nat (b + j)) (2 * Z.of_nat h) ltac:(lia)) as DM.
        change (Z.of_nat 2) with 2%Z. lia. }
      destruct K as [q' ->]. rewrite kernel_mult by exact Hh. ring.
    + apply Nat.mod_upper_bound. lia.
    + intros a Ha Na. rewrite kernel_zero; [ring|exact Hh|]. intros C. apply Na.
      set (m := (2 * Z.of_nat h)%Z) in *.
      apply Z.mod_divide in C; [|lia]. destruct C as [q' C].
      assert (Z.of_nat a = (Z.of_nat (b + j)) - q' * m)%Z by lia.
      assert (MZ : Z.of_nat ((b + j) mod M) = (Z.of_nat (b + j) mod m)%Z).
      { rewrite Nat2Z.inj_mod. f_equal. unfold m, M. lia. }
      assert (Z.of_nat a = Z.of_nat (b + j) mod m)%Z; [|lia].
      apply (Z.mod_unique_pos _ _ q'); [unfold m; lia|lia].
  - unfold smp. rewrite Q2. apply sum_ext. intros i _. fold (w i). rewrite AN. cbn [INR].
    replace (PI * 0 * IZR (ph i) / INR h) with 0 by (unfold Rdiv; ring). rewrite cos_0. ring.
  - unfold smp. rewrite Q3. apply sum_ext. intros i _. fold (w i). rewrite AN. f_equal. f_equal. field. exact H0.
  - intros k Hk. unfold smp. rewrite (proj1 (Q4 k Hk)), prod_bins_nth by lia. cbn [cre fst].
    rewrite dft_product_re, (sum_flat M) by lia. apply sum_ext. intros i _. fold (w i). now rewrite AN.
  - intros k Hk. unfold smp. rewrite (proj2 (Q4 k Hk)), prod_bins_nth by lia. cbn [cim snd].
    rewrite dft_product_im, (sum_flat M) by lia. f_equal. apply sum_ext. intros i _. fold (w i). now rewrite AN.
Qed.

(** the cross-correlation values computed by the code *)
Lemma smp_out (l : list R) i : (length l <= i)%nat -> smp l i = 0.
Proof. intros H. apply nth_overflow. exact H. Qed.
Lemma smpZ_out (l : list R) z : (z < 0 \/ Z.of_nat (length l) <= z)%Z -> smpZ l z = 0.
Proof. intros H. unfold smpZ. destruct (Z.ltb_spec z 0); [reflexivity|]. apply smp_out. lia. Qed.

Lemma circular_linear M s1 s2 n j : (length s1 <= n)%nat -> (length s2 <= n)%nat -> (1 <= n)%nat -> (2 * n <= M)%nat -> (j < M)%nat ->
  circular M (smp s1) (smp s2) j =
  if Nat.leb j (M - n) then cross_correlation s1 s2 (Z.of_nat j)
  else cross_correlation s1 s2 (Z.of_nat j - Z.of_nat M).
Proof.
  intros H1 H2 Hn HM Hj. unfold circular, cross_correlation.
  rewrite (sum_extend (length s2) M) by (lia || (intros i Hi; rewrite (smp_out s2) by lia; ring)).
  destruct (Nat.leb_spec j (M - n)) as [C|C]; apply sum_ext; intros b Hb; f_equal.
  - unfold smpZ. destruct (Z.ltb_spec (Z.of_nat b + Z.of_nat j) 0); [lia|].
    rewrite Nat.mod_small by lia. f_equal. lia.
  - destruct (Nat.lt_ge_cases (b + j) M) as [D|D].
    + rewrite Nat.mod_small by lia. rewrite (smp_out s1) by lia. symmetry. apply smpZ_out. lia.
    + replace ((b + j) mod M)%nat with (b + j - M)%nat.
      * unfold smpZ. destruct (Z.ltb_spec (Z.of_nat b + (Z.of_nat j - Z.of_nat M)) 0); [lia|]. f_equal. lia.
      * symmetry. rewrite <- (Nat.mod_small (b + j - M) M) by lia. 
        replace (b + j)%nat with (b + j - M + 1 * M)%nat at 1 by lia. rewrite Nat.mod_add by lia. reflexivity.
Qed.

Lemma xcorr_fm h P fm (s1 s2 : list R) n : (1 <= h)%nat -> fm_size fm = (2 * h)%nat -> fm_samples fm = P ->
  (P <= 2 * h)%nat -> (length s1 <= n)%nat -> (length s2 <= n)%nat -> (1 <= n)%nat -> (2 * n <= P)%nat ->
  exists v,
    bind (fft_pointwise_product ideal_fft fm (pad_to n s1) (pad_to n s2) P) (inverse1d_conj_sym ideal_fft fm) = Ret v /\
    length v = P /\
    forall j, (j < P)%nat -> nth j v 0 =
      if Nat.leb j (2 * h - n) then cross_correlation s1 s2 (Z.of_nat j)
      else cross_correlation s1 s2 (Z.of_nat j - Z.of_nat (2 * h)).
Proof.
  intros Hh E Es G L1 L2 H1 H2.
  assert (FW : forall s, (length s <= n)%nat ->
    forward1d_points ideal_fft fm (pad_to n s) P = Ret (spectrum (2 * h) (smp s))).
  { intros s Hs. unfold forward1d_points. rewrite (forward_fm h P fm Hh E Es G).
    - f_equal. apply spectrum_ext. intros i Hi. unfold padded, smp, pad_to.
      assert (Lp : length (s ++ repeat n0 (n - length s)) = n) by (rewrite app_length, repeat_length; lia).
      destruct (Nat.ltb_spec i P).
      + destruct (Nat.lt_ge_cases i n).
        * rewrite app_nth1 by (rewrite firstn_length, Lp; lia). rewrite nth_firstn by lia.
          destruct (Nat.lt_ge_cases i (length s)).
          -- now rewrite app_nth1.
          -- rewrite app_nth2, (nth_overflow s) by lia. apply nth_repeat.
        * rewrite app_nth2 by (rewrite firstn_length, Lp; lia). rewrite (nth_overflow s) by lia. apply nth_repeat.
      + symmetry. apply nth_overflow. lia.
    - rewrite app_length, firstn_length, repeat_length. lia. }
  unfold fft_pointwise_product, inverse1d_conj_sym.
  rewrite (FW s2), (FW s1) by lia. cbn [bind].
  assert (Ls : forall z, length (spectrum (2 * h) z : list (cplx R)) = (2 * h)%nat)
    by (intros; unfold spectrum; now rewrite map_length, seq_length).
  rewrite map_length, !Ls, Nat.eqb_refl. cbn [bind].
  destruct (inverse_fm h P fm Hh E Es G (prod_bins (spectrum (2 * h) (smp s1)) (spectrum (2 * h) (smp s2)))) as (p & Q & Q1 & Q2).
  { unfold prod_bins. rewrite map_length, combine_length, map_length, !Ls. lia. }
  pose proof Q2 as Q3. unfold prod_bins in Q3. rewrite Q3. cbn [bind].
  eexists. split; [reflexivity|]. rewrite !map_length, seq_length. split; [reflexivity|].
  intros j Hj. rewrite map_map. rewrite nth_map_seq by exact Hj. cbn [cre fst].
  rewrite (inverse_product h _ _ j Hh ltac:(lia) p Q).
  rewrite mult_INR. change (INR 2) with 2.
  replace (2 * INR h * circular (2 * h) (smp s1) (smp s2) j / (2 * INR h)) with (circular (2 * h) (smp s1) (smp s2) j)
    by (field; apply not_0_INR; lia).
  apply circular_linear; lia.
Qed.

Lemma xcorr_values (s1 s2 : list R) n : n = Nat.max (length s1) (length s2) ->
  (1 <= n)%nat -> (2 * Z.of_nat n - 1 < 2 ^ 31)%Z ->
  exists v, inverse_fft_pointwise_product ideal_fft s1 s2 = Ret v /\ length v = fft_points n /\
    forall j, (j < fft_points n)%nat -> nth j v 0 =
      if Nat.leb j (fm_size (make_fft_manager (fft_points n)) - n) then cross_correlation s1 s2 (Z.of_nat j)
      else cross_correlation s1 s2 (Z.of_nat j - Z.of_nat (fm_size (make_fft_manager (fft_points n)))).
Proof.
  intros En H1 H2. destruct (fft_points_spec n H1 H2) as (P1 & P2 & _).
  unfold inverse_fft_pointwise_product. rewrite <- En.
  assert (HP : (1 <= Z.of_nat (fft_points n) <= 2 ^ 31)%Z) by lia.
  destruct (fm_size_even (fft_points n) HP) as (h & E & Hh). pose proof (fm_size_ge (fft_points n) HP) as G.
  assert (Es : fm_samples (make_fft_manager (fft_points n)) = fft_points n) by reflexivity.
  revert E G Es. generalize (make_fft_manager (fft_points n)). intros fm E G Es. rewrite E in G |- *.
  apply (xcorr_fm h (fft_points n) fm s1 s2 n); lia || assumption.
Qed.

(** the first maximal element *)
Lemma argmax_from_R : forall (l pre : list R) b bi,
  nth bi pre 0 = b -> (bi < length pre)%nat ->
  (forall i, (i < length pre)%nat -> nth i pre 0 <= b) -> (forall i, (i < bi)%nat -> nth i pre 0 < b) ->
  let r := argmax_from b bi (length pre) l in
  (r < length (pre ++ l))%nat /\
  (forall i, (i < length (pre ++ l))%nat -> nth i (pre ++ l) 0 <= nth r (pre ++ l) 0) /\
  (forall i, (i < r)%nat -> nth i (pre ++ l) 0 < nth r (pre ++ l) 0).
Proof.
  induction l as [|x l IH]; intros pre b bi Hb Hbi Hmax Hlt; cbn [argmax_from].
  - rewrite app_nil_r, Hb. auto.
  - replace (pre ++ x :: l) with ((pre ++ [x]) ++ l) by (rewrite <- app_assoc; reflexivity).
    assert (Lx : length (pre ++ [x]) = S (length pre)) by (rewrite app_length; cbn; lia).
    assert (Nx : nth (length pre) (pre ++ [x]) 0 = x) by (rewrite app_nth2, Nat.sub_diag by lia; reflexivity).
    rewrite <- Lx. cbn [nltb NumR]. destruct (Rltb_spec b x) as [C|C]; apply IH.
    + exact Nx.
    + lia.
    + intros i Hi. destruct (Nat.eq_dec i (length pre)) as [->|Ei]; [rewrite Nx; lra|].
      rewrite app_nth1 by lia. specialize (Hmax i ltac:(lia)). lra.
    + intros i Hi. rewrite app_nth1 by lia. specialize (Hmax i ltac:(lia)). lra.
    + now rewrite app_nth1.
    + lia.
    + intros i Hi. destruct (Nat.eq_dec i (length pre)) as [->|Ei]; [rewrite Nx; lra|].
      rewrite app_nth1 by lia. apply Hmax. lia.
    + intros i Hi. rewrite app_nth1 by lia. now apply Hlt.
Qed.
Lemma argmax_R (l : list R) : l <> [] ->
  (argmax l < length l)%nat /\ (forall i, (i < length l)%nat -> nth i l 0 <= nth (argmax l) l 0) /\
  (forall i, (i < argmax l)%nat -> nth i l 0 < nth (argmax l) l 0).
Proof.
  destruct l as [|x l]; [congruence|]. intros _. cbn [argmax].
  apply (argmax_from_R l [x] x 0); cbn; try reflexivity; try lia.
  intros i Hi. replace i with 0%nat by lia. lra.
Qed.

(** where the lags sit in the list searched *)
Lemma lag_list (v : list R) n P : length v = P -> (1 <= n)%nat -> (2 * n <= P)%nat ->
  let c := skipn (P - (n - 1)) v ++ firstn (n - 1 + 1) v in
  length c = (2 * n - 1)%nat /\
  forall i, (i < 2 * n - 1)%nat -> nth i c 0 = if Nat.ltb i (n - 1) then nth (P - (n - 1) + i) v 0 else nth (i - (n - 1)) v 0.
Proof.
  intros Lv Hn HP c. unfold c. split; [rewrite app_length, skipn_length, firstn_length; lia|].
  intros i Hi. destruct (Nat.ltb_spec i (n - 1)).
  - rewrite app_nth1 by (rewrite skipn_length; lia). apply nth_skipn.
  - rewrite app_nth2 by (rewrite skipn_length; lia). rewrite nth_firstn by (rewrite skipn_length; lia).
    f_equal. rewrite skipn_length. lia.
Qed.

Definition first_maximiser (f : Z -> R) (lo hi g : Z) : Prop :=
  (lo <= g <= hi)%Z /\ (forall g', (lo <= g' <= hi)%Z -> f g' <= f g) /\ (forall g', (lo <= g' < g)%Z -> f g' < f g).

Lemma lag_is_first_maximiser (s1 s2 : list R) :
  let n := Nat.max (length s1) (length s2) in
  (9 <= n)%nat -> (2 * Z.of_nat n - 1 < 2 ^ 31)%Z ->
  exists g, find_lowest_lag_index ideal_fft s1 s2 = Ret g /\
    first_maximiser (cross_correlation s1 s2) (- (Z.of_nat n - 1)) (Z.of_nat n - 1) g.
Proof.
  intros n H1 H2. destruct (xcorr_values s1 s2 n eq_refl ltac:(lia) H2) as (v & V & Lv & Hv).
  destruct (fft_points_spec n ltac:(lia) H2) as (P1 & P2 & P3 & _ & P5).
  assert (EM : fm_size (make_fft_manager (fft_points n)) = fft_points n).
  { unfold make_fft_manager. cbn [fm_size]. rewrite P5. lia. }
  rewrite EM in Hv. set (P := fft_points n) in *.
  unfold find_lowest_lag_index. fold n. rewrite V. cbn [bind].
  replace (_ || _) with false by (symmetry; apply orb_false_iff; split; [apply Nat.eqb_neq|apply Nat.ltb_ge]; lia).
  eexists. split; [reflexivity|]. rewrite Lv.
  destruct (lag_list v n P Lv ltac:(lia) ltac:(lia)) as [Lc Nc]. cbn zeta in Lc, Nc.
  set (c := skipn _ _ ++ _) in *.
  assert (Vc : forall i, (i < 2 * n - 1)%nat -> nth i c 0 = cross_correlation s1 s2 (Z.of_nat i - Z.of_nat (n - 1))).
  { intros i Hi. rewrite Nc by exact Hi. destruct (Nat.ltb_spec i (n - 1)).
    - rewrite Hv by lia. destruct (Nat.leb_spec (P - (n - 1) + i) (P - n)); [lia|]. f_equal. lia.
    - rewrite Hv by lia. destruct (Nat.leb_spec (i - (n - 1)) (P - n)); [|lia]. f_equal. lia. }
  destruct (argmax_R c) as (A1 & A2 & A3); [intros E; rewrite E in Lc; cbn in Lc; lia|].
  rewrite Lc in A1, A2. unfold first_maximiser. split; [lia|]. split; intros g' Hg'.
  - specialize (A2 (Z.to_nat (g' + Z.of_nat (n - 1))) ltac:(lia)). rewrite !Vc in A2 by lia.
    replace (Z.of_nat (Z.to_nat (g' + Z.of_nat (n - 1))) - Z.of_nat (n - 1))%Z with g' in A2 by lia. exact A2.
  - specialize (A3 (Z.to_nat (g' + Z.of_nat (n - 1))) ltac:(lia)). rewrite !Vc in A3 by lia.
    replace (Z.of_nat (Z.to_nat (g' + Z.of_nat (n - 1))) - Z.of_nat (n - 1))%Z with g' in A3 by lia. exact A3.
Qed.

(** up to eight samples: the negative lags are read from the wrong place and count as 0 *)
Lemma small_lags (s1 s2 : list R) :
  let n := Nat.max (length s1) (length s2) in
  (1 <= n <= 8)%nat ->
  exists g, find_lowest_lag_index ideal_fft s1 s2 = Ret g /\
    first_maximiser (fun z => if (z <? 0)%Z then 0 else cross_correlation s1 s2 z) (- (Z.of_nat n - 1)) (Z.of_nat n - 1) g.
Proof.
  intros n H1. destruct (xcorr_values s1 s2 n eq_refl ltac:(lia) ltac:(lia)) as (v & V & Lv & Hv).
  destruct (fft_points_spec n ltac:(lia) ltac:(lia)) as (P1 & P2 & _ & P4 & P5).
  assert (EM : fm_size (make_fft_manager (fft_points n)) = 32%nat).
  { unfold make_fft_manager. cbn [fm_size]. rewrite P5. lia. }
  rewrite EM in Hv. set (P := fft_points n) in *.
  unfold find_lowest_lag_index. fold n. rewrite V. cbn [bind].
  replace (_ || _) with false by (symmetry; apply orb_false_iff; split; [apply Nat.eqb_neq|apply Nat.ltb_ge]; lia).
  eexists. split; [reflexivity|]. rewrite Lv.
  destruct (lag_list v n P Lv ltac:(lia) ltac:(lia)) as [Lc Nc]. cbn zeta in Lc, Nc.
  set (c := skipn _ _ ++ _) in *.
  set (f := fun z : Z => if (z <? 0)%Z then 0 else cross_correlation s1 s2 z).
  assert (Vc : forall i, (i < 2 * n - 1)%nat -> nth i c 0 = f (Z.of_nat i - Z.of_nat (n - 1))%Z).
  { intros i Hi. rewrite Nc by exact Hi. unfold f. destruct (Nat.ltb_spec i (n - 1)).
    - rewrite Hv by lia. destruct (Nat.leb_spec (P - (n - 1) + i) (32 - n)); [|lia].
      destruct (Z.ltb_spec (Z.of_nat i - Z.of_nat (n - 1)) 0); [|lia].
      unfold cross_correlation. apply sum_zero. intros b Hb. rewrite smpZ_out; [ring|]. lia.
    - rewrite Hv by lia. destruct (Nat.leb_spec (i - (n - 1)) (32 - n)); [|lia].
      destruct (Z.ltb_spec (Z.of_nat i - Z.of_nat (n - 1)) 0); [lia|]. f_equal. lia. }
  destruct (argmax_R c) as (A1 & A2 & A3); [intros E; rewrite E in Lc; cbn in Lc; lia|].
  rewrite Lc in A1, A2. unfold first_maximiser. split; [lia|]. split; intros g' Hg'.
  - specialize (A2 (Z.to_nat (g' + Z.of_nat (n - 1))) ltac:(lia)). rewrite !Vc in A2 by lia.
    replace (Z.of_nat (Z.to_nat (g' + Z.of_nat (n - 1))) - Z.of_nat (n - 1))%Z with g' in A2 by lia. exact A2.
  - specialize (A3 (Z.to_nat (g' + Z.of_nat (n - 1))) ltac:(lia)). rewrite !Vc in A3 by lia.
    replace (Z.of_nat (Z.to_nat (g' + Z.of_nat (n - 1))) - Z.of_nat (n - 1))%Z with g' in A3 by lia. exact A3.
Qed.

(** *** the buffer layout, the other way round *)
Lemma unpack_pack h (s : list (cplx R)) : (1 <= h)%nat -> length s = (2 * h)%nat ->
  cim (nth 0 s (0, 0)) = 0 -> cim (nth h s (0, 0)) = 0 ->
  (forall k, (1 <= k < h)%nat -> nth (2 * h - k) s (0, 0) = (cre (nth k s (0, 0)), - cim (nth k s (0, 0)))) ->
  exists p, pack_spectrum (2 * h) s = Ret p /\ unpack_spectrum p = Ret s.
Proof.
  intros Hh Ls I0 Ih Sym.
  destruct (pack_spec h s ltac:(lia) Hh) as (p & P0 & P1 & P2 & P3 & P4). exists p. split; [exact P0|].
  destruct (unpack_spec h p P1 Hh) as (s' & S0 & S1 & S2 & S3 & S4 & S5). rewrite S0. f_equal.
  change (@n0 R NumR) with 0 in *.
  assert (E : forall z : R * R, (cre z, cim z) = z) by (intros []; reflexivity).
  unfold cplx in *. apply (list_ext _ _ (0, 0)); [lia|]. intros k Hk. rewrite S1 in Hk. unfold cplx in *.
  destruct (Nat.eq_dec k 0) as [->|K0]; [rewrite S2, P2; etransitivity; [|apply (E (nth 0 s (0, 0)))]; now rewrite I0|].
  destruct (Nat.eq_dec k h) as [->|K1]; [rewrite S3, P3; etransitivity; [|apply (E (nth h s (0, 0)))]; now rewrite Ih|].
  destruct (Nat.lt_ge_cases k h) as [K2|K2].
  - rewrite S4 by lia. destruct (P4 k ltac:(lia)) as [-> ->]. apply E.
  - rewrite S5 by lia. destruct (P4 (2 * h - k)%nat ltac:(lia)) as [-> ->].
    pose proof (Sym (2 * h - k)%nat ltac:(lia)) as Y. replace (2 * h - (2 * h - k))%nat with k in Y by lia. rewrite Y.
    cbn. f_equal. ring.
Qed.

Lemma size_least n : (1 <= Z.of_nat n <= 2 ^ 31)%Z ->
  exists e, (5 <= e)%Z /\ Z.of_nat (fm_size (make_fft_manager n)) = (2 ^ e)%Z /\ (Z.of_nat n <= 2 ^ e)%Z /\
    forall e', (5 <= e')%Z -> (Z.of_nat n <= 2 ^ e')%Z -> (2 ^ e <= 2 ^ e')%Z.
Proof.
  intros Hn. pose proof (fm_size_spec n Hn) as E. pose proof (fm_size_ge n Hn) as G.
  destruct (Z.le_gt_cases 5 (Z.log2_up (Z.of_nat n))) as [C|C].
  - exists (Z.log2_up (Z.of_nat n)). split; [exact C|].
    assert (32 <= 2 ^ Z.log2_up (Z.of_nat n))%Z by (change 32%Z with (2 ^ 5)%Z; apply Z.pow_le_mono_r; lia).
    split; [lia|]. split; [lia|]. intros e' H1 H2. apply Z.pow_le_mono_r; [lia|].
    apply Z.log2_up_le_pow2; lia.
  - exists 5%Z. split; [lia|].
    assert (2 ^ Z.log2_up (Z.of_nat n) <= 2 ^ 5)%Z by (apply Z.pow_le_mono_r; lia).
    change (2 ^ 5)%Z with 32%Z in *. split; [lia|]. split; [lia|]. intros e' H1 H2.
    change 32%Z with (2 ^ 5)%Z. apply Z.pow_le_mono_r; lia.
Qed.
Lemma spectrum_symmetric h x k : (1 <= h)%nat -> (1 <= k < length (spectrum (2 * h) x))%nat ->
  nth (length (spectrum (2 * h) x) - k) (spectrum (2 * h) x) (0, 0) =
  (fst (nth k (spectrum (2 * h) x) (0, 0)), - snd (nth k (spectrum (2 * h) x) (0, 0))).
Proof.
  assert (Ls : length (spectrum (2 * h) x) = (2 * h)%nat) by (unfold spectrum; now rewrite map_length, seq_length).
  rewrite Ls. intros Hh Hk. unfold spectrum. rewrite !nth_map_seq by lia. cbn [fst snd].
  destruct (dft_mirror h x k ltac:(lia) ltac:(lia)) as [-> ->]. reflexivity.
Qed.
Lemma forward_symmetric n (sig : list R) s k : (1 <= Z.of_nat n <= 2 ^ 31)%Z -> (n <= length sig)%nat ->
  forward1d ideal_fft (make_fft_manager n) sig = Ret s ->
  (1 <= k < length s)%nat -> nth (length s - k) s (0, 0) = (fst (nth k s (0, 0)), - snd (nth k s (0, 0))).
Proof.
  intros Hn Hl H. rewrite forward_ideal in H by assumption.
  destruct (fm_size_even n Hn) as (h & E & Hh). rewrite E in H.
  assert (Hs : s = spectrum (2 * h) (padded n sig)) by congruence. rewrite Hs.
  apply spectrum_symmetric. apply Nat.le_trans with 16%nat; [repeat constructor|exact Hh].
Qed.
Lemma forward_bins n (sig : list R) : (1 <= Z.of_nat n <= 2 ^ 31)%Z -> (n <= length sig)%nat ->
  let M := fm_size (make_fft_manager n) in
  let x := fun i => if Nat.ltb i n then smp sig i else 0 in
  forward1d ideal_fft (make_fft_manager n) sig = Ret (map (fun k => (dft_re M x k, dft_im M x k)) (seq 0 M)).
Proof.
  intros Hn Hl. cbv zeta. rewrite forward_ideal by assumption. unfold spectrum, padded. reflexivity.
Qed.
