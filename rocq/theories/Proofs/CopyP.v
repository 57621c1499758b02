(** The lag of a delayed copy (C95). *)
From Coq Require Import ZArith List Bool Reals Lra Lia Arith.
From Verif Require Import Base.Res Base.Num Base.NumR Base.Lists Model.Amatrix Model.MiscMath Model.Fft Model.FilterBank Model.Alignment
  Spec.AlignSpec Spec.FftSpec Spec.EnvelopeSpec Spec.CopySpec Proofs.FftP Proofs.DftP Proofs.XcorrP Proofs.EnvelopeP Proofs.AlignP Proofs.AlignCasesP Proofs.SelfLagP.
Import ListNotations.
Open Scope R_scope.

(** *** sums *)
Lemma sum_app a b f : sum (a + b) f = sum a f + sum b (fun i => f (a + i)%nat).
Proof. induction b as [|b IH]; [rewrite Nat.add_0_r; cbn [sum]; ring|]. rewrite Nat.add_succ_r. cbn [sum]. rewrite IH. ring. Qed.
Lemma sum_le n f g : (forall i, (i < n)%nat -> f i <= g i) -> sum n f <= sum n g.
Proof. induction n as [|n IH]; intros H; cbn [sum]; [lra|]. pose proof (H n ltac:(lia)). pose proof (IH ltac:(intros; apply H; lia)). lra. Qed.
Lemma sum_pos n f : (forall i, (i < n)%nat -> 0 <= f i) -> 0 <= sum n f.
Proof. intros H. pose proof (sum_le n (fun _ => 0) f H). rewrite (sum_zero n (fun _ => 0)) in H0 by reflexivity. exact H0. Qed.
Lemma sum_at n f k : (forall i, (i < n)%nat -> 0 <= f i) -> (k < n)%nat -> f k <= sum n f.
Proof.
  intros H Hk. induction n as [|n IH]; [lia|]. cbn [sum]. destruct (Nat.eq_dec k n) as [->|].
  - pose proof (sum_pos n f ltac:(intros; apply H; lia)). lra.
  - pose proof (H n ltac:(lia)). pose proof (IH ltac:(intros; apply H; lia) ltac:(lia)). lra.
Qed.
Lemma sum_more n m f : (n <= m)%nat -> (forall i, 0 <= f i) -> sum n f <= sum m f.
Proof. intros L H. replace m with (n + (m - n))%nat by lia. rewrite sum_app. pose proof (sum_pos (m - n) (fun i => f (n + i)%nat) ltac:(intros; apply H)). lra. Qed.

(** the squares seen through a shifted window are at most all squares *)
Lemma window_energy (l : list R) m g : sum m (fun b => smpZ l (Z.of_nat b + g) * smpZ l (Z.of_nat b + g)) <= sum (length l) (fun i => smp l i * smp l i).
Proof.
  assert (SQ : forall r : R, 0 <= r * r) by (intros; apply Rle_0_sqr).
  assert (UP : forall n, sum n (fun i => smp l i * smp l i) <= sum (length l) (fun i => smp l i * smp l i)).
  { intros n. destruct (le_lt_dec n (length l)) as [H|H]; [apply sum_more; [exact H|intros; apply SQ]|].
    rewrite (sum_extend (length l) n) by (try lia; intros i Hi; rewrite smp_out by lia; ring). lra. }
  destruct (Z.le_gt_cases 0 g) as [G|G].
  - apply Rle_trans with (2 := UP (Z.to_nat g + m)%nat). rewrite sum_app. pose proof (sum_pos (Z.to_nat g) (fun i => smp l i * smp l i) ltac:(intros; apply SQ)).
    rewrite (sum_ext m _ (fun i => smp l (Z.to_nat g + i) * smp l (Z.to_nat g + i))); [lra|]. intros i _. unfold smpZ. destruct (Z.ltb_spec (Z.of_nat i + g) 0); [lia|].
    replace (Z.to_nat (Z.of_nat i + g)) with (Z.to_nat g + i)%nat by lia. reflexivity.
  - destruct (le_lt_dec m (Z.to_nat (- g))) as [H|H].
    + rewrite sum_zero; [apply sum_pos; intros; apply SQ|]. intros i Hi. unfold smpZ. destruct (Z.ltb_spec (Z.of_nat i + g) 0); [ring|lia].
    + replace m with (Z.to_nat (- g) + (m - Z.to_nat (- g)))%nat at 1 by lia. rewrite sum_app. rewrite sum_zero; [|intros i Hi; unfold smpZ; destruct (Z.ltb_spec (Z.of_nat i + g) 0); [ring|lia]].
      rewrite Rplus_0_l. rewrite (sum_ext _ _ (fun i => smp l i * smp l i)); [apply UP|]. intros i _. unfold smpZ. destruct (Z.ltb_spec (Z.of_nat (Z.to_nat (- g) + i) + g) 0); [lia|].
      replace (Z.to_nat (Z.of_nat (Z.to_nat (- g) + i) + g)) with i by lia. reflexivity.
Qed.

(** *** placed sounds *)
Lemma placed_length p x q : length (placed p x q) = (p + length x + q)%nat.
Proof. unfold placed. rewrite !app_length, !repeat_length. lia. Qed.
Lemma placed_smp p x q i : smp (placed p x q) i = if Nat.ltb i p then 0 else smp x (i - p).
Proof.
  unfold smp, placed. destruct (Nat.ltb_spec i p) as [H|H].
  - rewrite app_nth1 by (rewrite repeat_length; lia). apply nth_repeat.
  - rewrite app_nth2 by (rewrite repeat_length; lia). rewrite repeat_length. destruct (le_lt_dec (length x) (i - p)) as [L|L].
    + rewrite app_nth2 by lia. rewrite nth_repeat. symmetry. apply nth_overflow. exact L.
    + now rewrite app_nth1.
Qed.
Lemma placed_sum p x q (F : nat -> R -> R) : (forall i, F i 0 = 0) ->
  sum (length (placed p x q)) (fun i => F i (smp (placed p x q) i)) = sum (length x) (fun i => F (p + i)%nat (smp x i)).
Proof.
  intros H. rewrite placed_length, sum_app, sum_app. rewrite (sum_zero p). 2:{ intros i Hi. rewrite placed_smp. destruct (Nat.ltb_spec i p); [apply H|lia]. }
  rewrite (sum_zero q). 2:{ intros i Hi. rewrite placed_smp. destruct (Nat.ltb_spec (p + length x + i) p); [lia|]. rewrite smp_out by lia. apply H. }
  rewrite Rplus_0_l, Rplus_0_r. apply sum_ext. intros i Hi. rewrite placed_smp. destruct (Nat.ltb_spec (p + i) p); [lia|]. replace (p + i - p)%nat with i by lia. reflexivity.
Qed.
Lemma placed_balanced p x q : balanced x -> balanced (placed p x q).
Proof.
  intros [H1 H2]. split.
  - rewrite <- H1. exact (placed_sum p x q (fun _ v => v) (fun _ => eq_refl)).
  - rewrite (placed_sum p x q (fun i v => (-1) ^ i * v)) by (intros; ring). rewrite (sum_ext _ _ (fun i => (-1) ^ p * ((-1) ^ i * smp x i))) by (intros; rewrite pow_add; ring).
    rewrite sum_scal, H2. ring.
Qed.
Lemma map_repeat_c {A B} (f : A -> B) v n : map f (repeat v n) = repeat (f v) n.
Proof. induction n as [|n IH]; [reflexivity|]. cbn [repeat map]. now rewrite IH. Qed.
Lemma placed_map p x q (f : R -> R) : f 0 = 0 -> map f (placed p x q) = placed p (map f x) q.
Proof. intros H. unfold placed. rewrite !map_app, !map_repeat_c, H. reflexivity. Qed.
Lemma balanced_scale c x : balanced x -> balanced (map (Rmult c) x).
Proof.
  intros [H1 H2]. assert (E : forall i, smp (map (Rmult c) x) i = c * smp x i).
  { intros i. unfold smp. rewrite <- (map_nth (Rmult c)). f_equal. ring. }
  split; rewrite map_length.
  - rewrite (sum_ext _ _ (fun i => c * smp x i)) by (intros; apply E). rewrite sum_scal, H1. ring.
  - rewrite (sum_ext _ _ (fun i => c * ((-1) ^ i * smp x i))) by (intros; rewrite E; ring). rewrite sum_scal, H2. ring.
Qed.

(** the envelope of a balanced signal *)
Lemma balanced_envelope s : balanced s -> (1 <= length s)%nat -> rectified s = map (fun v => 2 * Rabs v) s.
Proof.
  intros [H1 H2] HL. assert (A : average s = 0) by (unfold average; rewrite H1; unfold Rdiv; ring).
  assert (C : forall i, centred s i = smp s i). { intros i. unfold centred. rewrite A. destruct (Nat.ltb_spec i (length s)); [ring|]. now rewrite smp_out. }
  assert (AL : alternating s = 0). { unfold alternating. rewrite <- H2. apply sum_ext. intros i _. now rewrite C. }
  apply (nth_ext _ _ 0 (2 * Rabs 0)); [unfold rectified; now rewrite !map_length, seq_length|]. intros i Hi. unfold rectified in Hi. rewrite map_length, seq_length in Hi.
  rewrite (map_nth (fun v => 2 * Rabs v)). pose proof (rectified_nth s i Hi) as E. cbv zeta in E. rewrite E. rewrite A, AL, C. unfold Rdiv.
  match goal with |- Rabs ?z + 0 = _ => replace z with (2 * smp s i) by (destruct (Nat.eqb _ _); ring) end.
  rewrite Rabs_mult, (Rabs_pos_eq 2) by lra. unfold smp. ring.
Qed.

(** *** the correlation of a sound with a copy of itself *)
Lemma first_last (x : list R) : audible x -> exists a b, (a < length x)%nat /\ (b < length x)%nat /\ smp x a <> 0 /\ smp x b <> 0 /\
  (forall i, (i < a)%nat -> smp x i = 0) /\ (forall i, (b < i)%nat -> smp x i = 0).
Proof.
  intros [i0 H0].
  assert (FA : exists a, smp x a <> 0 /\ forall i, (i < a)%nat -> smp x i = 0).
  { revert H0. induction i0 as [i0 IH] using lt_wf_ind. intros H0.
    assert (D : (exists i, (i < i0)%nat /\ smp x i <> 0) \/ (forall i, (i < i0)%nat -> smp x i = 0)).
    { clear. induction i0 as [|n IH]; [right; lia|]. destruct IH as [(i & Hi & N)|A]; [left; exists i; split; [lia|exact N]|].
      destruct (Req_dec (smp x n) 0) as [E|E]; [right; intros i Hi; destruct (Nat.eq_dec i n) as [->|]; [exact E|apply A; lia]|left; exists n; split; [lia|exact E]]. }
    destruct D as [(i & Hi & N)|A]; [apply (IH i Hi N)|exists i0; split; assumption]. }
  assert (FB : exists b, smp x b <> 0 /\ forall i, (b < i)%nat -> smp x i = 0).
  { assert (G : forall d, (forall i, (length x - d <= i)%nat -> smp x i = 0) \/ exists b, smp x b <> 0 /\ forall i, (b < i)%nat -> smp x i = 0).
    { induction d as [|d [A|B]]; [left; intros i Hi; apply smp_out; lia| |now right].
      destruct (Req_dec (smp x (length x - S d)) 0) as [E|E].
      - left. intros i Hi. destruct (Nat.eq_dec i (length x - S d)) as [->|]; [exact E|apply A; lia].
      - right. exists (length x - S d)%nat. split; [exact E|]. intros i Hi. apply A. lia. }
    destruct (G (length x)) as [A|B]; [|exact B]. exfalso. apply H0, A. lia. }
  destruct FA as (a & A1 & A2). destruct FB as (b & B1 & B2). exists a, b.
  assert (L : forall i, smp x i <> 0 -> (i < length x)%nat) by (intros i N; destruct (lt_dec i (length x)) as [l|l]; [exact l|exfalso; apply N, smp_out; lia]).
  repeat split; auto.
Qed.

Lemma placed_smpZ p x q z : smpZ (placed p x q) z = smpZ x (z - Z.of_nat p).
Proof.
  unfold smpZ. destruct (Z.ltb_spec z 0).
  - destruct (Z.ltb_spec (z - Z.of_nat p) 0); [reflexivity|lia].
  - rewrite placed_smp. destruct (Nat.ltb_spec (Z.to_nat z) p); destruct (Z.ltb_spec (z - Z.of_nat p) 0); try lia; [reflexivity|]. f_equal. lia.
Qed.
Lemma smpZ_nat l i : smpZ l (Z.of_nat i) = smp l i.
Proof. unfold smpZ. destruct (Z.ltb_spec (Z.of_nat i) 0); [lia|]. now rewrite Nat2Z.id. Qed.

Lemma copy_at_lag a p q k j : cross_correlation (placed p a q) (placed k a j) (Z.of_nat p - Z.of_nat k) = sum (length a) (fun i => smp a i * smp a i).
Proof.
  unfold cross_correlation.
  rewrite (placed_sum k a j (fun b v => smpZ (placed p a q) (Z.of_nat b + (Z.of_nat p - Z.of_nat k)) * v)) by (intros; ring).
  apply sum_ext. intros i Hi. rewrite placed_smpZ. replace (Z.of_nat (k + i) + (Z.of_nat p - Z.of_nat k) - Z.of_nat p)%Z with (Z.of_nat i) by lia. now rewrite smpZ_nat.
Qed.
Lemma copy_other_lag a p q k j g : audible a -> g <> (Z.of_nat p - Z.of_nat k)%Z ->
  cross_correlation (placed p a q) (placed k a j) g < sum (length a) (fun i => smp a i * smp a i).
Proof.
  intros HA HG. destruct (first_last a HA) as (fa & la & L1 & L2 & N1 & N2 & Z1 & Z2). unfold cross_correlation. set (s1 := placed p a q). set (s2 := placed k a j). set (E := sum (length a) _).
  assert (E1 : sum (length s1) (fun i => smp s1 i * smp s1 i) = E) by (unfold s1; rewrite (placed_sum p a q (fun _ v => v * v)) by (intros; ring); reflexivity).
  assert (E2 : sum (length s2) (fun i => smp s2 i * smp s2 i) = E) by (unfold s2; rewrite (placed_sum k a j (fun _ v => v * v)) by (intros; ring); reflexivity).
  pose proof (window_energy s1 (length s2) g) as W. rewrite E1 in W.
  set (rr := fun b => smpZ s1 (Z.of_nat b + g)) in *. set (dd := smp s2) in *.
  assert (ID : sum (length s2) (fun b => (rr b - dd b) * (rr b - dd b)) = sum (length s2) (fun b => rr b * rr b) + sum (length s2) (fun b => dd b * dd b) - 2 * sum (length s2) (fun b => rr b * dd b)).
  { rewrite (sum_ext _ _ (fun b => (rr b * rr b + dd b * dd b) + (-2) * (rr b * dd b))) by (intros; ring). rewrite !sum_plus, sum_scal. ring. }
  assert (B : exists b, (b < length s2)%nat /\ rr b = 0 /\ dd b <> 0).
  { destruct (Z_lt_le_dec g (Z.of_nat p - Z.of_nat k)) as [H|H].
    - exists (k + fa)%nat. split; [unfold s2; rewrite placed_length; lia|]. split.
      + unfold rr, s1. rewrite placed_smpZ. unfold smpZ. destruct (Z.ltb_spec (Z.of_nat (k + fa) + g - Z.of_nat p) 0); [reflexivity|]. apply Z1. lia.
      + unfold dd, s2. rewrite placed_smp. destruct (Nat.ltb_spec (k + fa) k); [lia|]. replace (k + fa - k)%nat with fa by lia. exact N1.
    - exists (k + la)%nat. split; [unfold s2; rewrite placed_length; lia|]. split.
      + unfold rr, s1. rewrite placed_smpZ. unfold smpZ. destruct (Z.ltb_spec (Z.of_nat (k + la) + g - Z.of_nat p) 0); [reflexivity|]. apply Z2. lia.
      + unfold dd, s2. rewrite placed_smp. destruct (Nat.ltb_spec (k + la) k); [lia|]. replace (k + la - k)%nat with la by lia. exact N2. }
  destruct B as (b & Hb & B0 & B1). pose proof (sum_at (length s2) (fun b => (rr b - dd b) * (rr b - dd b)) b ltac:(intros; apply Rle_0_sqr) Hb) as P. cbv beta in P. rewrite B0 in P.
  assert (0 < (0 - dd b) * (0 - dd b)) by (replace ((0 - dd b) * (0 - dd b)) with (dd b * dd b) by ring; exact (Rsqr_pos_lt _ B1)).
  change (sum (length s2) (fun i => dd i * dd i) = E) in E2. change (sum (length s2) (fun b => rr b * rr b) <= E) in W.
  change (sum (length s2) (fun b => rr b * dd b) < E). lra.
Qed.

Lemma correlation_scale s1 s2 c g : cross_correlation s1 (map (Rmult c) s2) g = c * cross_correlation s1 s2 g.
Proof.
  unfold cross_correlation. rewrite map_length, <- sum_scal. apply sum_ext. intros b _.
  replace (smp (map (Rmult c) s2) b) with (c * smp s2 b); [ring|]. unfold smp. rewrite <- (map_nth (Rmult c)). f_equal. ring.
Qed.

(** shifting the copy to the place of the sound in the reference *)
Lemma copy_shift p q k j (x y : list R) sr sr' : length x = length y -> (1 <= length x)%nat ->
  (2 * Z.abs (Z.of_nat p - Z.of_nat k) <= Z.of_nat (p + length x + q))%Z -> (Z.of_nat (k + length x + j) < 2 ^ 30)%Z -> (Z.of_nat (p + length x + q) < 2 ^ 30)%Z ->
  apply_lag (MkAudio (placed p x q) sr) (MkAudio (placed k y j) sr') (Z.of_nat p - Z.of_nat k) =
  Ret (MkAudio (placed p y j) sr', IZR (Z.of_nat p - Z.of_nat k) / IZR sr').
Proof.
  intros HL H1 H2 H3 H4. unfold apply_lag, nofnat. cbn [au_data au_sr]. rewrite (half_exact_R (2 ^ 53)) by (rewrite ?placed_length; lia). rewrite !placed_length.
  destruct (Z.eqb_spec (Z.of_nat p - Z.of_nat k) 0) as [E|E]; cbn [orb].
  { assert (p = k) as -> by lia. rewrite Z.sub_diag. change (@n0 R NumR) with 0. do 3 f_equal. unfold Rdiv. ring. }
  destruct (Z.ltb_spec (Z.of_nat (p + length x + q)) (2 * Z.abs (Z.of_nat p - Z.of_nat k))) as [C|_]; [lia|].
  destruct (Z.ltb_spec (Z.of_nat p - Z.of_nat k) 0) as [C|C].
  - unfold v_rows. rewrite placed_length. unfold size_of. rewrite Z.mod_small by (unfold two64; lia).
    destruct (Z.leb_spec (Z.abs (Z.of_nat p - Z.of_nat k)) (Z.of_nat (k + length y + j) - 1)) as [_|B]; [|lia].
    destruct (Z.ltb_spec (Z.of_nat (k + length y + j) - 1) (Z.of_nat (k + length y + j))) as [_|B]; [|lia].
    destruct (Z.leb_spec 0 (Z.abs (Z.of_nat p - Z.of_nat k))) as [_|B]; [|lia]. cbn [andb bind].
    replace (Z.to_nat (Z.abs (Z.of_nat p - Z.of_nat k))) with (k - p)%nat by lia.
    rewrite firstn_all2 by (rewrite skipn_length, placed_length; lia).
    replace (skipn (k - p) (placed k y j)) with (placed p y j); [reflexivity|].
    unfold placed. rewrite skipn_app, repeat_length. replace (k - p - k)%nat with 0%nat by lia. cbn [skipn]. f_equal.
    replace k with ((k - p) + p)%nat at 2 by lia. rewrite repeat_app, skipn_app, repeat_length, Nat.sub_diag. cbn [skipn].
    rewrite skipn_all2 by (rewrite repeat_length; lia). reflexivity.
  - cbn [bind]. replace (repeat n0 (Z.to_nat (Z.of_nat p - Z.of_nat k)) ++ placed k y j) with (placed p y j); [reflexivity|].
    unfold placed. change (@n0 R NumR) with 0. rewrite (app_assoc (repeat 0 (Z.to_nat _)) (repeat 0 k)), <- repeat_app. f_equal. f_equal. lia.
Qed.

Lemma copy_aligned p q k j (x : list R) c sr sr' : balanced x -> audible x -> c <> 0 ->
  (9 <= Nat.max (p + length x + q) (k + length x + j))%nat -> (Z.of_nat (p + length x + q) < 2 ^ 30)%Z -> (Z.of_nat (k + length x + j) < 2 ^ 30)%Z ->
  (2 * Z.abs (Z.of_nat p - Z.of_nat k) <= Z.of_nat (p + length x + q))%Z ->
  globally_align ideal_fft (MkAudio (placed p x q) sr) (MkAudio (placed k (map (Rmult c) x) j) sr') =
  Ret (MkAudio (placed p (map (Rmult c) x) j) sr', IZR (Z.of_nat p - Z.of_nat k) / IZR sr').
Proof.
  intros HB HA HC H9 Hr Hd Hh. unfold globally_align. cbn [au_data].
  assert (L1 : (1 <= length x)%nat). { destruct HA as [i Hi]. destruct x as [|v x]; [|cbn; lia]. exfalso. apply Hi. apply smp_out. cbn; lia. }
  assert (LR := placed_length p x q). assert (LD := placed_length k (map (Rmult c) x) j). rewrite map_length in LD.
  rewrite (envelope_rectified (placed p x q)) by (rewrite LR; lia). rewrite (envelope_rectified (placed k (map (Rmult c) x) j)) by (rewrite LD; lia). cbn [bind].
  rewrite (balanced_envelope (placed p x q)) by (try (rewrite LR; lia); apply placed_balanced, HB).
  rewrite (balanced_envelope (placed k (map (Rmult c) x) j)) by (try (rewrite LD; lia); apply placed_balanced, balanced_scale, HB).
  rewrite !placed_map by (rewrite Rabs_R0; ring). set (a := map (fun v => 2 * Rabs v) x).
  replace (placed k (map (fun v => 2 * Rabs v) (map (Rmult c) x)) j) with (map (Rmult (Rabs c)) (placed k a j)).
  2:{ rewrite placed_map by ring. f_equal. unfold a. rewrite !map_map. apply map_ext. intros v. rewrite Rabs_mult. ring. }
  assert (La : length a = length x) by (unfold a; apply map_length).
  assert (AU : audible a). { destruct HA as [i Hi]. exists i. unfold smp, a. rewrite (nth_indep _ 0 (2 * Rabs 0)). 2:{ rewrite map_length. destruct (lt_dec i (length x)) as [l|l]; [exact l|]. exfalso. apply Hi, smp_out. lia. }
    rewrite (map_nth (fun v => 2 * Rabs v)). pose proof (Rabs_pos_lt _ Hi) as P. unfold smp in P. lra. }
  assert (CP : 0 < Rabs c) by now apply Rabs_pos_lt.
  destruct (lag_is_first_maximiser (placed p a q) (map (Rmult (Rabs c)) (placed k a j))) as (g & G & GM); [rewrite map_length, !placed_length, La; lia|rewrite map_length, !placed_length, La; lia|].
  rewrite G. cbn [bind].
  assert (GE : g = (Z.of_nat p - Z.of_nat k)%Z).
  { destruct (Z.eq_dec g (Z.of_nat p - Z.of_nat k)) as [|N]; [assumption|]. exfalso. destruct GM as (_ & M & _).
    specialize (M (Z.of_nat p - Z.of_nat k)%Z). rewrite map_length, !placed_length, La in M. specialize (M ltac:(lia)).
    rewrite !correlation_scale, copy_at_lag in M. pose proof (copy_other_lag a p q k j g AU N) as B. apply Rmult_lt_compat_l with (1 := CP) in B. lra. }
  subst g. apply copy_shift; rewrite ?map_length; try lia.
Qed.

(** the delayed copy of a whole recording *)
Lemma delayed_copy (x : list R) k sr sr' : balanced x -> audible x -> (9 <= length x + k)%nat -> (Z.of_nat (length x + k) < 2 ^ 30)%Z -> (2 * k <= length x)%nat ->
  align_and_truncate ideal_fft (MkAudio x sr) (MkAudio (repeat 0 k ++ x) sr') = Ret (MkAudio x sr, MkAudio x sr', - (INR k / IZR sr')).
Proof.
  intros HB HA H9 H30 Hk. pose proof (copy_aligned 0 0 k 0 x 1 sr sr' HB HA ltac:(lra) ltac:(lia) ltac:(lia) ltac:(lia) ltac:(lia)) as G.
  replace (map (Rmult 1) x) with x in G by (symmetry; rewrite <- (map_id x) at 2; apply map_ext; intros; ring).
  unfold placed in G. cbn [repeat app] in G. rewrite app_nil_r in G. unfold align_and_truncate. rewrite G. cbn [bind]. unfold truncate_aligned. cbn [au_data au_sr]. rewrite Z.ltb_irrefl. cbn [bind].
  do 2 f_equal. rewrite Z.sub_0_l, opp_IZR, <- INR_IZR_INZ. unfold Rdiv. ring.
Qed.

(** *** a sound with a constant part *)
Definition ones12 : list R := repeat 1 12.
Definition late_ones : list R := placed 2 ones12 0.
Lemma late_average : average late_ones = 6 / 7.
Proof. unfold average, late_ones, ones12, placed, smp. cbn [repeat app length sum nth]. rewrite INR_IZR_INZ. cbn. lra. Qed.
Lemma late_alternating : alternating late_ones = 0.
Proof.
  unfold alternating. rewrite (sum_ext _ _ (fun i => (-1) ^ i * (smp late_ones i - 6 / 7))).
  - unfold late_ones, ones12, placed, smp. cbn [repeat app length sum nth]. cbn [pow]. lra.
  - intros i Hi. unfold centred. rewrite late_average. destruct (Nat.ltb_spec i (length late_ones)); [reflexivity|lia].
Qed.
Lemma late_envelope : rectified late_ones = repeat (18 / 7) 2 ++ repeat (8 / 7) 12.
Proof.
  apply (nth_ext _ _ 0 0); [unfold rectified, late_ones; rewrite map_length, seq_length; reflexivity|]. intros i Hi. unfold rectified in Hi. rewrite map_length, seq_length in Hi.
  pose proof (rectified_nth late_ones i Hi) as E. cbv zeta in E. rewrite E. rewrite late_average, late_alternating.
  replace (Rabs _) with (Rabs (2 * (smp late_ones i - 6 / 7))).
  2:{ f_equal. unfold centred. rewrite late_average. destruct (Nat.ltb_spec i (length late_ones)); [|lia]. unfold Rdiv. ring. }
  clear E. change (length late_ones) with 14%nat in Hi. do 14 (destruct i as [|i]; [unfold smp; cbn; unfold Rabs; destruct (Rcase_abs _); lra|]). lia.
Qed.
Lemma ones_envelope : rectified ones12 = ones12.
Proof.
  assert (A : average ones12 = 1) by (unfold average, ones12, smp; cbn [repeat length sum nth]; rewrite INR_IZR_INZ; cbn; lra).
  assert (C : forall i, centred ones12 i = 0). { intros i. unfold centred. rewrite A. destruct (Nat.ltb_spec i (length ones12)) as [H|H]; [|reflexivity]. change (length ones12) with 12%nat in H. do 12 (destruct i as [|i]; [unfold smp; cbn; ring|]). lia. }
  assert (AL : alternating ones12 = 0) by (unfold alternating; apply sum_zero; intros i _; rewrite C; ring).
  apply (nth_ext _ _ 0 0); [unfold rectified; rewrite map_length, seq_length; reflexivity|]. intros i Hi. unfold rectified in Hi. rewrite map_length, seq_length in Hi.
  pose proof (rectified_nth ones12 i Hi) as E. cbv zeta in E. rewrite E, A, AL, C. replace (Rabs _) with (Rabs 0) by (f_equal; unfold Rdiv; ring). rewrite Rabs_R0.
  change (length ones12) with 12%nat in Hi. do 12 (destruct i as [|i]; [cbn; ring|]). lia.
Qed.
Lemma ones_not_aligned : exists d t, globally_align ideal_fft (MkAudio ones12 1) (MkAudio late_ones 1) = Ret (d, t) /\ t <> -2.
Proof.
  unfold globally_align. cbn [au_data]. rewrite (envelope_rectified ones12) by (cbn; lia). rewrite (envelope_rectified late_ones) by (cbn; lia). cbn [bind]. rewrite late_envelope, ones_envelope.
  destruct (lag_is_first_maximiser ones12 (repeat (18 / 7) 2 ++ repeat (8 / 7) 12)) as (g & G & GM); [cbn; lia|cbn; lia|]. rewrite G. cbn [bind].
  assert (NG : g <> (-2)%Z).
  { intros ->. destruct GM as (_ & M & _). specialize (M 0%Z ltac:(cbn; lia)). unfold cross_correlation, ones12, smp, smpZ in M.
    cbn [repeat app length sum Z.of_nat Z.add Z.ltb Z.compare] in M. cbn in M. unfold smp in M.
    repeat match type of M with context [Pos.to_nat ?p] => let v := eval compute in (Pos.to_nat p) in change (Pos.to_nat p) with v in M end. cbn in M. lra. }
  unfold apply_lag. cbn [au_data au_sr]. destruct (_ || _)%bool eqn:O; [do 2 eexists; split; [reflexivity|]; change (@n0 R NumR) with 0; lra|].
  destruct GM as (B & _). change (length ones12) with 12%nat in *. change (length late_ones) with 14%nat in *.
  assert (V : forall s, (0 <= s <= 13)%Z -> exists m, v_rows late_ones s (size_of (Z.of_nat 14 - 1)) = Ret m).
  { intros s Hs. unfold v_rows. change (size_of (Z.of_nat 14 - 1)) with 13%Z. change (Z.of_nat (length late_ones)) with 14%Z. destruct (Z.leb_spec s 13); [|lia]. destruct (Z.leb_spec 0 s); [|lia]. cbn. eauto. }
  cbn in B. destruct (Z.ltb_spec g 0).
  - destruct (V (Z.abs g) ltac:(lia)) as (m & ->). cbn [bind]. do 2 eexists. split; [reflexivity|]. cbn [ndiv nofZ NumR]. intros K. apply NG. apply eq_IZR. lra.
  - cbn [bind]. do 2 eexists. split; [reflexivity|]. cbn [ndiv nofZ NumR]. intros K. apply NG. apply eq_IZR. lra.
Qed.
Lemma constant_part : exists x k, audible x /\ (9 <= length x)%nat /\ (2 * k <= length x)%nat /\
  exists d t, globally_align ideal_fft (MkAudio x 1) (MkAudio (placed k x 0) 1) = Ret (d, t) /\ t <> - INR k.
Proof.
  exists ones12, 2%nat. split; [exists 0%nat; cbv; lra|]. split; [cbn; lia|]. split; [cbn; lia|]. destruct ones_not_aligned as (d & t & E & N). exists d, t. split; [exact E|]. cbn [INR]. lra.
Qed.

(** a balanced sound *)
Definition blip : list R := [0; 1; 0; -1; 0; 3; 0; -3].
Lemma blip_balanced : balanced blip /\ audible blip.
Proof. repeat split; [unfold smp; cbn; lra|unfold smp; cbn; lra|exists 1%nat; unfold smp; cbn; lra]. Qed.
