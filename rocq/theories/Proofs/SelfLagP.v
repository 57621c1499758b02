(** A signal compared with itself is aligned at lag 0 (for C82). *)
From Coq Require Import ZArith List Bool Reals Lra Lia.
From Coq Require Import ZifyBool ZifyNat.
From Verif Require Import Base.Res Base.Num Base.NumR Base.Lists Model.Fft Model.FilterBank Model.Alignment
  Spec.FftSpec Spec.FineSpec Proofs.RealP Proofs.FftP Proofs.DftP Proofs.XcorrP.
Import ListNotations.
Open Scope R_scope.

Section Shift.
  Variables (f : Z -> R) (n : nat).
  Hypotheses (Hp : forall z, 0 <= f z) (Ho : forall z, (z < 0 \/ Z.of_nat n <= z)%Z -> f z = 0).
  Let F (k : nat) : R := sum k (fun b => f (Z.of_nat b)).
  Lemma F_mono a b : (a <= b)%nat -> F a <= F b.
  Proof. induction 1 as [|b H IH]; [lra|]. unfold F in *. cbn [sum]. pose proof (Hp (Z.of_nat b)). lra. Qed.
  Lemma F_top a : F a <= F n.
  Proof.
    destruct (Nat.le_ge_cases a n) as [H|H]; [now apply F_mono|].
    assert (E : forall k, F (n + k) = F n).
    { induction k as [|k IH]; [now rewrite Nat.add_0_r|]. rewrite Nat.add_succ_r. unfold F in *. cbn [sum]. rewrite IH, Ho by lia. lra. }
    replace a with (n + (a - n))%nat by lia. rewrite E. lra.
  Qed.
  Lemma shift_le m g : sum m (fun b => f (Z.of_nat b + g)) <= F n.
  Proof.
    assert (H : sum m (fun b => f (Z.of_nat b + g)) <= F (Z.to_nat (Z.of_nat m + g))).
    { induction m as [|m IH]; [unfold F; cbn [sum]; apply (F_mono 0); lia|]. cbn [sum].
      destruct (Z.lt_ge_cases (Z.of_nat m + g) 0) as [C|C].
      - rewrite (Ho (Z.of_nat m + g)) by lia. pose proof (F_mono (Z.to_nat (Z.of_nat m + g)) (Z.to_nat (Z.of_nat (S m) + g)) ltac:(lia)). lra.
      - replace (Z.to_nat (Z.of_nat (S m) + g)) with (S (Z.to_nat (Z.of_nat m + g))) by lia. unfold F in *. cbn [sum].
        rewrite Z2Nat.id by lia. lra. }
    pose proof (F_top (Z.to_nat (Z.of_nat m + g))). lra.
  Qed.
End Shift.

Lemma sum_nonneg_zero n f : (forall i, (i < n)%nat -> 0 <= f i) -> sum n f <= 0 -> forall i, (i < n)%nat -> f i = 0.
Proof.
  induction n as [|n IH]; intros H Hs i Hi; [lia|]. cbn [sum] in Hs.
  assert (P : forall k, (k <= n)%nat -> 0 <= sum k f).
  { induction k as [|k IHk]; intros Hk; cbn [sum]; [lra|]. specialize (IHk ltac:(lia)). specialize (H k ltac:(lia)). lra. }
  specialize (P n ltac:(lia)). pose proof (H n ltac:(lia)).
  destruct (Nat.eq_dec i n) as [->|]; [lra|]. apply IH; [intros; apply H; lia|lra|lia].
Qed.

Lemma autocorrelation_peak (x : list R) g : g <> 0%Z -> (exists i, smp x i <> 0) ->
  cross_correlation x x g < cross_correlation x x 0.
Proof.
  intros Hg [i0 Hi0]. set (n := length x).
  assert (S0 : forall z, smpZ x (Z.of_nat z) = smp x z).
  { intros z. unfold smpZ. replace (Z.of_nat z <? 0)%Z with false by lia. now rewrite Nat2Z.id. }
  destruct (Rlt_le_dec (cross_correlation x x g) (cross_correlation x x 0)) as [C|C]; [exact C|exfalso].
  pose proof (shift_le (fun z => smpZ x z * smpZ x z) n (fun z => Rle_0_sqr (smpZ x z))
    (fun z H => ltac:(cbn beta; rewrite (smpZ_out x z) by exact H; lra)) n g) as HS. cbn beta in HS.
  unfold cross_correlation in C. fold n in C.
  assert (D : sum n (fun b => (smpZ x (Z.of_nat b + g) - smp x b) * (smpZ x (Z.of_nat b + g) - smp x b)) <= 0).
  { rewrite (sum_ext n _ (fun b => (smpZ x (Z.of_nat b + g) * smpZ x (Z.of_nat b + g)) + ((-2) * (smpZ x (Z.of_nat b + g) * smp x b) + smp x b * smp x b)))
      by (intros; ring).
    rewrite !sum_plus, sum_scal.
    rewrite (sum_ext n (fun b => smpZ x (Z.of_nat b + 0) * smp x b) (fun b => smp x b * smp x b)) in C by (intros b _; rewrite Z.add_0_r, S0; reflexivity).
    rewrite (sum_ext n (fun b => smpZ x (Z.of_nat b) * smpZ x (Z.of_nat b)) (fun b => smp x b * smp x b)) in HS by (intros b _; rewrite !S0; reflexivity).
    lra. }
  pose proof (sum_nonneg_zero n _ (fun i _ => Rle_0_sqr _) D) as Z. cbn beta in Z.
  assert (EQ : forall b, (b < n)%nat -> smp x b = smpZ x (Z.of_nat b + g)).
  { intros b Hb. specialize (Z b Hb). apply Rsqr_0_uniq in Z. lra. }
  assert (A : forall k b, (b < n)%nat -> (if (0 <? g)%Z then Z.of_nat n - Z.of_nat b <= Z.of_nat k else Z.of_nat b < Z.of_nat k)%Z -> smp x b = 0).
  { induction k as [|k IH]; intros b Hb Hk; [destruct (0 <? g)%Z; lia|].
    rewrite (EQ b Hb). destruct (Z.lt_ge_cases (Z.of_nat b + g) 0) as [C1|C1]; [apply smpZ_out; lia|].
    destruct (Z.lt_ge_cases (Z.of_nat b + g) (Z.of_nat n)) as [C2|C2]; [|apply smpZ_out; lia].
    replace (Z.of_nat b + g)%Z with (Z.of_nat (Z.to_nat (Z.of_nat b + g))) by lia. rewrite S0.
    apply IH; [lia|]. destruct (Z.ltb_spec 0 g); lia. }
  apply Hi0. destruct (Nat.lt_ge_cases i0 n) as [H|H]; [|now apply smp_out].
  apply (A (S n) i0 H). destruct (0 <? g)%Z; lia.
Qed.

Lemma self_lag (e : list R) : (9 <= length e)%nat -> (2 * Z.of_nat (length e) - 1 < 2 ^ 31)%Z ->
  exists g, find_lowest_lag_index ideal_fft e e = Ret g /\ (g = 0 \/ g = - (Z.of_nat (length e) - 1))%Z.
Proof.
  intros H1 H2. destruct (lag_is_first_maximiser e e) as (g & G & B & M & F); rewrite ?Nat.max_id in *; try assumption.
  exists g. split; [exact G|].
  assert (D : (exists i, smp e i <> 0) \/ forall i, smp e i = 0).
  { clear. induction e as [|x e IH]; [right; intros [|i]; reflexivity|].
    destruct (Req_EM_T x 0) as [->|N]; [|left; exists 0%nat; exact N].
    destruct IH as [[i Hi]|H]; [left; exists (S i); exact Hi|right]. intros [|i]; [reflexivity|apply (H i)]. }
  destruct D as [NZ|Z].
  - left. destruct (Z.eq_dec g 0) as [E|E]; [exact E|]. pose proof (autocorrelation_peak e g E NZ). specialize (M 0%Z ltac:(lia)). lra.
  - right. destruct (Z.eq_dec g (- (Z.of_nat (length e) - 1))) as [E|E]; [exact E|].
    assert (C0 : forall h, cross_correlation e e h = 0).
    { intros h. unfold cross_correlation. apply sum_zero. intros b _. rewrite Z. ring. }
    specialize (F (- (Z.of_nat (length e) - 1))%Z ltac:(lia)). rewrite !C0 in F. lra.
Qed.

Lemma self_align (s : audio R) : (9 <= length (au_data s))%nat -> (2 * Z.of_nat (length (au_data s)) - 1 < 2 ^ 31)%Z ->
  globally_align ideal_fft s s = Ret (s, 0).
Proof.
  intros H1 H2. unfold globally_align.
  destruct (envelope_returns ideal_fft (au_data s) ideal_keeps_length ltac:(lia)) as (e & E & EL). rewrite E. cbn [bind].
  destruct (self_lag e) as (g & G & D); [lia|lia|]. rewrite G. cbn [bind]. unfold apply_lag.
  replace (_ || _) with true; [reflexivity|]. symmetry. apply orb_true_iff. destruct D as [->|D]; [left; reflexivity|right].
  cbn [nltb ndiv nofZ NumR]. rewrite nofnat_INR, INR_IZR_INZ.
  destruct (Rltb_spec (IZR (Z.of_nat (length (au_data s))) / 2) (IZR (Z.abs g))) as [C|C]; [reflexivity|exfalso].
  assert (2 * IZR (Z.abs g) <= IZR (Z.of_nat (length (au_data s)))) as Q by lra. rewrite <- mult_IZR in Q. apply le_IZR in Q. lia.
Qed.
