(** C91: only identical patches have similarity 1. *)
From Coq Require Import ZArith List Bool Reals Lra Lia.
From Coq Require Import ZifyBool ZifyNat.
From Verif Require Import Base.Res Base.Num Base.NumR Base.Lists Base.Mat Model.Amatrix Model.Nsim Spec.StatSpec Spec.SmoothSpec
  Proofs.RealP Proofs.ConvP Proofs.NsimP Proofs.IdentityP.
Import ListNotations.
Open Scope R_scope.

Lemma entry_one f g :
  nsim_entry (wsum f) (wsum g) (wsum (fun p => f p * f p)) (wsum (fun p => g p * g p)) (wsum (fun p => f p * g p)) = 1 -> wsum f = wsum g.
Proof.
  unfold nsim_entry. set (a := wsum f). set (b := wsum g).
  cbn [nadd nsub nmul ndiv nofZ NumR]. rewrite c1_val, c3_val.
  pose proof (wvar_nonneg f) as Vf. pose proof (wvar_nonneg g) as Vg. pose proof (wcov_bound f g) as C.
  fold a b in Vf, Vg, C.
  set (P := wsum (fun p => f p * f p) - a * a) in *. set (Q := wsum (fun p => g p * g p) - b * b) in *.
  set (X := wsum (fun p => f p * g p) - a * b) in *. clearbody P Q X a b.
  rewrite structure_denominator_R by (apply Rmult_le_pos; assumption).
  pose proof (sqrt_pos (P * Q)). set (s := sqrt (P * Q)) in *. clearbody s.
  assert (C1 : X <= s) by (pose proof (Rle_abs X); lra).
  assert (C2 : - s <= X) by (pose proof (Rle_abs (- X)) as HH; rewrite Rabs_Ropp in HH; lra).
  intros E.
  assert (D1 : 0 < a * a + b * b + 0.0001) by nra. assert (D2 : 0 < s + 0.00045) by lra.
  apply (f_equal (fun x => x * ((a * a + b * b + 0.0001) * (s + 0.00045)))) in E.
  replace ((a * b * 2 + 0.0001) / (a * a + b * b + 0.0001) * ((X + 0.00045) / (s + 0.00045)) * ((a * a + b * b + 0.0001) * (s + 0.00045)))
    with ((2 * (a * b) + 0.0001) * (X + 0.00045)) in E by (field; lra). rewrite Rmult_1_l in E.
  set (u := s + 0.00045) in *. assert (U1 : X + 0.00045 <= u) by (unfold u; lra). assert (U2 : - u < X + 0.00045) by (unfold u; lra).
  set (v := X + 0.00045) in *. clearbody u v.
  pose proof (Rle_0_sqr (a - b)) as Q1. pose proof (Rle_0_sqr (a + b)) as Q2. unfold Rsqr in Q1, Q2.
  assert (Z : (a - b) * (a - b) = 0).
  { apply Rle_antisym; [|exact Q1]. destruct (Rle_lt_dec 0 (2 * (a * b) + 0.0001)) as [H0|H0].
    - assert ((2 * (a * b) + 0.0001) * v <= (2 * (a * b) + 0.0001) * u) by (apply Rmult_le_compat_l; assumption).
      apply Rmult_le_reg_r with u; [exact D2|]. replace ((a - b) * (a - b) * u) with ((a * a + b * b + 0.0001) * u - (2 * (a * b) + 0.0001) * u) by ring. lra.
    - exfalso. assert ((- (2 * (a * b) + 0.0001)) * (- v) <= (- (2 * (a * b) + 0.0001)) * u) by (apply Rmult_le_compat_l; lra).
      assert (0 < ((a + b) * (a + b) + 0.0002) * u) by (apply Rmult_lt_0_compat; lra).
      assert (((a + b) * (a + b) + 0.0002) * u = (a * a + b * b + 0.0001) * u + (2 * (a * b) + 0.0001) * u) by lra. lra. }
  assert (a - b = 0) by (apply Rsqr_0_uniq; exact Z). lra.
Qed.

Lemma max_at {A : Type} (f : A -> R) (l : list A) : l <> [] -> exists x, In x l /\ forall y, In y l -> f y <= f x.
Proof.
  induction l as [|a l IH]; intros H; [congruence|]. destruct l as [|b l].
  - exists a. split; [now left|]. intros y [<-|[]]. lra.
  - destruct IH as (x & Hx & HM); [discriminate|]. destruct (Rle_lt_dec (f a) (f x)) as [L|L].
    + exists x. split; [now right|]. intros y [<-|Hy]; [exact L|apply HM, Hy].
    + exists a. split; [now left|]. intros y [<-|Hy]; [lra|]. specialize (HM y Hy). lra.
Qed.

Lemma Rabs_def2_le x a : Rabs x <= a -> - a <= x <= a.
Proof. unfold Rabs. destruct (Rcase_abs x); lra. Qed.

(** the weighted average of a matrix determines the matrix, because the centre weighs more than the rest together *)
Lemma smooth_zero nr nc (d : nat -> nat -> R) : (0 < nr)%nat -> (0 < nc)%nat ->
  (forall r c, (r < nr)%nat -> (c < nc)%nat -> wsum (fun p => d (clamped nr r (fst p)) (clamped nc c (snd p))) = 0) ->
  forall r c, (r < nr)%nat -> (c < nc)%nat -> d r c = 0.
Proof.
  intros HR HC HZ. set (l := list_prod (seq 0 nr) (seq 0 nc)).
  assert (IN : forall r c, (r < nr)%nat -> (c < nc)%nat -> In (r, c) l) by (intros r c Hr Hc; apply in_prod; apply in_seq; lia).
  destruct (max_at (fun p => Rabs (d (fst p) (snd p))) l) as ([r0 c0] & H0 & HM).
  { intros E. pose proof (IN 0%nat 0%nat HR HC) as H. rewrite E in H. destruct H. }
  apply in_prod_iff in H0. rewrite !in_seq in H0. cbn [fst snd] in HM.
  assert (B : forall r c, (r < nr)%nat -> (c < nc)%nat -> Rabs (d r c) <= Rabs (d r0 c0)) by (intros r c Hr Hc; apply (HM (r, c)), IN; assumption).
  assert (Z : Rabs (d r0 c0) = 0).
  { specialize (HZ r0 c0 ltac:(lia) ltac:(lia)). unfold wsum in HZ. cbn -[clamped] in HZ.
    assert (E1 : clamped nr r0 1 = r0) by (unfold clamped; lia). assert (E2 : clamped nc c0 1 = c0) by (unfold clamped; lia). rewrite E1, E2 in HZ.
    assert (K : forall k l, - Rabs (d r0 c0) <= d (clamped nr r0 k) (clamped nc c0 l) <= Rabs (d r0 c0)).
    { intros k l0. apply Rabs_def2_le. apply B; apply clamped_lt; assumption. }
    pose proof (K 0%nat 0%nat). pose proof (K 0%nat 1%nat) as K01. pose proof (K 0%nat 2%nat). pose proof (K 1%nat 0%nat) as K10. pose proof (K 1%nat 2%nat) as K12.
    pose proof (K 2%nat 0%nat). pose proof (K 2%nat 1%nat) as K21. pose proof (K 2%nat 2%nat). rewrite ?E1, ?E2 in *.
    pose proof (Rabs_pos (d r0 c0)). unfold Rabs in *. destruct (Rcase_abs (d r0 c0)); lra. }
  intros r c Hr Hc. specialize (B r c Hr Hc). rewrite Z in B. pose proof (Rabs_pos (d r c)). destruct (Req_EM_T (d r c) 0) as [E|E]; [exact E|]. apply Rabs_pos_lt in E. lra.
Qed.

Lemma measure_one (A B : mat R) p : wf A -> wf B -> (0 < nrows A)%nat -> (0 < ncols A)%nat -> nrows A = nrows B -> ncols A = ncols B ->
  measure_patch_similarity A B = Ret p -> (ps_sim p = 1 <-> A = B).
Proof.
  intros WA WB HR HC ER EC EM. split.
  - intros E1. destruct (measure_entries A B p HR HC ER EC EM E1) as (M & EM1 & T).
    destruct (nsim_map_R A B HR HC ER EC) as (M' & EM' & _ & _ & _ & V). rewrite EM1 in EM'. injection EM' as <-.
    apply (mat_ext 0); [exact WA|exact WB|exact ER|exact EC|]. intros r c Hr Hc.
    apply Rminus_diag_uniq. change (at_ A r c - at_ B r c = 0). apply (smooth_zero (nrows A) (ncols A) (fun r c => at_ A r c - at_ B r c)); try assumption.
    intros r' c' Hr' Hc'. specialize (V r' c' Hr' Hc'). cbv zeta in V. rewrite T in V by assumption. symmetry in V. apply entry_one in V.
    replace 0 with (wsum (fun p => at_ A (clamped (nrows A) r' (fst p)) (clamped (ncols A) c' (snd p))) - wsum (fun p => at_ B (clamped (nrows A) r' (fst p)) (clamped (ncols A) c' (snd p)))) by lra.
    unfold wsum. cbn -[clamped]. ring.
  - intros <-. destruct (measure_self A HR HC) as (p' & EM' & E1 & _). rewrite EM in EM'. injection EM' as <-. exact E1.
Qed.
