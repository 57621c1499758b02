(** Every filter made with accurate elementary functions is of moderate size: one channel (C115). *)
From Coq Require Import ZArith List Bool Reals Lra Lia Floats Psatz.
From Flocq Require Import Core.Core IEEE754.BinarySingleNaN IEEE754.PrimFloat.
From Interval Require Import Tactic.
From Verif Require Import Base.Res Base.Num Base.NumF Base.NumR Base.Cplx Model.Erb Spec.LibmSpec Spec.FilterAccSpec Proofs.B64P Proofs.RoundP Proofs.BoundP Proofs.StableP Proofs.RelP
  Spec.StableSpec Proofs.StableBankP Proofs.ErbNormP Proofs.ErbFloatP Proofs.FilterAllP.
Import ListNotations.
Open Scope R_scope.

Lemma s_sizes : Rabs (FR (s1 : PrimFloat.float)) <= 4145 / 10000 /\ Rabs (FR (s2 : PrimFloat.float)) <= 24145 / 10000.
Proof.
  assert (V1 : FR (PrimFloat.div (F_ofZ 53053) (F_ofZ 128000)) <= 4145 / 10000).
  { unfold FR. rewrite <- SF2R_B2SF, B2SF_Prim2B. match goal with |- SF2R _ ?x <= _ => let y := eval vm_compute in x in change x with y end. unfold SF2R, F2R. cbn [Fnum Fexp cond_Zopp]. cbn. lra. }
  assert (V2 : FR (PrimFloat.div (F_ofZ 309053) (F_ofZ 128000)) <= 24145 / 10000).
  { unfold FR. rewrite <- SF2R_B2SF, B2SF_Prim2B. match goal with |- SF2R _ ?x <= _ => let y := eval vm_compute in x in change x with y end. unfold SF2R, F2R. cbn [Fnum Fexp cond_Zopp]. cbn. lra. }
  assert (W1 : within (PrimFloat.div (F_ofZ 53053) (F_ofZ 128000)) s1) by reflexivity. assert (W2 : within (PrimFloat.div (F_ofZ 309053) (F_ofZ 128000)) s2) by reflexivity.
  apply within_fin in W1; [|reflexivity]. apply within_fin in W2; [|reflexivity]. lra.
Qed.
Lemma size_of k b m : Rabs k <= b -> 1 + b * b <= m * m -> 1 <= m -> exists K, 1 <= K <= m /\ K * K = 1 + k * k.
Proof.
  intros H1 H2 H3. exists (R_sqrt.sqrt (1 + k * k)). assert (k * k <= b * b) by (pose proof (abs_mul_le _ _ _ _ H1 H1) as X; rewrite Rabs_pos_eq in X by nra; exact X).
  split; [split; [apply sq_le_sqrt; nra|apply sqrt_le_sq; lra]|]. apply R_sqrt.sqrt_sqrt. nra.
Qed.

Section Channel.
  Context {L : Libm PrimFloat.float} (A : accurate L).
  Variables (sr : Z) (cf : PrimFloat.float).
  Hypotheses (Hsr : (4000 <= sr <= 262144)%Z) (Fcf : fin cf) (Hcf : 49 <= FR cf <= 48 / 100 * IZR sr).
  Let c := FR cf.
  Let T := 1 / IZR sr.
  Let e := c / (926449 / 100000) + 247 / 10.
  Let t := 1019 / 1000 * 2 * PI * e * T.
  Let w := 2 * c * PI * T.
  Let r := exp (- t).
  Let q := erb_channel sr cf.
  Let q' := real_coeffs q.

  Lemma Tb : 1 / 262144 <= T <= 1 / 4000. Proof. exact (T_b sr Hsr). Qed.
  Lemma rb : 6 / 10 <= r <= 1 - 69 / 100000. Proof. exact (r_b sr cf Hsr Hcf). Qed.
  Lemma sb : 116 / 100000 <= sin w. Proof. exact (sin_w sr cf Hsr Hcf). Qed.
  Lemma csb : cos w * cos w + sin w * sin w = 1. Proof. pose proof (sin2_cos2 w) as X. unfold Rsqr in X. lra. Qed.
  Lemma over_exp x : x / exp t = x * r. Proof. unfold r, Rdiv. rewrite exp_Ropp. reflexivity. Qed.
  Lemma b2b : fin (e_B2 q) /\ Rabs (FR (e_B2 q) - r * r) <= 2 / 100000000000.
  Proof.
    destruct (B2_rel A sr cf Hsr Fcf Hcf) as [F H]. split; [exact F|]. apply Rle_trans with (1 := H). pose proof rb as RB. change (exp (- _) * exp (- _)) with (r * r).
    assert (0 <= r * r <= 1) by nra. pose proof dl_pos. assert (13 * dl * (r * r) <= 13 * dl * 1) by (apply Rmult_le_compat_l; lra). lra.
  Qed.
  Lemma b1b : fin (e_B1 q) /\ Rabs (FR (e_B1 q) + 2 * (r * cos w)) <= 2 / 10000000000.
  Proof.
    destruct (B1_nr A sr cf Hsr Fcf Hcf) as [F H]. split; [exact F|]. change (Rabs (FR (e_B1 q) - 1 * (-2 * cos w / exp t)) <= 200 * dl * 1) in H. rewrite over_exp, Rmult_1_l, Rmult_1_r in H.
    change (Rabs (FR (e_B1 q) - -2 * cos w * r) <= 200 * dl) in H. replace (FR (e_B1 q) + 2 * (r * cos w)) with (FR (e_B1 q) - -2 * cos w * r) by ring. pose proof dl_pos. lra.
  Qed.
  Lemma tb0 : fin (e_A0 q) /\ Rabs (FR (e_A0 q) / T - 1) <= 2 / 1000000000000.
  Proof.
    destruct (T_rel sr Hsr) as [F H]. split; [exact F|]. change (Rabs (FR (e_A0 q) - T) <= 1 * dl * T) in H. pose proof Tb. pose proof dl_pos.
    replace (FR (e_A0 q) / T - 1) with ((FR (e_A0 q) - T) * / T) by (field; lra). rewrite Rabs_mult, (Rabs_pos_eq (/ T)) by (left; apply Rinv_0_lt_compat; lra).
    apply Rmult_le_reg_r with T; [lra|]. rewrite Rmult_assoc, Rinv_l by lra. assert (dl * T <= 1 / 1000000000000 * T) by (apply Rmult_le_compat_r; lra). lra.
  Qed.
  (** the numerators *)
  Let af : PrimFloat.float := ndiv (nmul (nmul (mcos (nmul (nmul (nmul cf (nofZ 2)) mpi) (ndiv (nofZ 1) (nofZ sr)))) (nofZ 2)) (ndiv (nofZ 1) (nofZ sr))) (mexp (nmul (nmul (nmul (nmul (ndec 1019 3) (nofZ 2)) mpi) (nadd (ndiv cf earQ) minBW)) (ndiv (nofZ 1) (nofZ sr)))).
  Let bf (s : PrimFloat.float) : PrimFloat.float := ndiv (nmul (nmul (nmul (msin (nmul (nmul (nmul cf (nofZ 2)) mpi) (ndiv (nofZ 1) (nofZ sr)))) (ndiv (nofZ 1) (nofZ sr))) (nofZ 2)) s) (mexp (nmul (nmul (nmul (nmul (ndec 1019 3) (nofZ 2)) mpi) (nadd (ndiv cf earQ) minBW)) (ndiv (nofZ 1) (nofZ sr)))).
  Lemma half_nr x p : Rabs p <= 8 -> nr T x p 801 -> nr T (ndiv (nopp x) (nofZ 2)) (- p / 2) 1603.
  Proof. intros Hp X. apply (nr_div T _ _ 801 _ _ 0 8); try lra; [apply nr_opp, X|apply (rel_ofZ 2); lia|exact (T_scale sr Hsr)|rewrite Rabs_Ropp; exact Hp]. Qed.
  Lemma num_near s : fin s -> Rabs (FR s) <= 3 ->
    (fin (ndiv (nopp (nadd af (bf s))) (nofZ 2)) /\ Rabs (FR (ndiv (nopp (nadd af (bf s))) (nofZ 2)) / T + r * (cos w + FR s * sin w)) <= 2 / 1000000000) /\
    (fin (ndiv (nopp (nsub af (bf s))) (nofZ 2)) /\ Rabs (FR (ndiv (nopp (nsub af (bf s))) (nofZ 2)) / T + r * (cos w + - FR s * sin w)) <= 2 / 1000000000).
  Proof.
    intros Fs Hs. pose proof (a_nr A sr cf Hsr Fcf Hcf) as AN. pose proof (b_nr A sr cf Hsr Fcf Hcf s Fs Hs) as BN. pose proof (T_scale sr Hsr) as TS.
    change (nr T af (cos w * 2 * 1 / exp t) 200) in AN. change (nr T (bf s) (sin w * 1 * 2 * FR s / exp t) 600) in BN. rewrite over_exp in AN, BN.
    pose proof rb as RB. pose proof (cosb w) as K1. pose proof (sinb w) as K2. assert (R1 : Rabs r <= 1) by (rewrite Rabs_pos_eq; lra).
    assert (C1 : Rabs (cos w * 2 * 1 * r) <= 2). { pose proof (abs_mul_le _ _ _ _ K1 R1) as M. replace (cos w * 2 * 1 * r) with (2 * (cos w * r)) by ring. rewrite Rabs_mult, (Rabs_pos_eq 2) by lra. lra. }
    assert (C2 : Rabs (sin w * 1 * 2 * FR s * r) <= 6). { pose proof (abs_mul_le _ _ _ _ (abs_mul_le _ _ _ _ K2 Hs) R1) as M. replace (sin w * 1 * 2 * FR s * r) with (2 * (sin w * FR s * r)) by ring. rewrite Rabs_mult, (Rabs_pos_eq 2) by lra. lra. }
    pose proof Tb as TB. pose proof dl_pos as D.
    assert (FIN : forall x p v, Rabs p <= 8 -> nr T x p 801 -> v = - p / 2 -> fin (ndiv (nopp x) (nofZ 2)) /\ Rabs (FR (ndiv (nopp x) (nofZ 2)) / T - v) <= 2 / 1000000000).
    { intros x p v Hp X Ev. destruct (half_nr x p Hp X) as [F H]. rewrite <- Ev in H. split; [exact F|]. set (y := FR (ndiv (nopp x) (nofZ 2))) in *. clearbody y.
      replace (y / T - v) with ((y - T * v) * / T) by (field; lra). rewrite Rabs_mult, (Rabs_pos_eq (/ T)) by (left; apply Rinv_0_lt_compat; lra).
      apply Rmult_le_reg_r with T; [lra|]. rewrite Rmult_assoc, Rinv_l, Rmult_1_r by lra. apply Rle_trans with (1 := H). apply Rmult_le_compat_r; lra. }
    split.
    - destruct (FIN (nadd af (bf s)) (cos w * 2 * 1 * r + sin w * 1 * 2 * FR s * r) (- (r * (cos w + FR s * sin w)))) as [F H]; [tri| |field|split; [exact F|]].
      + apply (nr_add T _ _ 200 _ _ 600 2 6); try lra; assumption.
      + unfold Rminus in H. rewrite Ropp_involutive in H. exact H.
    - destruct (FIN (nsub af (bf s)) (cos w * 2 * 1 * r - sin w * 1 * 2 * FR s * r) (- (r * (cos w + - FR s * sin w)))) as [F H]; [tri| |field|split; [exact F|]].
      + apply (nr_sub T _ _ 200 _ _ 600 2 6); try lra; assumption.
      + unfold Rminus in H. rewrite Ropp_involutive in H. exact H.
  Qed.
  (** one stage *)
  Lemma stage_of (a : PrimFloat.float) k b m : Rabs (FR a / T + r * (cos w + k * sin w)) <= 2 / 1000000000 -> Rabs k <= b -> b <= 27 / 10 -> 1 + b * b <= m * m -> 1 <= m ->
    99 / 100 * T <= stage_gain q' (FR (e_A0 q)) (FR a) 0 <= 109 / 100 * (m / (1 - r)) * T.
  Proof.
    intros HA Hk Hb Hm H1. destruct (size_of k b m Hk Hm H1) as (K & [K1 K2] & EK). pose proof Tb as TB. pose proof rb as RB.
    assert (E : stage_gain q' (FR (e_A0 q)) (FR a) 0 = T * stage_gain q' (FR (e_A0 q) / T) (FR a / T) 0).
    { rewrite <- stage_scale by lra. f_equal; [field; lra|field; lra|ring]. }
    rewrite E. clear E.
    assert (Hk' : Rabs k <= 27 / 10) by lra.
    destruct (stage_le r (cos w) (sin w) (FR (e_B1 q)) (FR (e_B2 q)) RB csb sb (proj2 b2b) (proj2 b1b) k K (FR (e_A0 q) / T) (FR a / T) K1 EK Hk' (proj2 tb0) HA q' eq_refl eq_refl) as [S1 S2].
    set (g := stage_gain q' (FR (e_A0 q) / T) (FR a / T) 0) in *. clearbody g.
    assert (K / (1 - r) <= m / (1 - r)) by (apply Rmult_le_compat_r; [left; apply Rinv_0_lt_compat; lra|exact K2]).
    split; [rewrite (Rmult_comm _ T); apply Rmult_le_compat_l; lra|rewrite (Rmult_comm T); apply Rmult_le_compat_r; lra].
  Qed.

  (** *** the gain *)
  Let Tf : PrimFloat.float := ndiv (nofZ 1) (nofZ sr).
  Let Bf : PrimFloat.float := nmul (nmul (nmul (ndec 1019 3) (nofZ 2)) mpi) (nadd (ndiv cf earQ) minBW).
  Let tf : PrimFloat.float := nmul Bf Tf.
  Let w1 : PrimFloat.float := nmul (nmul (nmul (nofZ 2) cf) mpi) Tf.
  Let w4 : PrimFloat.float := nmul (nmul (nmul (nofZ 4) cf) mpi) Tf.
  Let xf (k : PrimFloat.float) : cplx PrimFloat.float := cadd (cscale (cexp (n0, w4)) (nmul (nofZ (-2)) Tf)) (cscale (cscale (cexp (nopp tf, w1)) (nmul (nofZ 2) Tf)) k).
  Let C2 := cos (2 * w).
  Let S2 := sin (2 * w).
  Lemma sin_1 : sin w <= 1. Proof. pose proof (sinb w) as X. apply Rabs_le_inv in X. apply X. Qed.
  Lemma x_low k : fin k -> Rabs (FR k) <= 4 -> 99 / 100 * (4 * (T * sin w * (T * sin w))) <= nn (xf k).
  Proof.
    intros Fk Hk. pose proof (cosb (2 * w)) as K1. pose proof (sinb (2 * w)) as K2. pose proof (cosb w) as K3. pose proof (sinb w) as K4. pose proof rb as RB. pose proof Tb as TB. pose proof sb as SW. pose proof dl_pos as D.
    assert (R1 : Rabs r <= 1) by (rewrite Rabs_pos_eq; lra).
    assert (RC : Rabs (r * cos w) <= 1) by (pose proof (abs_mul_le _ _ _ _ R1 K3); lra).
    assert (RS : Rabs (r * sin w) <= 1) by (pose proof (abs_mul_le _ _ _ _ R1 K4); lra).
    destruct (xe A sr cf Hsr Fcf Hcf) as [E1 E2]. destruct (xr A sr cf Hsr Fcf Hcf) as [Q1 Q2]. rewrite Rmult_1_l in E1, E2.
    destruct (x_part sr Hsr _ _ _ _ k E1 Q1 K1 RC Fk Hk) as [F1 N1]. destruct (x_part sr Hsr _ _ _ _ k E2 Q2 K2 RS Fk Hk) as [F2 N2].
    change (Rabs (FR (fst (xf k)) - T * (C2 * (-2 * 1) + r * cos w * (2 * 1) * FR k)) <= 500 * dl * T) in N1.
    change (Rabs (FR (snd (xf k)) - T * (S2 * (-2 * 1) + r * sin w * (2 * 1) * FR k)) <= 500 * dl * T) in N2.
    set (p := C2 * (-2 * 1) + r * cos w * (2 * 1) * FR k) in *. set (o := S2 * (-2 * 1) + r * sin w * (2 * 1) * FR k) in *.
    assert (PQ : p * p + o * o = 4 * ((r * FR k - cos w) * (r * FR k - cos w) + sin w * sin w)).
    { unfold p, o, C2, S2. rewrite cos_2a, sin_2a. pose proof (sin2_cos2 w) as SC. unfold Rsqr in SC. clear - SC. set (s := sin w) in *. set (c0 := cos w) in *. set (rk := FR k).
      transitivity (4 * ((c0 * c0 - s * s) * (c0 * c0 - s * s) + (2 * s * c0) * (2 * s * c0)) - 8 * r * rk * ((c0 * c0 - s * s) * c0 + 2 * s * c0 * s) + 4 * (r * rk) * (r * rk) * (c0 * c0 + s * s)); [ring|].
      replace ((c0 * c0 - s * s) * (c0 * c0 - s * s) + 2 * s * c0 * (2 * s * c0)) with ((s * s + c0 * c0) * (s * s + c0 * c0)) by ring.
      replace ((c0 * c0 - s * s) * c0 + 2 * s * c0 * s) with (c0 * (s * s + c0 * c0)) by ring. replace (c0 * c0 + s * s) with (s * s + c0 * c0) by ring. rewrite SC.
      replace (4 * ((r * rk - c0) * (r * rk - c0) + s * s)) with (4 * (r * rk) * (r * rk) - 8 * r * rk * c0 + 4 * (s * s + c0 * c0)) by ring. rewrite SC. ring. }
    destruct (sqrt_prod (p * p + o * o)) as (m & M0 & EM); [clear; nra|].
    assert (MB : 2 * sin w <= m).
    { apply Rsqr_incr_0_var; [|exact M0]. unfold Rsqr. rewrite <- EM, PQ. pose proof (Rle_0_sqr (r * FR k - cos w)) as X. unfold Rsqr in X. lra. }
    assert (NP : (T * p) * (T * p) + (T * o) * (T * o) = (T * m) * (T * m)) by (replace (T * p * (T * p) + T * o * (T * o)) with (T * T * (p * p + o * o)) by ring; rewrite EM; ring).
    assert (ED : 0 <= 500 * dl <= 5 / 10000000000) by lra.
    assert (EP : 0 <= 500 * dl * T <= 5 / 10000000000 * T) by (split; [apply Rmult_le_pos; lra|apply Rmult_le_compat_r; lra]).
    assert (TM : T * (2 * sin w) <= T * m) by (apply Rmult_le_compat_l; lra).
    assert (TS : 116 / 100000 * T <= T * sin w) by (rewrite (Rmult_comm _ T); apply Rmult_le_compat_l; lra).
    pose proof (norm_pert _ _ _ _ (T * m) (500 * dl * T) NP ltac:(lra) ltac:(lra) N1 N2) as [X _]. fold (nn (xf k)) in X. apply Rle_trans with (2 := X).
    set (s := T * sin w) in *. replace (T * (2 * sin w)) with (2 * s) in TM by (unfold s; ring). clearbody s. revert TM EP. generalize (T * m), (500 * dl * T). clear - TB TS. intros M d TM EP.
    apply Rle_trans with (2 * s * (2 * s - 4 * d)); [nra|]. replace (M * M - 4 * M * d) with (M * (M - 4 * d)) by ring. apply Rmult_le_compat; lra.
  Qed.

  Let x5 : cplx PrimFloat.float := cadd (csub (cofr (ndiv (nofZ (-2)) (mexp (nmul (nmul (nofZ 2) Bf) Tf)))) (cscale (cexp (n0, w4)) (nofZ 2))) (cscale (cadd (cofr n1) (cexp (n0, w4))) (ndiv (nofZ 2) (mexp tf))).
  Let Q := (1 - r) * (1 - r) + 4 * r * (sin w * sin w).
  Lemma x5_up : nn x5 <= 101 / 100 * (4 * ((1 - r) * (1 - r)) * Q).
  Proof.
    pose proof (cosb (2 * w)) as K1. pose proof (sinb (2 * w)) as K2. fold C2 in K1. fold S2 in K2. pose proof rb as RB. pose proof dl_pos as D.
    destruct (xe A sr cf Hsr Fcf Hcf) as [E1 E2]. rewrite Rmult_1_l in E1, E2. assert (M2 : Rabs 2 <= 2) by (rewrite Rabs_pos_eq; lra). assert (M2' : Rabs (-2) <= 2) by (rewrite Rabs_left; lra). assert (M1 : Rabs 1 <= 1) by (rewrite Rabs_pos_eq; lra). assert (M0 : Rabs 0 <= 1) by (rewrite Rabs_R0; lra).
    change (nr 1 (nmul (mexp n0) (mcos w4)) C2 35) in E1. change (nr 1 (nmul (mexp n0) (msin w4)) S2 35) in E2.
    assert (D1 : nr 1 (ndiv (nofZ (-2)) (mexp (nmul (nmul (nofZ 2) Bf) Tf))) (-2 / exp (2 * t)) 53) by (apply (nr_div 1 _ _ 0 _ _ 13 2); try lra; [apply (nr_ofZ (-2)); lia|exact (e2_rel A sr cf Hsr Fcf Hcf)|exact scale_1|exact (E2_1 sr cf Hsr Hcf)]).
    assert (D2 : nr 1 (ndiv (nofZ 2) (mexp tf)) (2 / exp t) 29) by (apply (nr_div 1 _ _ 0 _ _ 7 2); try lra; [apply (nr_ofZ 2); lia|exact (E_rel A sr cf Hsr Fcf Hcf)|exact scale_1|exact (proj1 (E_1 sr cf Hsr Hcf))]).
    unfold Rdiv in D1. pose proof (E2_r sr cf) as ER. change (/ exp (2 * t) = r * r) in ER. rewrite ER in D1. rewrite over_exp in D2.
    assert (RR : 0 <= r * r <= 1 * 1) by (revert RB; generalize r; clear; intros; split; nra). assert (B1 : Rabs (-2 * (r * r)) <= 2) by (apply Rabs_le; lra). assert (B2 : Rabs (2 * r) <= 2) by (apply Rabs_le; lra).
    assert (Z1 : nr 1 (nmul (nmul (mexp n0) (mcos w4)) (nofZ 2)) (C2 * 2) 71) by (apply (nr_mul 1 _ _ 35 _ _ 0 1 2); try lra; [exact E1|apply (nr_ofZ 2); lia|exact scale_1]).
    assert (Z2 : nr 1 (nmul (nmul (mexp n0) (msin w4)) (nofZ 2)) (S2 * 2) 71) by (apply (nr_mul 1 _ _ 35 _ _ 0 1 2); try lra; [exact E2|apply (nr_ofZ 2); lia|exact scale_1]).
    assert (K3 : Rabs (C2 * 2) <= 2) by tri. assert (K4 : Rabs (S2 * 2) <= 2) by tri. assert (K5 : Rabs (1 + C2) <= 2) by tri. assert (K6 : Rabs (0 + S2) <= 2) by tri.
    assert (K7 : Rabs (-2 * (r * r) - C2 * 2) <= 4) by tri. assert (K8 : Rabs (0 - S2 * 2) <= 4) by tri.
    assert (K9 : Rabs ((1 + C2) * (2 * r)) <= 4) by (pose proof (abs_mul_le _ _ _ _ K5 B2); lra).
    assert (K10 : Rabs ((0 + S2) * (2 * r)) <= 4) by (pose proof (abs_mul_le _ _ _ _ K6 B2); lra).
    assert (P : nr 1 (fst x5) (-2 * (r * r) - C2 * 2 + (1 + C2) * (2 * r)) 300).
    { apply (nr_add 1 _ _ 140 _ _ 150 4 4); try lra; [| |exact scale_1].
      - apply (nr_sub 1 _ _ 53 _ _ 71 2 2); try lra; [exact D1|exact Z1|exact scale_1].
      - apply (nr_mul 1 _ _ 36 _ _ 29 2 2); try lra; [|exact D2|exact scale_1]. apply (nr_add 1 _ _ 0 _ _ 35 1 1); try lra; [apply (nr_ofZ 1); lia|exact E1|exact scale_1]. }
    assert (P' : nr 1 (snd x5) (0 - S2 * 2 + (0 + S2) * (2 * r)) 300).
    { apply (nr_add 1 _ _ 140 _ _ 150 4 4); try lra; [| |exact scale_1].
      - apply (nr_sub 1 _ _ 0 _ _ 71 1 2); try lra; [apply (nr_ofZ 0); lia|exact Z2|exact scale_1].
      - apply (nr_mul 1 _ _ 36 _ _ 29 2 2); try lra; [|exact D2|exact scale_1]. apply (nr_add 1 _ _ 0 _ _ 35 1 1); try lra; [apply (nr_ofZ 0); lia|exact E2|exact scale_1]. }
    destruct P as [F1 N1]. destruct P' as [F2 N2]. rewrite Rmult_1_l, Rmult_1_r in N1, N2.
    set (p := -2 * (r * r) - C2 * 2 + (1 + C2) * (2 * r)) in *. set (o := 0 - S2 * 2 + (0 + S2) * (2 * r)) in *.
    assert (PQ : p * p + o * o = 4 * ((1 - r) * (1 - r)) * Q).
    { assert (SC : S2 * S2 = 1 - C2 * C2) by (pose proof (sin2_cos2 (2 * w)) as X; unfold Rsqr in X; fold C2 S2 in X; lra).
      assert (CC : C2 = 1 - 2 * (sin w * sin w)) by (unfold C2; rewrite cos_2a; pose proof csb; lra).
      transitivity (4 * ((1 - r) * (1 - r)) * (S2 * S2 + C2 * C2 - 2 * C2 * r + r * r)); [unfold p, o; ring|]. rewrite SC. unfold Q. rewrite CC. ring. }
    destruct (sqrt_prod (p * p + o * o)) as (m & M0' & EM); [clear; nra|].
    assert (MB : 9522 / 10000000000 <= m).
    { apply Rsqr_incr_0_var; [|exact M0']. unfold Rsqr. rewrite <- EM, PQ. pose proof sb as SW.
      assert (O : 69 / 100000 * (69 / 100000) <= (1 - r) * (1 - r)) by (apply Rmult_le_compat; lra).
      assert (O2 : 69 / 100000 * (69 / 100000) <= Q) by (unfold Q; assert (0 <= 4 * r * (sin w * sin w)) by (repeat apply Rmult_le_pos; lra); lra).
      assert (69 / 100000 * (69 / 100000) * (69 / 100000 * (69 / 100000)) <= (1 - r) * (1 - r) * Q) by (apply Rmult_le_compat; lra). lra. }
    assert (ED : 0 <= 300 * dl <= 3 / 10000000000) by lra.
    pose proof (norm_pert _ _ _ _ m (300 * dl) (eq_sym (eq_sym EM)) ltac:(lra) ltac:(lra) N1 N2) as [_ X]. fold (nn x5) in X. rewrite <- PQ, EM. revert X MB ED. generalize (300 * dl), (nn x5). clear. intros dd n X MB ED.
    assert (m * dd <= m * (32 / 100000 * m)) by (apply Rmult_le_compat_l; lra). assert (dd * dd <= 32 / 100000 * m * (32 / 100000 * m)) by (apply Rmult_le_compat; lra). assert (0 <= m * m) by (apply Rmult_le_pos; lra). lra.
  Qed.
  Lemma gain_size : fin (e_gain q) /\ 74 / 100 * ((T / (1 - r)) ^ 4 * (sin w * sin w / Q) ^ 2) <= FR (e_gain q) <= 1000000000000000.
  Proof.
    destruct s_b' as [[F1 H1] [F2 H2]]. destruct (k_b A sr cf Hsr Fcf Hcf s1 F1 H1) as [[G1 I1] [G2 I2]]. destruct (k_b A sr cf Hsr Fcf Hcf s2 F2 H2) as [[G3 I3] [G4 I4]].
    pose proof (x_norm A sr cf Hsr Fcf Hcf _ G1 I1) as X1. pose proof (x_norm A sr cf Hsr Fcf Hcf _ G2 I2) as X2. pose proof (x_norm A sr cf Hsr Fcf Hcf _ G3 I3) as X3. pose proof (x_norm A sr cf Hsr Fcf Hcf _ G4 I4) as X4. pose proof (x5_norm A sr cf Hsr Fcf Hcf) as X5.
    pose proof (x_low _ G1 I1) as L1. pose proof (x_low _ G2 I2) as L2. pose proof (x_low _ G3 I3) as L3. pose proof (x_low _ G4 I4) as L4.
    pose proof Tb as TB. pose proof rb as RB. pose proof sb as SW. assert (TS : 0 < T * sin w) by (apply Rmult_lt_0_compat; lra).
    assert (P0 : 0 < 99 / 100 * (4 * (T * sin w * (T * sin w)))) by (assert (0 < T * sin w * (T * sin w)) by (apply Rmult_lt_0_compat; exact TS); lra).
    destruct (gain_range _ _ _ _ _ _ _ X1 X2 X3 X4 X5 P0 L1 L2 L3 L4 x5_up) as [Fg [G5 G6]].
    split; [exact Fg|]. split; [|exact G6]. apply Rle_trans with (2 := G5).
    assert (Q0 : 0 < Q) by (unfold Q; assert (0 < (1 - r) * (1 - r)) by (apply Rmult_lt_0_compat; lra); assert (0 < 4 * r * (sin w * sin w)) by (repeat apply Rmult_lt_0_compat; lra); lra).
    set (v := (T / (1 - r)) ^ 4 * (sin w * sin w / Q) ^ 2). assert (V0 : 0 <= v) by (unfold v; apply Rmult_le_pos; apply pow_le; (apply Rmult_le_pos; [|left; apply Rinv_0_lt_compat; lra]); [lra|apply Rmult_le_pos; lra]).
    match goal with |- _ <= 78 / 100 * ?y => replace y with (99 / 101 * (99 / 101) * v) by (unfold v; clearbody Q r T; field; repeat split; lra) end. lra.
  Qed.
End Channel.
