(** The numbers of a channel made with accurate elementary functions (C115). *)
From Coq Require Import ZArith List Bool Reals Lra Lia Floats Psatz.
From Flocq Require Import Core.Core IEEE754.BinarySingleNaN IEEE754.PrimFloat.
From Interval Require Import Tactic.
From Verif Require Import Base.Res Base.Num Base.NumF Base.NumR Base.Cplx Model.Erb Model.FilterBank Spec.LibmSpec Spec.FilterAccSpec Proofs.B64P Proofs.RoundP Proofs.BoundP Proofs.StableP Proofs.RelP
  Spec.StableSpec Proofs.StableBankP Proofs.ErbNormP Proofs.ErbFloatP Proofs.FilterAllP Proofs.FilterChannelP Proofs.FilterLevelP.
Import ListNotations.
Open Scope R_scope.

Lemma four_prod a b c d a' b' c' d' : 0 <= a <= a' -> 0 <= b <= b' -> 0 <= c <= c' -> 0 <= d <= d' -> 0 <= a * (b * (c * d)) <= a' * (b' * (c' * d')).
Proof.
  intros H1 H2 H3 H4. assert (E : forall x y x' y', 0 <= x <= x' -> 0 <= y <= y' -> 0 <= x * y <= x' * y') by (clear; intros x y x' y' H1 H2; split; [apply Rmult_le_pos; lra|apply Rmult_le_compat; lra]).
  repeat (apply E; [assumption|]). exact H4.
Qed.
Lemma sin_above w : 0 < w <= 3 / 2 -> w * (1 - w * w / 6) <= sin w.
Proof.
  intros H. pose proof (sin_bound w 0 ltac:(lra) ltac:(pose proof PI_b; lra)) as [X _]. unfold sin_approx, sum_f_R0, sin_term in X. cbn [Nat.mul Nat.add fact pow INR] in X. lra.
Qed.
Lemma sin_above_low w : 0 < w <= 3 / 2 -> 624 / 1000 * w <= sin w.
Proof. intros H. apply Rle_trans with (2 := sin_above w H). nra. Qed.

Section Channel.
  Context {L : Libm PrimFloat.float} (A : accurate L).
  Variables (sr : Z) (cf : PrimFloat.float).
  Hypotheses (Hsr : (4000 <= sr <= 262144)%Z) (Fcf : fin cf) (Hcf : 49 <= FR cf <= 48 / 100 * IZR sr).
  Let c := FR cf.
  Let T := 1 / IZR sr.
  Let e := c / (926449 / 100000) + 247 / 10.
  Let t := 1019 / 1000 * 2 * PI * e * T.
  Let w := 2 * c * PI * T.
  Let r := exp (- t).
  Let s := sin w.
  Let q := erb_channel sr cf.
  Let q' := real_coeffs q.
  Let Q := (1 - r) * (1 - r) + 4 * r * (s * s).

  Lemma Tb' : 1 / 262144 <= T <= 1 / 4000. Proof. exact (T_b sr Hsr). Qed.
  Lemma rb' : 6 / 10 <= r <= 1 - 69 / 100000. Proof. exact (r_b sr cf Hsr Hcf). Qed.
  Lemma sb' : 116 / 100000 <= s <= 1. Proof. split; [exact (sin_w sr cf Hsr Hcf)|]. pose proof (sinb w) as X. apply Rabs_le_inv in X. apply X. Qed.
  Lemma Q_pos : 0 < Q.
  Proof. pose proof rb' as RB. pose proof sb' as SB. unfold Q. assert (0 < (1 - r) * (1 - r)) by (apply Rmult_lt_0_compat; lra). assert (0 < r * (s * s)) by (repeat apply Rmult_lt_0_compat; lra). lra. Qed.
  (** the four numerators and their size *)
  Lemma stages : exists h1 h2 h3 h4, stage_gains q' = [h1 / FR (e_gain q); h2; h3; h4] /\
    (99 / 100 * T <= h1 <= 109 / 100 * (26135 / 10000 / (1 - r)) * T) /\ (99 / 100 * T <= h2 <= 109 / 100 * (26135 / 10000 / (1 - r)) * T) /\
    (99 / 100 * T <= h3 <= 109 / 100 * (10826 / 10000 / (1 - r)) * T) /\ (99 / 100 * T <= h4 <= 109 / 100 * (10826 / 10000 / (1 - r)) * T) /\
    Forall fin [e_A11 q; e_A12 q; e_A13 q; e_A14 q].
  Proof.
    destruct s_b as [[F1 I1] [F2 I2]]. destruct s_sizes as [J1 J2]. assert (I1' : Rabs (FR s1) <= 3) by lra.
    destruct (num_near A sr cf Hsr Fcf Hcf s2 F2 I2) as [[Fa Ha] [Fb Hb]]. destruct (num_near A sr cf Hsr Fcf Hcf s1 F1 I1') as [[Fc Hc] [Fd Hd]].
    assert (J1' : Rabs (- FR s1) <= 4145 / 10000) by (rewrite Rabs_Ropp; exact J1). assert (J2' : Rabs (- FR s2) <= 24145 / 10000) by (rewrite Rabs_Ropp; exact J2).
    destruct (FR_ofZ 0 ltac:(lia)) as [E0 _].
    destruct (gain_size A sr cf Hsr Fcf Hcf) as [Fg [G1 _]]. change (74 / 100 * ((T / (1 - r)) ^ 4 * (s * s / Q) ^ 2) <= FR (e_gain q)) in G1.
    assert (G0 : 0 < FR (e_gain q)).
    { apply Rlt_le_trans with (2 := G1). pose proof Tb' as TB. pose proof rb' as RB. pose proof sb' as SB. pose proof Q_pos as QP.
      apply Rmult_lt_0_compat; [lra|]. apply Rmult_lt_0_compat; apply pow_lt; apply Rdiv_lt_0_compat; try lra. apply Rmult_lt_0_compat; lra. }
    exists (stage_gain q' (FR (e_A0 q)) (FR (e_A11 q)) 0), (stage_gain q' (FR (e_A0 q)) (FR (e_A12 q)) 0), (stage_gain q' (FR (e_A0 q)) (FR (e_A13 q)) 0), (stage_gain q' (FR (e_A0 q)) (FR (e_A14 q)) 0).
    split; [|split; [|split; [|split; [|split]]]].
    - unfold stage_gains. assert (E2 : e_A2 q' = 0) by exact E0. rewrite E2. f_equal. change (e_gain q') with (FR (e_gain q)). change (e_A0 q') with (FR (e_A0 q)). change (e_A11 q') with (FR (e_A11 q)).
      unfold Rdiv. rewrite !(Rmult_comm _ (/ FR (e_gain q))). apply (stage_scale q' (FR (e_A0 q)) (FR (e_A11 q)) 0). left. apply Rinv_0_lt_compat, G0.
    - apply (stage_of A sr cf Hsr Fcf Hcf (e_A11 q) (FR s2) (24145 / 10000)); [exact Ha|exact J2|lra|lra|lra].
    - apply (stage_of A sr cf Hsr Fcf Hcf (e_A12 q) (- FR s2) (24145 / 10000)); [exact Hb|exact J2'|lra|lra|lra].
    - apply (stage_of A sr cf Hsr Fcf Hcf (e_A13 q) (FR s1) (4145 / 10000)); [exact Hc|exact J1|lra|lra|lra].
    - apply (stage_of A sr cf Hsr Fcf Hcf (e_A14 q) (- FR s1) (4145 / 10000)); [exact Hd|exact J1'|lra|lra|lra].
    - repeat constructor; assumption.
  Qed.
  Let z := Q / (s * s).
  Lemma band_gain_le : 0 < FR (e_gain q) <= 1000000000000000 /\ band_gain q' <= 1545 / 100 * (z * z).
  Proof.
    pose proof Tb' as TB. pose proof rb' as RB. pose proof sb' as SB. pose proof Q_pos as QP.
    destruct stages as (h1 & h2 & h3 & h4 & ES & H1 & H2 & H3 & H4 & _). destruct (gain_size A sr cf Hsr Fcf Hcf) as [Fg [G1 G2]]. change (74 / 100 * ((T / (1 - r)) ^ 4 * (s * s / Q) ^ 2) <= FR (e_gain q)) in G1. change (FR (e_gain q) <= 1000000000000000) in G2.
    assert (SS : 0 < s * s) by (apply Rmult_lt_0_compat; lra).
    set (y := T / (1 - r)). assert (Y0 : 0 < y) by (apply Rdiv_lt_0_compat; lra). assert (Z0 : 0 < z) by (apply Rdiv_lt_0_compat; lra).
    assert (EZ : s * s / Q = / z) by (unfold z; field; lra). rewrite EZ in G1. fold y in G1.
    assert (Y4 : 0 < y ^ 4) by (apply pow_lt, Y0). assert (ZZ : 0 < z * z) by (apply Rmult_lt_0_compat; assumption).
    assert (EI : (/ z) ^ 2 = / (z * z)) by (field; lra). rewrite EI in G1. assert (P : 0 < y ^ 4 * / (z * z)) by (apply Rmult_lt_0_compat; [exact Y4|apply Rinv_0_lt_compat, ZZ]).
    split; [split; [lra|exact G2]|]. unfold band_gain. rewrite ES. cbn [fold_right]. rewrite Rmult_1_r. set (g := FR (e_gain q)) in *. clearbody g.
    assert (EY : forall m, 109 / 100 * (m / (1 - r)) * T = 109 / 100 * m * y) by (intros; unfold y; field; lra). rewrite !EY in *.
    destruct (four_prod h1 h2 h3 h4 (109 / 100 * (26135 / 10000) * y) (109 / 100 * (26135 / 10000) * y) (109 / 100 * (10826 / 10000) * y) (109 / 100 * (10826 / 10000) * y)) as [B0 B1]; [lra..|].
    replace (h1 / g * (h2 * (h3 * h4))) with (h1 * (h2 * (h3 * h4)) * / g) by (unfold Rdiv; ring). set (v := h1 * (h2 * (h3 * h4))) in *. clearbody v.
    assert (V : v <= 1141 / 100 * y ^ 4) by (apply Rle_trans with (1 := B1); match goal with |- ?x <= _ => replace x with (109 / 100 * (109 / 100) * (109 / 100 * (109 / 100)) * (26135 / 10000 * (26135 / 10000) * (10826 / 10000 * (10826 / 10000))) * y ^ 4) by field end; apply Rmult_le_compat_r; lra).
    apply Rmult_le_reg_r with g; [lra|]. rewrite Rmult_assoc, Rinv_l, Rmult_1_r by lra. apply Rle_trans with (1 := V).
    apply Rle_trans with (1545 / 100 * (z * z) * (74 / 100 * (y ^ 4 * / (z * z)))); [|apply Rmult_le_compat_l; lra].
    replace (1545 / 100 * (z * z) * (74 / 100 * (y ^ 4 * / (z * z)))) with (1545 / 100 * (74 / 100) * y ^ 4) by (field; lra). apply Rmult_le_compat_r; lra.
  Qed.
  (** the damping against the height of the poles *)
  Lemma t_w : 1019 / 1000 / (926449 / 100000) * w <= t <= 624 / 1000 * w /\ t <= 1 / 2 /\ 0 < w <= 302 / 100.
  Proof.
    pose proof PI_b as PB. pose proof Tb' as TB. pose proof (t_b sr cf Hsr Hcf) as [_ X]. pose proof (w_b' sr cf Hsr Hcf) as Y. change (t <= 1 / 2) in X. change (117 / 100000 <= w <= 302 / 100) in Y.
    split; [|split; [exact X|lra]]. assert (PT : 0 < 2 * PI * T) by (apply Rmult_lt_0_compat; lra).
    assert (C : 49 <= c) by exact (proj1 Hcf). assert (ET : t = 1019 / 1000 * e * (2 * PI * T)) by (unfold t; ring). assert (EW : w = c * (2 * PI * T)) by (unfold w; ring). rewrite ET, EW. set (x := 2 * PI * T) in *. clearbody x.
    assert (E1 : 1019 / 1000 / (926449 / 100000) * c <= 1019 / 1000 * e <= 624 / 1000 * c) by (unfold e; lra).
    replace (1019 / 1000 / (926449 / 100000) * (c * x)) with (1019 / 1000 / (926449 / 100000) * c * x) by ring. replace (624 / 1000 * (c * x)) with (624 / 1000 * c * x) by ring. split; apply Rmult_le_compat_r; lra.
  Qed.
  Lemma r_t : 1 - r <= t. Proof. unfold r. pose proof (exp_ineq1_le (- t)). lra. Qed.
  Lemma z_eq : z = (1 - r) / s * ((1 - r) / s) + 4 * r. Proof. pose proof sb'. unfold z, Q. field. lra. Qed.
  Lemma z_low : w <= 3 / 2 -> 0 < z <= 5.
  Proof.
    intros H. destruct t_w as [[_ T1] [_ W]]. pose proof r_t as RT. pose proof rb' as RB. pose proof sb' as SB. pose proof (sin_above_low w ltac:(lra)) as SA. fold s in SA. rewrite z_eq.
    assert (0 <= (1 - r) / s <= 1). { split; [apply Rmult_le_pos; [lra|left; apply Rinv_0_lt_compat; lra]|]. apply Rmult_le_reg_r with s; [lra|]. unfold Rdiv. rewrite Rmult_assoc, Rinv_l by lra. lra. }
    set (x := (1 - r) / s) in *. clearbody x. nra.
  Qed.
  Lemma z_high : 3 / 2 <= w -> 0 < z <= 1489 / 100 /\ 121 / 1000 <= s.
  Proof.
    intros H. destruct t_w as [_ [T1 W]]. pose proof rb' as RB. pose proof sb' as SB.
    assert (SA : 121 / 1000 <= s). { unfold s. clear - H W. generalize dependent w. intros v H W. interval with (i_bisect v). }
    assert (RT : 1 - r <= 394 / 1000). { unfold r. assert (exp (- (1 / 2)) <= exp (- t)) by (destruct (Req_dec t (1 / 2)) as [->|N]; [lra|left; apply exp_increasing; lra]). assert (606 / 1000 <= exp (- (1 / 2))) by interval. lra. }
    split; [|exact SA]. rewrite z_eq.
    assert (0 <= (1 - r) / s <= 33 / 10). { split; [apply Rmult_le_pos; [lra|left; apply Rinv_0_lt_compat; lra]|]. apply Rmult_le_reg_r with s; [lra|]. unfold Rdiv at 1. rewrite Rmult_assoc, Rinv_l by lra. lra. }
    set (x := (1 - r) / s) in *. clearbody x. nra.
  Qed.
  Lemma resonance_max b : 0 < b -> b <= (1 - r) * (r * s) -> resonance q' <= 201 / 100 / b.
  Proof.
    intros B0 B. destruct (resonance_le r (cos w) s (FR (e_B1 q)) (FR (e_B2 q)) rb' (csb sr cf) (proj1 sb') (proj2 (b2b A sr cf Hsr Fcf Hcf)) (proj2 (b1b A sr cf Hsr Fcf Hcf)) q' eq_refl eq_refl) as [P0 P].
    unfold resonance. set (d := (1 - radius q') * height q') in *. clearbody d. apply Rmult_le_reg_r with (d * b); [apply Rmult_lt_0_compat; assumption|].
    replace (2 / d * (d * b)) with (2 * b) by (field; lra). replace (201 / 100 / b * (d * b)) with (201 / 100 * d) by (field; lra). lra.
  Qed.
  Lemma damped_q : damped q'.
  Proof. exact (poles_damped r (cos w) s (FR (e_B1 q)) (FR (e_B2 q)) rb' (csb sr cf) (proj1 sb') (proj2 (b2b A sr cf Hsr Fcf Hcf)) (proj2 (b1b A sr cf Hsr Fcf Hcf))). Qed.
  Lemma gain_cases : (w <= 3 / 2 /\ band_gain q' <= 390) \/ (3 / 2 <= w /\ band_gain q' <= 3500).
  Proof.
    destruct band_gain_le as [_ B]. destruct (Rle_dec w (3 / 2)) as [H|H]; [left|right]; (split; [lra|]).
    - destruct (z_low H). assert (z * z <= 5 * 5) by (apply Rmult_le_compat; lra). lra.
    - destruct (z_high ltac:(lra)) as [[Z1 Z2] _]. assert (z * z <= 1489 / 100 * (1489 / 100)) by (apply Rmult_le_compat; lra). lra.
  Qed.
  Lemma channel_moderate : moderate_band q /\ band_gain q' <= 3500.
  Proof.
    pose proof Tb' as TB. pose proof rb' as RB. pose proof sb' as SB. destruct band_gain_le as [[G0 G1] _]. assert (BG : band_gain q' <= 3500) by (destruct gain_cases as [[_ B]|[_ B]]; lra). split; [|exact BG].
    destruct stages as (h1 & h2 & h3 & h4 & ES & H1 & H2 & H3 & H4 & FA). destruct (FR_ofZ 0 ltac:(lia)) as [_ F0]. destruct (FR_ofZ 1 ltac:(lia)) as [_ F1].
    inversion FA as [|? ? A1 FA1]; subst. inversion FA1 as [|? ? A2 FA2]; subst. inversion FA2 as [|? ? A3 FA3]; subst. inversion FA3 as [|? ? A4 _]; subst.
    split; [|split; [|split; [exact damped_q|split]]].
    - constructor; [exact (proj1 (tb0 sr cf Hsr))|]. do 4 (constructor; [assumption|]). constructor; [exact F0|]. constructor; [exact F1|]. constructor; [exact (proj1 (b1b A sr cf Hsr Fcf Hcf))|].
      constructor; [exact (proj1 (b2b A sr cf Hsr Fcf Hcf))|]. constructor; [exact (proj1 (gain_size A sr cf Hsr Fcf Hcf))|]. constructor.
    - lra.
    - assert (B : 48 / 100000000 <= (1 - r) * (r * s)).
      { apply Rle_trans with (69 / 100000 * (6 / 10 * (116 / 100000))); [lra|]. apply Rmult_le_compat; try lra. apply Rmult_le_compat; lra. }
      apply Rle_trans with (1 := resonance_max (48 / 100000000) ltac:(lra) B). simpl. lra.
    - fold q'. rewrite ES. unfold band_gain in BG. rewrite ES in BG. cbn [fold_right] in BG. rewrite Rmult_1_r in BG. set (g := FR (e_gain q)) in *. clearbody g.
      assert (T3 : 1 / 20000000000000000000 <= 99 / 100 * T * (99 / 100 * T * (99 / 100 * T))).
      { apply Rle_trans with (99 / 100 * (1 / 262144) * (99 / 100 * (1 / 262144) * (99 / 100 * (1 / 262144)))); [lra|]. apply Rmult_le_compat; try lra. apply Rmult_le_compat; lra. }
      assert (H234 : 99 / 100 * T * (99 / 100 * T * (99 / 100 * T)) <= h2 * (h3 * h4)).
      { assert (99 / 100 * T * (99 / 100 * T) <= h3 * h4) by (apply Rmult_le_compat; lra). apply Rmult_le_compat; try lra. apply Rmult_le_pos; lra. }
      assert (IG : / 1000000000000000 <= / g) by (apply Rinv_le_contravar; lra).
      assert (LO : 99 / 100 * (1 / 262144) * / 1000000000000000 <= h1 / g) by (apply Rmult_le_compat; lra).
      assert (Y : 109 / 100 * (26135 / 10000 / (1 - r)) * T <= 2).
      { assert (/ (1 - r) <= / (69 / 100000)) by (apply Rinv_le_contravar; lra). assert (0 < / (1 - r)) by (apply Rinv_0_lt_compat; lra). assert (T * / (1 - r) <= 1 / 4000 * / (69 / 100000)) by (apply Rmult_le_compat; lra). unfold Rdiv at 2. lra. }
      assert (Y' : 109 / 100 * (10826 / 10000 / (1 - r)) * T <= 2).
      { assert (/ (1 - r) <= / (69 / 100000)) by (apply Rinv_le_contravar; lra). assert (0 < / (1 - r)) by (apply Rinv_0_lt_compat; lra). assert (T * / (1 - r) <= 1 / 4000 * / (69 / 100000)) by (apply Rmult_le_compat; lra). unfold Rdiv at 2. lra. }
      assert (UP : h1 / g <= 100000000000000000000000).
      { apply Rmult_le_reg_r with (h2 * (h3 * h4)); [lra|]. apply Rle_trans with (1 := BG). lra. }
      assert (TL : / 2 ^ 100 <= 1 / 1000000) by (simpl; lra). assert (TL' : / 2 ^ 100 <= 99 / 100 * (1 / 262144) * / 1000000000000000) by (simpl; lra). assert (TU : 100000000000000000000000 <= 2 ^ 80) by (simpl; lra).
      set (p100 := / 2 ^ 100) in *. set (p80 := 2 ^ 80) in *. clearbody p100 p80. repeat (constructor; [lra|]). constructor.
  Qed.
  (** *** at the usual sample rates *)
  Hypothesis H48 : (sr <= 48000)%Z.
  Lemma T_48 : 1 / 48000 <= T.
  Proof. unfold T, Rdiv. apply Rmult_le_compat_l; [lra|]. apply Rinv_le_contravar; [apply IZR_lt; lia|apply (IZR_le _ 48000), H48]. Qed.
  Lemma low_sizes : w <= 3 / 2 -> 24 / 1000000 <= (1 - r) * (r * s).
  Proof.
    intros H. pose proof T_48 as T48. pose proof PI_b as PB. destruct t_w as [_ [T2 [W0 _]]]. pose proof rb' as RB.
    assert (C : 49 <= c) by exact (proj1 Hcf). assert (E : 2998 / 100 <= e) by (unfold e; lra).
    assert (PT : 62830 / 10000 * (1 / 48000) <= 2 * PI * T) by (apply Rmult_le_compat; lra).
    assert (TL : 39 / 10000 <= t). { replace t with (1019 / 1000 * e * (2 * PI * T)) by (unfold t; ring). apply Rle_trans with (1019 / 1000 * (2998 / 100) * (62830 / 10000 * (1 / 48000))); [lra|apply Rmult_le_compat; lra]. }
    assert (WL : 6413 / 1000000 <= w). { replace w with (c * (2 * PI * T)) by (unfold w; ring). apply Rle_trans with (49 * (62830 / 10000 * (1 / 48000))); [lra|apply Rmult_le_compat; lra]. }
    assert (SL : 64 / 10000 <= s).
    { destruct (Rle_dec w (1 / 10)) as [D|D]; [|pose proof (sin_above_low w ltac:(lra)) as X; fold s in X; lra]. pose proof (sin_above w ltac:(lra)) as X. fold s in X. apply Rle_trans with (2 := X).
      apply Rle_trans with (6413 / 1000000 * (1 - 1 / 10 * (1 / 10) / 6)); [lra|]. assert (w * w <= 1 / 10 * (1 / 10)) by (apply Rmult_le_compat; lra). apply Rmult_le_compat; lra. }
    assert (RL : r <= 9962 / 10000). { unfold r. clear - TL T2. generalize dependent t. intros x H1 H2. interval. }
    assert (RR : 3785 / 1000000 <= (1 - r) * r). { revert RB RL. generalize r. clear. intros. nra. }
    rewrite <- Rmult_assoc. apply Rle_trans with (3785 / 1000000 * (64 / 10000)); [lra|apply Rmult_le_compat; lra].
  Qed.
  Lemma high_sizes : 3 / 2 <= w -> 1 / 100 <= (1 - r) * (r * s).
  Proof.
    intros H. destruct t_w as [[T1 _] [T2 _]]. destruct (z_high H) as [_ SL]. pose proof rb' as RB.
    assert (TL : 16 / 100 <= t) by lra. assert (RL : r <= 86 / 100). { unfold r. clear - TL T2. generalize dependent t. intros x H1 H2. interval. }
    assert (RR : 84 / 1000 <= (1 - r) * r). { revert RB RL. generalize r. clear. intros. nra. }
    rewrite <- Rmult_assoc. apply Rle_trans with (84 / 1000 * (121 / 1000)); [lra|apply Rmult_le_compat; lra].
  Qed.
  Lemma error_of R G res g : 0 <= res <= R -> 0 <= g <= G -> 1600 * (/ 2 ^ 53 * res) * g <= 1600 * / 2 ^ 53 * R * G.
  Proof.
    intros H1 H2. assert (0 < / 2 ^ 53) by (apply Rinv_0_lt_compat, pow_lt; lra). set (x := / 2 ^ 53) in *. clearbody x. replace (1600 * (x * res) * g) with (1600 * x * (res * g)) by ring. replace (1600 * x * R * G) with (1600 * x * (R * G)) by ring.
    apply Rmult_le_compat_l; [lra|]. apply Rmult_le_compat; lra.
  Qed.
  Lemma channel_error : band_error q' <= 6 / 1000000 /\ band_error q' + / 2 ^ 29 * band_gain q' + / 2 ^ 400 <= 1 / 100000.
  Proof.
    destruct channel_moderate as [(_ & _ & DA & _ & GA) _]. pose proof (resonance_pos _ DA) as R0. destruct (band_gain_range _ GA) as [G0 _]. fold q' in R0, G0.
    assert (P4 : / 2 ^ 400 <= / 2 ^ 30) by (apply Rinv_le_contravar; [apply pow_lt; lra|apply Rle_pow; [lra|lia]]).
    assert (E29 : / 2 ^ 29 = 1 / 536870912) by (simpl; lra). assert (E30 : / 2 ^ 30 = 1 / 1073741824) by (simpl; lra). assert (E53 : / 2 ^ 53 = 1 / 9007199254740992) by (simpl; lra). rewrite E29. rewrite E30 in P4.
    set (p400 := / 2 ^ 400) in *. clearbody p400. unfold band_error.
    destruct gain_cases as [[H G]|[H G]].
    - pose proof (resonance_max (24 / 1000000) ltac:(lra) (low_sizes H)) as RM. pose proof (error_of (201 / 100 / (24 / 1000000)) 390 (resonance q') (band_gain q') ltac:(lra) ltac:(lra)) as X. rewrite E53 in *. lra.
    - pose proof (resonance_max (1 / 100) ltac:(lra) (high_sizes H)) as RM. pose proof (error_of (201 / 100 / (1 / 100)) 3500 (resonance q') (band_gain q') ltac:(lra) ltac:(lra)) as X. rewrite E53 in *. lra.
  Qed.
End Channel.
