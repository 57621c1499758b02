(** The coefficients of one gammatone channel in binary64 with accurate elementary functions (C101). *)
From Coq Require Import ZArith List Bool Reals Lra Lia Floats Psatz.
From Flocq Require Import Core.Core IEEE754.BinarySingleNaN IEEE754.PrimFloat.
From Interval Require Import Tactic.
From Verif Require Import Base.Res Base.Num Base.NumF Base.Cplx Model.Erb Spec.LibmSpec Proofs.B64P Proofs.RoundP Proofs.BoundP Proofs.StableP Proofs.RelP Spec.StableSpec Proofs.StableBankP Proofs.ErbNormP.
Open Scope R_scope.

Lemma PI_b : 31415 / 10000 < PI < 31416 / 10000. Proof. split; interval. Qed.
Ltac solve_mid := unfold mid, lo30, hi30; split; lra.

Lemma abs_mul_le a b x y : Rabs x <= a -> Rabs y <= b -> Rabs (x * y) <= a * b.
Proof. intros. rewrite Rabs_mult. apply Rmult_le_compat; (apply Rabs_pos || assumption). Qed.
Lemma scaled_sq TT m dd P Q : 1 / 262144 <= TT <= 1 / 4000 -> 232 / 100000 <= m <= 11 -> 0 <= dd <= 5 / 10000000000 ->
  TT * m * (TT * m) - 4 * (TT * m) * (dd * TT) <= P * P + Q * Q <= TT * m * (TT * m) + 4 * (TT * m) * (dd * TT) + 2 * (dd * TT) * (dd * TT) -> (7 / 100000000000000000) <= P * P + Q * Q <= (8 / 1000000).
Proof.
  intros HT MB Hd X.
    assert (T2 : 1 / 262144 * (1 / 262144) <= TT * TT <= 1 / 4000 * (1 / 4000)) by (split; apply Rmult_le_compat; lra).
    assert (L1 : 50 / 10000000 <= m * m - 4 * m * dd) by nra. assert (L2 : m * m + 4 * m * dd + 2 * dd * dd <= 123) by nra.
    replace (TT * m * (TT * m) - 4 * (TT * m) * (dd * TT)) with (TT * TT * (m * m - 4 * m * dd)) in X by ring.
    replace (TT * m * (TT * m) + 4 * (TT * m) * (dd * TT) + 2 * (dd * TT) * (dd * TT)) with (TT * TT * (m * m + 4 * m * dd + 2 * dd * dd)) in X by ring.
    destruct X as [X1 X2]. split; [apply Rle_trans with (2 := X1)|apply Rle_trans with (1 := X2)].
    - apply Rle_trans with (1 / 262144 * (1 / 262144) * (50 / 10000000)); [lra|apply Rmult_le_compat; lra].
    - apply Rle_trans with (1 / 4000 * (1 / 4000) * 123); [|lra]. apply Rmult_le_compat; try lra. nra.
Qed.

Section Channel.
  Context {L : Libm PrimFloat.float} (A : accurate L).
  Variables (sr : Z) (cf : PrimFloat.float).
  Hypotheses (Hsr : (4000 <= sr <= 262144)%Z) (Fcf : fin cf) (Hcf : 49 <= FR cf <= 48 / 100 * IZR sr).
  Let c := FR cf.
  Let S : R := IZR sr.
  Let T := 1 / S.
  Let e := c / (926449 / 100000) + 247 / 10.
  Let B := 1019 / 1000 * 2 * PI * e.
  Let t := B * T.
  Let w := 2 * c * PI * T.
  Let Tf : PrimFloat.float := ndiv (nofZ 1) (nofZ sr).
  Let ef : PrimFloat.float := nadd (ndiv cf earQ) minBW.
  Let Bf : PrimFloat.float := nmul (nmul (nmul (ndec 1019 3) (nofZ 2)) mpi) ef.

  Lemma S_b : 4000 <= S <= 262144. Proof. unfold S. split; apply IZR_le; lia. Qed.
  Lemma T_b : 1 / 262144 <= T <= 1 / 4000.
  Proof. pose proof S_b. unfold T, Rdiv. split; apply Rmult_le_compat_l; try lra; apply Rinv_le_contravar; lra. Qed.
  Lemma ST : S * T = 1. Proof. pose proof S_b. unfold T. field. lra. Qed.
  Lemma c_b : 49 <= c <= 125830. Proof. pose proof S_b. fold S in Hcf. fold c in Hcf. lra. Qed.
  Lemma cT_b : 49 / 262144 <= c * T <= 48 / 100.
  Proof. pose proof T_b. pose proof c_b. pose proof ST. fold S in Hcf. fold c in Hcf. split; nra. Qed.
  Lemma t_b : 7 / 10000 <= t <= 1 / 2.
  Proof.
    pose proof PI_b. pose proof T_b. pose proof cT_b. assert (E : t = 1019 / 1000 * 2 * PI * (c * T / (926449 / 100000) + 247 / 10 * T)) by (unfold t, B, e; field). rewrite E.
    assert (299 / 10 / 262144 <= c * T / (926449 / 100000) + 247 / 10 * T <= 581 / 10000) by lra. nra.
  Qed.
  Lemma w_b' : 117 / 100000 <= w <= 302 / 100.
  Proof. pose proof PI_b. pose proof cT_b. assert (E : w = 2 * PI * (c * T)) by (unfold w; ring). rewrite E. nra. Qed.
  Lemma sin_w : 116 / 100000 <= sin w.
  Proof.
    pose proof w_b'. destruct (Rle_dec w 1) as [C|C]; [|interval with (i_bisect w)].
    assert (w - w * w * w / 6 <= sin w). { pose proof (sin_bound w 0 ltac:(lra) ltac:(pose proof PI_b; lra)) as [X _]. unfold sin_approx, sum_f_R0, sin_term in X. cbn [Nat.mul Nat.add fact pow INR] in X. lra. }
    nra.
  Qed.

  Lemma T_rel : rel 1 Tf T.
  Proof.
    pose proof S_b. pose proof T_b. apply (divw 0 0); try lra; [apply (rel_ofZ 1); lia|apply rel_ofZ; lia|]. fold S. fold T. solve_mid.
  Qed.
  Lemma earQ_rel : rel 1 (earQ : PrimFloat.float) (926449 / 100000).
  Proof. apply (divw 0 0); try lra; [apply (rel_ofZ 926449); lia|apply (rel_ofZ 100000); lia|solve_mid]. Qed.
  Lemma minBW_rel : rel 1 (minBW : PrimFloat.float) (247 / 10).
  Proof. apply (divw 0 0); try lra; [apply (rel_ofZ 247); lia|apply (rel_ofZ 10); lia|solve_mid]. Qed.
  Lemma b1019_rel : rel 1 (ndec 1019 3 : PrimFloat.float) (1019 / 1000).
  Proof. apply (divw 0 0); try lra; [apply (rel_ofZ 1019); lia|apply (rel_ofZ 1000); lia|solve_mid]. Qed.
  Lemma cf_rel : rel 0 cf c. Proof. apply rel_exact, Fcf. Qed.
  Lemma e_b : 299 / 10 <= e <= 13700. Proof. pose proof c_b. unfold e. lra. Qed.
  Lemma e_rel : rel 3 ef e.
  Proof.
    pose proof c_b. pose proof e_b. apply (addw 2); try lra.
    - apply (divw 0 1); try lra; [exact cf_rel|exact earQ_rel|solve_mid].
    - apply (rel_weaken 1); [exact minBW_rel|lra|lra].
    - fold e. solve_mid.
  Qed.
  Lemma B_b : 190 <= B <= 100000. Proof. pose proof e_b. pose proof PI_b. unfold B. nra. Qed.
  Lemma B_rel : rel 8 Bf B.
  Proof.
    pose proof e_b. pose proof PI_b. pose proof B_b. apply (mulw 4 3); try lra; [|exact e_rel|fold B; solve_mid].
    apply (mulw 2 1); try lra; [|exact (pi_rel A)|solve_mid].
    apply (mulw 1 0); try lra; [exact b1019_rel|apply (rel_ofZ 2); lia|solve_mid].
  Qed.
  Lemma t_rel : rel 10 (nmul Bf Tf) t.
  Proof.
    pose proof B_b. pose proof T_b. pose proof t_b. apply (mulw 8 1); try lra; [exact B_rel|exact T_rel|fold t; solve_mid].
  Qed.
  Lemma t_near : fin (nmul Bf Tf) /\ Rabs (FR (nmul Bf Tf) - t) <= 5 * dl.
  Proof. pose proof t_b. pose proof t_rel as [F H1]. split; [exact F|]. apply Rle_trans with (1 := H1). pose proof dl_pos. nra. Qed.
  (** the angle of the centre frequency, however the product is ordered *)
  Lemma w_rel1 : rel 5 (nmul (nmul (nmul (nofZ 2) cf) mpi) Tf) w.
  Proof.
    pose proof PI_b. pose proof c_b. pose proof T_b. pose proof w_b'. apply (mulw 3 1); try lra; [|exact T_rel|nra|fold w; solve_mid].
    apply (mulw 1 1); try lra; [|exact (pi_rel A)|unfold mid, lo30, hi30; nra].
    apply (mulw 0 0); try lra; [apply (rel_ofZ 2); lia|exact cf_rel|solve_mid].
  Qed.
  Lemma w_rel2 : rel 5 (nmul (nmul (nmul cf (nofZ 2)) mpi) Tf) w.
  Proof.
    pose proof PI_b. pose proof c_b. pose proof T_b. pose proof w_b'. unfold w. rewrite (Rmult_comm 2 c). apply (mulw 3 1); try lra; [|exact T_rel|nra|rewrite (Rmult_comm c 2); fold w; solve_mid].
    apply (mulw 1 1); try lra; [|exact (pi_rel A)|unfold mid, lo30, hi30; nra].
    apply (mulw 0 0); try lra; [exact cf_rel|apply (rel_ofZ 2); lia|solve_mid].
  Qed.
  Lemma w_rel4 : rel 5 (nmul (nmul (nmul (nofZ 4) cf) mpi) Tf) (2 * w).
  Proof.
    pose proof PI_b. pose proof c_b. pose proof T_b. pose proof w_b'. replace (2 * w) with (4 * c * PI * T) by (unfold w; ring). apply (mulw 3 1); try lra; [|exact T_rel|nra|replace (4 * c * PI * T) with (2 * w) by (unfold w; ring); solve_mid].
    apply (mulw 1 1); try lra; [|exact (pi_rel A)|unfold mid, lo30, hi30; nra].
    apply (mulw 0 0); try lra; [apply (rel_ofZ 4); lia|exact cf_rel|solve_mid].
  Qed.
  Lemma near_of k x r M d : rel k x r -> 0 <= r <= M -> 0 <= k -> k * M <= d -> Rabs (FR x - r) <= d * dl.
  Proof. intros [_ H] [H1 H2] Hk Hd. apply Rle_trans with (1 := H). pose proof dl_pos. replace (k * dl * r) with (k * r * dl) by ring. apply Rmult_le_compat_r; [lra|]. nra. Qed.

  (** *** the damping *)
  Let r := exp (- t).
  Lemma r_b : 6 / 10 <= r <= 1 - 69 / 100000.
  Proof. pose proof t_b. unfold r. generalize dependent t. intros x Hx. clear - Hx. split; interval. Qed.
  Let tf := nmul Bf Tf.
  Lemma E_rel : rel 7 (mexp tf) (exp t).
  Proof. destruct t_near as [F H]. pose proof t_b. apply (rel_weaken (5 + 2)); [|lra|left; apply exp_pos]. apply (exp_rel A); [exact F|exact H|lra|rewrite Rabs_pos_eq; lra]. Qed.
  Lemma E_1 : 1 <= exp t <= 2.
  Proof. pose proof t_b. generalize dependent t. intros x Hx. clear - Hx. split; [|interval]. rewrite <- exp_0. left. apply exp_increasing. lra. Qed.
  Lemma E_r : / exp t = r. Proof. unfold r. rewrite exp_Ropp. reflexivity. Qed.
  Lemma r_rel : rel 7 (mexp (PrimFloat.opp tf)) r.
  Proof.
    destruct t_near as [F H]. pose proof t_b. apply (rel_weaken (5 + 2)); [|lra|left; apply exp_pos]. apply (exp_rel A); [apply fin_opp, F| |lra|rewrite Rabs_Ropp, Rabs_pos_eq; lra].
    rewrite FR_opp. replace (- FR tf - - t) with (- (FR tf - t)) by ring. rewrite Rabs_Ropp. exact H.
  Qed.
  Lemma rr : exp (t * -2) = r * r. Proof. unfold r. rewrite <- exp_plus. f_equal. ring. Qed.
  Lemma B2_rel : rel 13 (mexp (nmul tf (nofZ (-2)))) (r * r).
  Proof.
    rewrite <- rr. destruct t_near as [F H]. pose proof t_b. apply (rel_weaken (11 + 2)); [|lra|left; apply exp_pos].
    assert (X : nr 1 (nmul tf (nofZ (-2))) (t * -2) 11).
    { apply (nr_mul 1 _ _ 5 _ _ 0 (1 / 2) 2); try lra; [apply nr_near; assumption|apply (nr_ofZ (-2)); lia|exact scale_1|rewrite Rabs_pos_eq; lra|rewrite Rabs_left; lra]. }
    destruct X as [FX HX]. rewrite Rmult_1_l, Rmult_1_r in HX. apply (exp_rel A); [exact FX|exact HX|lra|rewrite Rabs_left; lra].
  Qed.
  Lemma e2_rel : rel 13 (mexp (nmul (nmul (nofZ 2) Bf) Tf)) (exp (2 * t)).
  Proof.
    pose proof t_b. pose proof B_b. pose proof T_b. apply (rel_weaken (11 + 2)); [|lra|left; apply exp_pos].
    assert (X : rel 11 (nmul (nmul (nofZ 2) Bf) Tf) (2 * t)).
    { unfold t. rewrite <- Rmult_assoc. apply (mulw 9 1); try lra; [|exact T_rel|rewrite Rmult_assoc; fold t; solve_mid]. apply (mulw 0 8); try lra; [apply (rel_ofZ 2); lia|exact B_rel|solve_mid]. }
    apply (exp_rel A); [exact (proj1 X)|apply (near_of 11 _ _ 1); lra || exact X|lra|rewrite Rabs_pos_eq; lra].
  Qed.
  Lemma cosb x : Rabs (cos x) <= 1. Proof. apply Rabs_le. pose proof (COS_bound x). lra. Qed.
  Lemma sinb x : Rabs (sin x) <= 1. Proof. apply Rabs_le. pose proof (SIN_bound x). lra. Qed.
  Let w1 := nmul (nmul (nmul (nofZ 2) cf) mpi) Tf.
  Let w2 := nmul (nmul (nmul cf (nofZ 2)) mpi) Tf.
  Let w4 := nmul (nmul (nmul (nofZ 4) cf) mpi) Tf.
  Lemma angle x v : rel 5 x v -> 0 <= v <= 604 / 100 -> nr 1 (mcos x) (cos v) 32 /\ nr 1 (msin x) (sin v) 32.
  Proof.
    intros R Hv. assert (H : Rabs (FR x - v) <= 31 * dl) by (apply (near_of 5 _ _ (604 / 100)); lra || exact R).
    assert (V : Rabs v <= 40) by (rewrite Rabs_pos_eq; lra).
    destruct (cos_near A 31 x v (proj1 R) H ltac:(lra) V) as [F1 H1]. destruct (sin_near A 31 x v (proj1 R) H ltac:(lra) V) as [F2 H2].
    split; apply nr_near; try assumption; replace (31 + 1) with 32 in * by lra; assumption.
  Qed.
  Lemma ang1 : nr 1 (mcos w1) (cos w) 32 /\ nr 1 (msin w1) (sin w) 32. Proof. apply angle; [exact w_rel1|pose proof w_b'; lra]. Qed.
  Lemma ang2 : nr 1 (mcos w2) (cos w) 32 /\ nr 1 (msin w2) (sin w) 32. Proof. apply angle; [exact w_rel2|pose proof w_b'; lra]. Qed.
  Lemma ang4 : nr 1 (mcos w4) (cos (2 * w)) 32 /\ nr 1 (msin w4) (sin (2 * w)) 32. Proof. apply angle; [exact w_rel4|pose proof w_b'; lra]. Qed.
  Lemma B1_nr : nr 1 (ndiv (nmul (nofZ (-2)) (mcos w1)) (mexp tf)) (-2 * cos w / exp t) 200.
  Proof.
    pose proof (cosb w). assert (M2 : Rabs (-2) <= 2) by (rewrite Rabs_left; lra).
    apply (nr_div 1 _ _ 65 _ _ 7 2); try lra; [|exact E_rel|exact scale_1| |apply E_1].
    - apply (nr_mul 1 _ _ 0 _ _ 32 2 1); try lra; [apply (nr_ofZ (-2)); lia|apply ang1|exact scale_1].
    - rewrite Rabs_mult. apply Rle_trans with (2 * 1); [apply Rmult_le_compat; (apply Rabs_pos || assumption)|lra].
  Qed.
  Lemma within_1_of x : fin x -> Rabs (FR x) <= 1 -> within 1 x.
  Proof. intros F H. apply within_of; [reflexivity|exact F|rewrite FR_1; exact H]. Qed.
  Lemma den_stable : within 1 (mexp (nmul tf (nofZ (-2)))) /\ PrimFloat.ltb (PrimFloat.abs (ndiv (nmul (nofZ (-2)) (mcos w1)) (mexp tf))) (1 + mexp (nmul tf (nofZ (-2)))) = true.
  Proof.
    pose proof r_b as RB. assert (Q : 69 / 100000 * (69 / 100000) <= (1 - r) * (1 - r)) by (apply Rmult_le_compat; lra). pose proof dl_pos as D. destruct B2_rel as [F2 H2]. destruct B1_nr as [F1 H1]. rewrite Rmult_1_l, Rmult_1_r in H1. set (b2 := mexp (nmul tf (nofZ (-2)))) in *. set (b1 := ndiv (nmul (nofZ (-2)) (mcos w1)) (mexp tf)) in *.
    assert (RR : 36 / 100 <= r * r <= 1 - 69 / 100000) by nra. assert (H2' : Rabs (FR b2 - r * r) <= 13 * dl) by (apply Rle_trans with (1 := H2); nra). clear H2.
    assert (C1 : Rabs (-2 * cos w / exp t) <= 2 * r).
    { unfold Rdiv. rewrite E_r, Rabs_mult, (Rabs_pos_eq r) by lra. apply Rmult_le_compat_r; [lra|]. rewrite Rabs_mult, (Rabs_left (-2)) by lra. pose proof (cosb w). lra. }
    split; [apply within_1_of; [exact F2|tri]|].
    assert (F1' : fin 1) by reflexivity. assert (SB : Rabs (FR 1 + FR b2) <= 3) by (rewrite FR_1; tri).
    destruct (op_err (1 + b2)%float (FR 1 + FR b2) 3 (FR_add _ _ F1' F2) SB) as [FS ES]; [pose proof tiny_small; lra|pose proof big_large; lra|]. rewrite FR_1 in ES.
    assert (FA : fin (PrimFloat.abs b1)) by (unfold fin in *; rewrite abs_equiv, is_finite_Babs; exact F1).
    rewrite FR_ltb by assumption. replace (FR (PrimFloat.abs b1)) with (Rabs (FR b1)) by (unfold FR; rewrite abs_equiv, B2R_Babs; reflexivity).
    case Raux.Rlt_bool_spec; [reflexivity|]. intros X. exfalso. pose proof u_small. pose proof u_pos.
    assert (B1' : Rabs (FR b1) <= 2 * r + 200 * dl) by tri. clear C1 H1 SB. apply Rabs_le_inv in H2'. apply Rabs_le_inv in ES. lra.
  Qed.

  (** *** the numerators *)
  Lemma T_scale : scale T. Proof. pose proof T_b. unfold scale. lra. Qed.
  Lemma T_nr : nr T Tf 1 1. Proof. destruct T_rel as [F H]. split; [exact F|]. rewrite Rmult_1_r. exact H. Qed.
  Lemma s_b : (fin (s1 : PrimFloat.float) /\ Rabs (FR s1) <= 1) /\ (fin (s2 : PrimFloat.float) /\ Rabs (FR s2) <= 3).
  Proof.
    assert (W1 : within 1 s1) by reflexivity. assert (W2 : within (F_ofZ 3) s2) by reflexivity. destruct (FR_ofZ 3 ltac:(lia)) as [E3 F3].
    apply within_fin in W1; [|reflexivity]. apply within_fin in W2; [|exact F3]. rewrite FR_1 in W1. rewrite E3 in W2. split; assumption.
  Qed.
  Let af := nmul (nmul (mcos w2) (nofZ 2)) Tf.
  Let bf := nmul (msin w2) Tf.
  Lemma a_nr : nr T (ndiv af (mexp tf)) (cos w * 2 * 1 / exp t) 200.
  Proof.
    pose proof (cosb w). pose proof T_scale as TS. assert (M2 : Rabs 2 <= 2) by (rewrite Rabs_pos_eq; lra). assert (M1 : Rabs 1 <= 1) by (rewrite Rabs_pos_eq; lra).
    assert (C2 : Rabs (cos w * 2) <= 2) by (rewrite Rabs_mult, (Rabs_pos_eq 2); lra).
    apply (nr_div T _ _ 68 _ _ 7 2); try lra; [|exact E_rel|exact TS|rewrite Rmult_1_r; exact C2|apply E_1].
    apply (nr_mulr T _ _ 65 _ _ 1 2 1); try lra; [|exact T_nr|exact TS].
    apply (nr_mul 1 _ _ 32 _ _ 0 1 2); try lra; [apply ang2|apply (nr_ofZ 2); lia|exact scale_1].
  Qed.
  Lemma b_nr s : fin s -> Rabs (FR s) <= 3 -> nr T (ndiv (nmul (nmul bf (nofZ 2)) s) (mexp tf)) (sin w * 1 * 2 * FR s / exp t) 600.
  Proof.
    intros Fs Hs. pose proof (sinb w). pose proof T_scale as TS. assert (M2 : Rabs 2 <= 2) by (rewrite Rabs_pos_eq; lra). assert (M1 : Rabs 1 <= 1) by (rewrite Rabs_pos_eq; lra).
    assert (C1 : Rabs (sin w * 1) <= 1) by (rewrite Rmult_1_r; assumption). assert (C2 : Rabs (sin w * 1 * 2) <= 2) by (rewrite Rabs_mult, (Rabs_pos_eq 2); lra).
    assert (C3 : Rabs (sin w * 1 * 2 * FR s) <= 6) by (rewrite Rabs_mult; pose proof (Rabs_pos (FR s)); nra).
    apply (nr_div T _ _ 208 _ _ 7 6); try lra; [|exact E_rel|exact TS|apply E_1].
    apply (nr_mul T _ _ 69 _ _ 0 2 3); try lra; [|apply nr_exact, Fs|exact TS].
    apply (nr_mul T _ _ 34 _ _ 0 1 2); try lra; [|apply (nr_ofZ 2); lia|exact TS].
    apply (nr_mulr T _ _ 32 _ _ 1 1 1); try lra; [apply ang2|exact T_nr|exact TS].
  Qed.
  Lemma num_bound p : Rabs p <= 8 -> forall x, nr T x p 801 -> fin (ndiv (nopp x) (nofZ 2)) /\ Rabs (FR (ndiv (nopp x) (nofZ 2))) <= 5 * T.
  Proof.
    intros Hp x X. pose proof T_scale as TS. pose proof T_b.
    assert (Y : nr T (ndiv (nopp x) (nofZ 2)) (- p / 2) 1603).
    { apply (nr_div T _ _ 801 _ _ 0 8); try lra; [apply nr_opp, X|apply (rel_ofZ 2); lia|exact TS|rewrite Rabs_Ropp; exact Hp]. }
    split; [exact (proj1 Y)|]. assert (P2 : Rabs (- p / 2) <= 4) by tri. pose proof (nr_bound _ _ _ _ 4 Y TS P2 ltac:(lra)). lra.
  Qed.
  Lemma qdiv p : Rabs p <= 6 -> Rabs (p / exp t) <= 6.
  Proof. intros H. unfold Rdiv. rewrite E_r, Rabs_mult, (Rabs_pos_eq r) by (pose proof r_b; lra). pose proof r_b. pose proof (Rabs_pos p). nra. Qed.
  Lemma nums s : fin s -> Rabs (FR s) <= 3 ->
    (fin (ndiv (nopp (nadd (ndiv af (mexp tf)) (ndiv (nmul (nmul bf (nofZ 2)) s) (mexp tf)))) (nofZ 2)) /\ Rabs (FR (ndiv (nopp (nadd (ndiv af (mexp tf)) (ndiv (nmul (nmul bf (nofZ 2)) s) (mexp tf)))) (nofZ 2))) <= 5 * T) /\
    (fin (ndiv (nopp (nsub (ndiv af (mexp tf)) (ndiv (nmul (nmul bf (nofZ 2)) s) (mexp tf)))) (nofZ 2)) /\ Rabs (FR (ndiv (nopp (nsub (ndiv af (mexp tf)) (ndiv (nmul (nmul bf (nofZ 2)) s) (mexp tf)))) (nofZ 2))) <= 5 * T).
  Proof.
    intros Fs Hs. pose proof a_nr as AN. pose proof (b_nr s Fs Hs) as BN. pose proof T_scale as TS.
    assert (C1 : Rabs (cos w * 2 * 1 / exp t) <= 2).
    { unfold Rdiv. rewrite E_r, Rabs_mult, (Rabs_pos_eq r) by (pose proof r_b; lra). pose proof r_b. pose proof (cosb w). rewrite Rmult_1_r, Rabs_mult, (Rabs_pos_eq 2) by lra. pose proof (Rabs_pos (cos w)). nra. }
    assert (C2 : Rabs (sin w * 1 * 2 * FR s / exp t) <= 6).
    { apply qdiv. rewrite Rmult_1_r, !Rabs_mult, (Rabs_pos_eq 2) by lra. pose proof (sinb w). pose proof (Rabs_pos (FR s)). pose proof (Rabs_pos (sin w)). nra. }
    split.
    - apply (num_bound (cos w * 2 * 1 / exp t + sin w * 1 * 2 * FR s / exp t)); [tri|]. apply (nr_add T _ _ 200 _ _ 600 2 6); try lra; assumption.
    - apply (num_bound (cos w * 2 * 1 / exp t - sin w * 1 * 2 * FR s / exp t)); [tri|]. apply (nr_sub T _ _ 200 _ _ 600 2 6); try lra; assumption.
  Qed.

  (** *** the gain *)
  Let C2 := cos (2 * w).
  Let S2 := sin (2 * w).
  Lemma xe : nr 1 (nmul (mexp n0) (mcos w4)) (1 * C2) 35 /\ nr 1 (nmul (mexp n0) (msin w4)) (1 * S2) 35.
  Proof.
    destruct (FR_ofZ 0 ltac:(lia)) as [E0 F0]. assert (X : rel (0 + 2) (mexp (@n0 PrimFloat.float NumF)) (exp 0)).
    { apply (exp_rel A); [exact F0| |lra|rewrite Rabs_R0; lra]. change (@n0 PrimFloat.float NumF) with (F_ofZ 0). rewrite E0, Rminus_0_r, Rabs_R0. lra. }
    rewrite exp_0 in X. assert (Y : nr 1 (mexp (@n0 PrimFloat.float NumF)) 1 2) by (apply (nr_weaken _ _ _ ((0 + 2) * 1)); [apply nr_rel; [exact X|lra|lra]|lra|exact scale_1]).
    assert (M1 : Rabs 1 <= 1) by (rewrite Rabs_pos_eq; lra). pose proof (cosb (2 * w)). pose proof (sinb (2 * w)).
    split; (apply (nr_mul 1 _ _ 2 _ _ 32 1 1); try lra; [exact Y|apply ang4|exact scale_1|assumption]).
  Qed.
  Lemma xr : nr 1 (nmul (mexp (PrimFloat.opp tf)) (mcos w1)) (r * cos w) 40 /\ nr 1 (nmul (mexp (PrimFloat.opp tf)) (msin w1)) (r * sin w) 40.
  Proof.
    pose proof r_b. assert (Y : nr 1 (mexp (PrimFloat.opp tf)) r 7) by (apply (nr_weaken _ _ _ (7 * 1)); [apply nr_rel; [exact r_rel|lra|lra]|lra|exact scale_1]).
    pose proof (cosb w). pose proof (sinb w). assert (Rabs r <= 1) by (rewrite Rabs_pos_eq; lra).
    split; (apply (nr_mul 1 _ _ 7 _ _ 32 1 1); try lra; [exact Y|apply ang1|exact scale_1]).
  Qed.
  Lemma T2_nr z : (Z.abs z <= 2)%Z -> nr T (nmul (nofZ z) Tf) (IZR z * 1) 3.
  Proof.
    intros Hz. apply (nr_mulr T _ _ 0 _ _ 1 2 1); try lra; [apply nr_ofZ; lia|exact T_nr|exact T_scale| |rewrite Rabs_pos_eq; lra].
    rewrite <- abs_IZR. apply (IZR_le _ 2), Hz.
  Qed.
  Let x01 : cplx PrimFloat.float := cscale (cexp (n0, w4)) (nmul (nofZ (-2)) Tf).
  Let x02 : cplx PrimFloat.float := cscale (cexp (nopp tf, w1)) (nmul (nofZ 2) Tf).
  Lemma x_part p q a b k : nr 1 a p 35 -> nr 1 b q 40 -> Rabs p <= 1 -> Rabs q <= 1 -> fin k -> Rabs (FR k) <= 4 ->
    nr T (nadd (nmul a (nmul (nofZ (-2)) Tf)) (nmul (nmul b (nmul (nofZ 2) Tf)) k)) (p * (-2 * 1) + q * (2 * 1) * FR k) 500.
  Proof.
    intros HA HB Hp Hq Fk Hk. pose proof T_scale as TS. assert (M2 : Rabs (-2 * 1) <= 2) by (rewrite Rabs_left; lra). assert (M3 : Rabs (2 * 1) <= 2) by (rewrite Rabs_pos_eq; lra).
    assert (P1 : Rabs (p * (-2 * 1)) <= 2) by (rewrite Rabs_mult; pose proof (Rabs_pos p); pose proof (Rabs_pos (-2 * 1)); nra).
    assert (Q1 : Rabs (q * (2 * 1)) <= 2) by (rewrite Rabs_mult; pose proof (Rabs_pos q); pose proof (Rabs_pos (2 * 1)); nra).
    assert (Q2 : Rabs (q * (2 * 1) * FR k) <= 8) by (rewrite Rabs_mult; pose proof (Rabs_pos (FR k)); pose proof (Rabs_pos (q * (2 * 1))); nra).
    apply (nr_add T _ _ 74 _ _ 400 2 8); try lra; try assumption.
    - apply (nr_mulr T _ _ 35 _ _ 3 1 2); try lra; [exact HA|apply (T2_nr (-2)); lia|exact TS].
    - apply (nr_mul T _ _ 90 _ _ 0 2 4); try lra; [|apply nr_exact, Fk|exact TS]. apply (nr_mulr T _ _ 40 _ _ 3 1 2); try lra; [exact HB|apply (T2_nr 2); lia|exact TS].
  Qed.
  Lemma x_norm k : fin k -> Rabs (FR k) <= 4 -> cfin (cadd x01 (cscale x02 k)) /\ (7 / 100000000000000000) <= nn (cadd x01 (cscale x02 k)) <= (8 / 1000000).
  Proof.
    intros Fk Hk. pose proof (cosb (2 * w)) as K1. pose proof (sinb (2 * w)) as K2. pose proof (cosb w) as K3. pose proof (sinb w) as K4. pose proof r_b as RB. pose proof T_b as TB. pose proof sin_w as SW. pose proof dl_pos as D.
    assert (RC : Rabs (r * cos w) <= 1) by (rewrite Rabs_mult, (Rabs_pos_eq r) by lra; pose proof (Rabs_pos (cos w)); nra).
    assert (RS : Rabs (r * sin w) <= 1) by (rewrite Rabs_mult, (Rabs_pos_eq r) by lra; pose proof (Rabs_pos (sin w)); nra).
    destruct xe as [E1 E2]. destruct xr as [R1 R2]. rewrite Rmult_1_l in E1, E2.
    destruct (x_part _ _ _ _ k E1 R1 K1 RC Fk Hk) as [F1 N1]. destruct (x_part _ _ _ _ k E2 R2 K2 RS Fk Hk) as [F2 N2].
    split; [split; assumption|]. set (p := C2 * (-2 * 1) + r * cos w * (2 * 1) * FR k) in *. set (q := S2 * (-2 * 1) + r * sin w * (2 * 1) * FR k) in *.
    assert (PQ : p * p + q * q = 4 * ((r * FR k - cos w) * (r * FR k - cos w) + sin w * sin w)).
    { unfold p, q, C2, S2. rewrite cos_2a, sin_2a. pose proof (sin2_cos2 w) as SC. unfold Rsqr in SC. clear - SC. set (s := sin w) in *. set (c0 := cos w) in *. set (rk := FR k).
      transitivity (4 * ((c0 * c0 - s * s) * (c0 * c0 - s * s) + (2 * s * c0) * (2 * s * c0)) - 8 * r * rk * ((c0 * c0 - s * s) * c0 + 2 * s * c0 * s) + 4 * (r * rk) * (r * rk) * (c0 * c0 + s * s)); [ring|].
      replace ((c0 * c0 - s * s) * (c0 * c0 - s * s) + 2 * s * c0 * (2 * s * c0)) with ((s * s + c0 * c0) * (s * s + c0 * c0)) by ring.
      replace ((c0 * c0 - s * s) * c0 + 2 * s * c0 * s) with (c0 * (s * s + c0 * c0)) by ring. replace (c0 * c0 + s * s) with (s * s + c0 * c0) by ring. rewrite SC.
      replace (4 * ((r * rk - c0) * (r * rk - c0) + s * s)) with (4 * (r * rk) * (r * rk) - 8 * r * rk * c0 + 4 * (s * s + c0 * c0)) by ring. rewrite SC. ring. }
    destruct (sqrt_prod (p * p + q * q)) as (m & M0 & EM); [nra|].
    assert (RK : Rabs (r * FR k) <= 4) by (rewrite Rabs_mult, (Rabs_pos_eq r) by lra; pose proof (Rabs_pos (FR k)); nra).
    assert (MB : 232 / 100000 <= m <= 11).
    { apply (from_sq _ _ _ _ EM M0); try lra. rewrite PQ. assert (D5 : Rabs (r * FR k - cos w) <= 5) by tri. apply Rabs_le_inv in D5. apply Rabs_le_inv in K4. assert (SS : 116 / 100000 * (116 / 100000) <= sin w * sin w <= 1 * 1) by (revert K4 SW; generalize (sin w); clear; intros; split; apply Rmult_le_compat; lra). assert (DD : 0 <= (r * FR k - cos w) * (r * FR k - cos w) <= 25) by (revert D5; generalize (r * FR k - cos w); clear; intros; nra). revert SS DD. generalize ((r * FR k - cos w) * (r * FR k - cos w)), (sin w * sin w). clear. intros; lra. }
    assert (NP : (T * p) * (T * p) + (T * q) * (T * q) = (T * m) * (T * m)) by (replace (T * p * (T * p) + T * q * (T * q)) with (T * T * (p * p + q * q)) by ring; rewrite EM; ring).
    assert (ED : 0 <= 500 * dl <= 5 / 10000000000) by lra. assert (TM : 0 <= T * m) by nra. assert (EP : 0 <= 500 * dl * T <= 5 / 10000000000 * T) by nra.
    pose proof (norm_pert _ _ _ _ (T * m) (500 * dl * T) NP ltac:(nra) ltac:(lra) N1 N2) as X.
    exact (scaled_sq T m (500 * dl) _ _ TB MB ED X).
  Qed.

  Let x5 : cplx PrimFloat.float := cadd (csub (cofr (ndiv (nofZ (-2)) (mexp (nmul (nmul (nofZ 2) Bf) Tf)))) (cscale (cexp (n0, w4)) (nofZ 2))) (cscale (cadd (cofr n1) (cexp (n0, w4))) (ndiv (nofZ 2) (mexp tf))).
  Lemma E2_1 : 1 <= exp (2 * t). Proof. pose proof t_b. rewrite <- exp_0. left. apply exp_increasing. lra. Qed.
  Lemma E2_r : / exp (2 * t) = r * r. Proof. rewrite <- rr, <- exp_Ropp. f_equal. ring. Qed.
  Lemma x5_norm : cfin x5 /\ (9 / 10000000000000) <= nn x5 <= 17.
  Proof.
    pose proof (cosb (2 * w)) as K1. pose proof (sinb (2 * w)) as K2. fold C2 in K1. fold S2 in K2. pose proof r_b as RB. pose proof dl_pos as D.
    destruct xe as [E1 E2]. rewrite Rmult_1_l in E1, E2. assert (M2 : Rabs 2 <= 2) by (rewrite Rabs_pos_eq; lra). assert (M2' : Rabs (-2) <= 2) by (rewrite Rabs_left; lra). assert (M1 : Rabs 1 <= 1) by (rewrite Rabs_pos_eq; lra). assert (M0 : Rabs 0 <= 1) by (rewrite Rabs_R0; lra).
    assert (D1 : nr 1 (ndiv (nofZ (-2)) (mexp (nmul (nmul (nofZ 2) Bf) Tf))) (-2 / exp (2 * t)) 53) by (apply (nr_div 1 _ _ 0 _ _ 13 2); try lra; [apply (nr_ofZ (-2)); lia|exact e2_rel|exact scale_1|exact E2_1]).
    assert (D2 : nr 1 (ndiv (nofZ 2) (mexp tf)) (2 / exp t) 29) by (apply (nr_div 1 _ _ 0 _ _ 7 2); try lra; [apply (nr_ofZ 2); lia|exact E_rel|exact scale_1|apply E_1]).
    unfold Rdiv in D1, D2. rewrite E2_r in D1. rewrite E_r in D2.
    assert (RR : 0 <= r * r <= 1 * 1) by (revert RB; generalize r; clear; intros; split; nra). assert (B1 : Rabs (-2 * (r * r)) <= 2) by (apply Rabs_le; lra). assert (B2 : Rabs (2 * r) <= 2) by (apply Rabs_le; lra).
    assert (Z1 : nr 1 (nmul (nmul (mexp n0) (mcos w4)) (nofZ 2)) (C2 * 2) 71) by (apply (nr_mul 1 _ _ 35 _ _ 0 1 2); try lra; [exact E1|apply (nr_ofZ 2); lia|exact scale_1]).
    assert (Z2 : nr 1 (nmul (nmul (mexp n0) (msin w4)) (nofZ 2)) (S2 * 2) 71) by (apply (nr_mul 1 _ _ 35 _ _ 0 1 2); try lra; [exact E2|apply (nr_ofZ 2); lia|exact scale_1]).
    assert (K3 : Rabs (C2 * 2) <= 2) by tri. assert (K4 : Rabs (S2 * 2) <= 2) by tri. assert (K5 : Rabs (1 + C2) <= 2) by tri. assert (K6 : Rabs (0 + S2) <= 2) by tri.
    assert (K7 : Rabs (-2 * (r * r) - C2 * 2) <= 4) by tri. assert (K8 : Rabs (0 - S2 * 2) <= 4) by tri.
    assert (K9 : Rabs ((1 + C2) * (2 * r)) <= 4) by (pose proof (abs_mul_le _ _ _ _ K5 B2); lra).
    assert (K10 : Rabs ((0 + S2) * (2 * r)) <= 4) by (pose proof (abs_mul_le _ _ _ _ K6 B2); lra).
    assert (P : nr 1 (fst x5) (-2 * (r * r) - C2 * 2 + (1 + C2) * (2 * r)) 300).
    { apply (nr_add 1 _ _ 140 _ _ 150 4 4); try lra; [| |exact scale_1].
      - apply (nr_sub 1 _ _ 53 _ _ 71 2 2); try lra; [exact D1|exact Z1|exact scale_1].
      - apply (nr_mul 1 _ _ 36 _ _ 29 2 2); try lra; [|exact D2|exact scale_1]. apply (nr_add 1 _ _ 0 _ _ 35 1 1); try lra; [apply (nr_ofZ 1); lia|exact E1|exact scale_1]. }
    assert (Q : nr 1 (snd x5) (0 - S2 * 2 + (0 + S2) * (2 * r)) 300).
    { apply (nr_add 1 _ _ 140 _ _ 150 4 4); try lra; [| |exact scale_1].
      - apply (nr_sub 1 _ _ 0 _ _ 71 1 2); try lra; [apply (nr_ofZ 0); lia|exact Z2|exact scale_1].
      - apply (nr_mul 1 _ _ 36 _ _ 29 2 2); try lra; [|exact D2|exact scale_1]. apply (nr_add 1 _ _ 0 _ _ 35 1 1); try lra; [apply (nr_ofZ 0); lia|exact E2|exact scale_1]. }
    destruct P as [F1 N1]. destruct Q as [F2 N2]. rewrite Rmult_1_l, Rmult_1_r in N1, N2. split; [split; assumption|].
    set (p := -2 * (r * r) - C2 * 2 + (1 + C2) * (2 * r)) in *. set (q := 0 - S2 * 2 + (0 + S2) * (2 * r)) in *.
    assert (SC : S2 * S2 + C2 * C2 = 1) by (exact (sin2_cos2 (2 * w))).
    assert (PQ : p * p + q * q = 4 * ((1 - r) * (1 - r)) * (1 - 2 * C2 * r + r * r)).
    { transitivity (4 * ((1 - r) * (1 - r)) * (S2 * S2 + C2 * C2 - 2 * C2 * r + r * r)); [unfold p, q; ring|rewrite SC; reflexivity]. }
    destruct (sqrt_prod (p * p + q * q)) as (m & M0' & EM); [clear; nra|].
    assert (MB : 9522 / 10000000000 <= m <= 4).
    { apply (from_sq _ _ _ _ EM M0'); try lra. rewrite PQ. apply Rabs_le_inv in K1.
      assert (O : 69 / 100000 * (69 / 100000) <= (1 - r) * (1 - r) <= 1 * 1) by (split; apply Rmult_le_compat; lra).
      assert (O2 : (1 - r) * (1 - r) <= 1 - 2 * C2 * r + r * r <= 4) by (revert RB K1; generalize r, C2; clear; intros; nra).
      revert O O2. generalize ((1 - r) * (1 - r)), (1 - 2 * C2 * r + r * r). clear. intros a b [A1 A2] [B1 B2].
      assert (69 / 100000 * (69 / 100000) * (69 / 100000 * (69 / 100000)) <= a * b <= 1 * 4) by (split; apply Rmult_le_compat; lra). lra. }
    assert (ED : 0 <= 300 * dl <= 3 / 10000000000) by lra.
    pose proof (norm_pert _ _ _ _ m (300 * dl) (eq_sym (eq_sym EM)) ltac:(lra) ltac:(lra) N1 N2) as X. fold (nn x5) in X. revert X MB ED. generalize (300 * dl), (nn x5). clear. intros dd n X MB ED.
    assert (9522 / 10000000000 * (9510 / 10000000000) <= m * (m - 4 * dd)) by (apply Rmult_le_compat; lra). split; [lra|]. assert (m * m <= 4 * 4) by (apply Rmult_le_compat; lra). assert (m * dd <= 4 * dd) by (apply Rmult_le_compat_r; lra). assert (dd * dd <= 1 * dd) by (apply Rmult_le_compat_r; lra). lra.
  Qed.
  Let kf (s : PrimFloat.float) := (nsub (mcos w1) (nmul s (msin w1)), nadd (mcos w1) (nmul s (msin w1))).
  Lemma k_b s : fin s -> Rabs (FR s) <= 27 / 10 -> (fin (fst (kf s)) /\ Rabs (FR (fst (kf s))) <= 4) /\ (fin (snd (kf s)) /\ Rabs (FR (snd (kf s))) <= 4).
  Proof.
    intros Fs Hs. destruct ang1 as [A1 A2]. pose proof (cosb w) as K1. pose proof (sinb w) as K2.
    assert (P : nr 1 (nmul s (msin w1)) (FR s * sin w) 100) by (apply (nr_mul 1 _ _ 0 _ _ 32 (27 / 10) 1); try lra; [apply nr_exact, Fs|exact A2|exact scale_1]).
    assert (K3 : Rabs (FR s * sin w) <= 27 / 10) by (pose proof (abs_mul_le _ _ _ _ Hs K2); lra).
    assert (P1 : nr 1 (fst (kf s)) (cos w - FR s * sin w) 140) by (apply (nr_sub 1 _ _ 32 _ _ 100 1 (27 / 10)); try lra; [exact A1|exact P|exact scale_1]).
    assert (P2 : nr 1 (snd (kf s)) (cos w + FR s * sin w) 140) by (apply (nr_add 1 _ _ 32 _ _ 100 1 (27 / 10)); try lra; [exact A1|exact P|exact scale_1]).
    assert (K4 : Rabs (cos w - FR s * sin w) <= 37 / 10) by tri. assert (K5 : Rabs (cos w + FR s * sin w) <= 37 / 10) by tri.
    split; (split; [apply P1 || apply P2|]).
    - pose proof (nr_bound _ _ _ _ _ P1 scale_1 K4 ltac:(lra)). lra.
    - pose proof (nr_bound _ _ _ _ _ P2 scale_1 K5 ltac:(lra)). lra.
  Qed.
  Lemma s_b' : (fin (s1 : PrimFloat.float) /\ Rabs (FR s1) <= 27 / 10) /\ (fin (s2 : PrimFloat.float) /\ Rabs (FR s2) <= 27 / 10).
  Proof.
    destruct s_b as [[F1 H1] [F2 _]]. split; [split; [exact F1|lra]|]. split; [exact F2|].
    assert (W2 : within (PrimFloat.div (F_ofZ 43) (F_ofZ 16)) s2) by reflexivity. apply within_fin in W2; [|reflexivity]. destruct W2 as [_ W2].
    assert (V : FR (PrimFloat.div (F_ofZ 43) (F_ofZ 16)) <= 27 / 10).
    { unfold FR. rewrite <- SF2R_B2SF, B2SF_Prim2B. match goal with |- SF2R _ ?x <= _ => let y := eval vm_compute in x in change x with y end. unfold SF2R, F2R. cbn [Fnum Fexp cond_Zopp]. cbn. lra. }
    lra.
  Qed.
  Lemma prod_b a b x c0 d0 y : a <= x <= b -> c0 <= y <= d0 -> 0 <= a -> 0 <= c0 -> a * c0 <= x * y <= b * d0.
  Proof. intros H1 H2 H3 H4. split; apply Rmult_le_compat; lra. Qed.
  Lemma cmul_b a b x c0 d0 y lo hi : cfin x /\ a <= nn x <= b -> cfin y /\ c0 <= nn y <= d0 -> 0 <= a -> 0 <= c0 -> lowc * lowc <= a * c0 -> b * d0 <= highc * highc ->
    lo <= 99 / 100 * (a * c0) -> 101 / 100 * (b * d0) <= hi -> cfin (cmul x y) /\ lo <= nn (cmul x y) <= hi.
  Proof.
    intros [Fx X] [Fy Y] A0 C0 H1 H2 H3 H4. pose proof (prod_b _ _ _ _ _ _ X Y A0 C0) as P. destruct (cmul_norm x y Fx Fy ltac:(lra)) as [F N]. split; [exact F|]. lra.
  Qed.
  Let x1f := cadd x01 (cscale x02 (nsub (mcos w1) (nmul s1 (msin w1)))).
  Let x2f := cadd x01 (cscale x02 (nadd (mcos w1) (nmul s1 (msin w1)))).
  Let x3f := cadd x01 (cscale x02 (nsub (mcos w1) (nmul s2 (msin w1)))).
  Let x4f := cadd x01 (cscale x02 (nadd (mcos w1) (nmul s2 (msin w1)))).
  Let gf := cabs (cdiv (cmul (cmul (cmul x1f x2f) x3f) x4f) (cmul (cmul x5 x5) (cmul x5 x5))).
  Lemma gain_b : fin gf /\ (9 / 1000000000000000000000000000000000000) <= FR gf.
  Proof.
    destruct s_b' as [[F1 H1] [F2 H2]]. destruct (k_b s1 F1 H1) as [[G1 I1] [G2 I2]]. destruct (k_b s2 F2 H2) as [[G3 I3] [G4 I4]].
    pose proof (x_norm _ G1 I1) as X1. pose proof (x_norm _ G2 I2) as X2. pose proof (x_norm _ G3 I3) as X3. pose proof (x_norm _ G4 I4) as X4. pose proof x5_norm as X5.
    change (cadd x01 (cscale x02 (fst (kf s1)))) with x1f in X1. change (cadd x01 (cscale x02 (snd (kf s1)))) with x2f in X2.
    change (cadd x01 (cscale x02 (fst (kf s2)))) with x3f in X3. change (cadd x01 (cscale x02 (snd (kf s2)))) with x4f in X4.
    unfold gf. revert X1 X2 X3 X4 X5. generalize x1f, x2f, x3f, x4f, x5. clear. intros y1 y2 y3 y4 y5 X1 X2 X3 X4 X5.
    assert (X12 : cfin (cmul y1 y2) /\ (48 / 10000000000000000000000000000000000) <= nn (cmul y1 y2) <= (65 / 1000000000000)) by (apply (cmul_b _ _ _ _ _ _ _ _ X1 X2); unfold lowc, highc; lra).
    assert (X123 : cfin (cmul (cmul y1 y2) y3) /\ (33 / 100000000000000000000000000000000000000000000000000) <= nn (cmul (cmul y1 y2) y3) <= (53 / 100000000000000000)) by (apply (cmul_b _ _ _ _ _ _ _ _ X12 X3); unfold lowc, highc; lra).
    assert (X1234 : cfin (cmul (cmul (cmul y1 y2) y3) y4) /\ (22 / 1000000000000000000000000000000000000000000000000000000000000000000) <= nn (cmul (cmul (cmul y1 y2) y3) y4) <= (43 / 10000000000000000000000)) by (apply (cmul_b _ _ _ _ _ _ _ _ X123 X4); unfold lowc, highc; lra).
    assert (Y2 : cfin (cmul y5 y5) /\ (80 / 100000000000000000000000000) <= nn (cmul y5 y5) <= 300) by (apply (cmul_b _ _ _ _ _ _ _ _ X5 X5); unfold lowc, highc; lra).
    assert (Y4 : cfin (cmul (cmul y5 y5) (cmul y5 y5)) /\ (63 / 100000000000000000000000000000000000000000000000000) <= nn (cmul (cmul y5 y5) (cmul y5 y5)) <= 100000) by (apply (cmul_b _ _ _ _ _ _ _ _ Y2 Y2); unfold lowc, highc; lra).
    revert X1234 Y4. generalize (cmul (cmul (cmul y1 y2) y3) y4), (cmul (cmul y5 y5) (cmul y5 y5)). clear. intros a b [Fa [A1 A2]] [Fb [B1 B2]].
    assert (P : (22 / 1000000000000000000000000000000000000000000000000000000000000000000) * (63 / 100000000000000000000000000000000000000000000000000) <= nn a * nn b <= (43 / 10000000000000000000000) * 100000) by (apply prod_b; lra).
    assert (IB : / 100000 <= / nn b <= / (63 / 100000000000000000000000000000000000000000000000000)) by (split; apply Rinv_le_contravar; lra).
    assert (Q : (22 / 1000000000000000000000000000000000000000000000000000000000000000000) * / 100000 <= nn a / nn b <= (43 / 10000000000000000000000) * / (63 / 100000000000000000000000000000000000000000000000000)) by (apply prod_b; lra).
    assert (Q' : (22 / 100000000000000000000000000000000000000000000000000000000000000000000000) <= nn a / nn b <= 100000000000000000000000000000) by lra.
    destruct (cdiv_norm a b Fa Fb) as [Fd Nd]; [unfold lowc, highc; lra|unfold lowc, highc; lra|unfold lowc, highc; lra|].
    destruct (cabs_norm (cdiv a b) (1 / 100000000000000000000000000000000000) Fd) as [Fg Ng]; [unfold lowc, highc; lra|unfold lowc, highc; lra|unfold lowc, highc; lra|lra|].
    split; [exact Fg|lra].
  Qed.

  (** *** the whole channel *)
  Lemma over_gain x : fin x -> Rabs (FR x) <= 1 -> within 0x1p150 (PrimFloat.div x gf).
  Proof.
    intros F H. destruct gain_b as [Fg Hg]. assert (G0 : 0 < FR gf) by lra.
    assert (BX : Rabs (FR x / FR gf) <= 200000000000000000000000000000000000).
    { unfold Rdiv. rewrite Rabs_mult, (Rabs_pos_eq (/ FR gf)) by (left; apply Rinv_0_lt_compat, G0). apply Rle_trans with (1 * / (9 / 1000000000000000000000000000000000000)); [|lra]. apply Rmult_le_compat; [apply Rabs_pos|left; apply Rinv_0_lt_compat, G0|exact H|]. apply Rinv_le_contravar; lra. }
    destruct (op_err (x / gf)%float (FR x / FR gf) 200000000000000000000000000000000000) as [Fq Eq]; [apply FR_div; [exact F|lra]|exact BX|pose proof tiny_small; lra| |].
    - apply Rle_trans with (2 := highc_big). unfold highc. lra.
    - apply within_of; [reflexivity|exact Fq|]. rewrite FR_150. apply Rle_trans with 300000000000000000000000000000000000; [pose proof u_small; pose proof u_pos; tri|]. cbn. lra.
  Qed.
  Lemma channel_stable : stable (erb_channel sr cf).
  Proof.
    destruct s_b as [[F1 H1] [F2 H2]]. destruct (nums s2 F2 H2) as [[Fa Ha] [Fb Hb]]. assert (H1' : Rabs (FR s1) <= 3) by lra. destruct (nums s1 F1 H1') as [[Fc Hc] [Fd Hd]].
    pose proof T_b as TB. destruct T_rel as [FT HT]. assert (T1 : Rabs (FR Tf) <= 1) by (pose proof dl_pos; assert (1 * dl * T <= 1 / 2) by nra; tri).
    destruct (FR_ofZ 0 ltac:(lia)) as [E0 F0]. assert (Z1 : Rabs (FR (F_ofZ 0)) <= 1) by (rewrite E0, Rabs_R0; lra).
    destruct den_stable as [W2 W1]. split; [exact W2|]. split; [exact W1|]. split.
    - constructor; [apply (over_gain Tf FT T1)|]. constructor; [exact (over_gain _ Fa ltac:(lra))|]. constructor; [exact (over_gain _ F0 Z1)|constructor].
    - constructor; [exact (within_1_of Tf FT T1)|]. constructor; [exact (within_1_of _ Fb ltac:(lra))|]. constructor; [exact (within_1_of _ Fc ltac:(lra))|].
      constructor; [exact (within_1_of _ Fd ltac:(lra))|]. constructor; [exact (within_1_of _ F0 Z1)|constructor].
  Qed.
End Channel.
