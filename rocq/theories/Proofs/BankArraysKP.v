(** The arrays of MakeFilters channel by channel (C89): every array operation stays in range and acts on
    each channel separately. *)
From Coq Require Import ZArith List Bool Lia Arith.
From Verif Require Import Base.Res Base.Num Base.Lists Base.Cplx Model.Amatrix Model.Erb Model.BankArrays Proofs.BankArraysP.
Import ListNotations.

Lemma bind_eq {A B} (x : res A) v (f : A -> res B) r : x = Ret v -> f v = r -> bind x f = r.
Proof. intros -> H. exact H. Qed.

Section Channels.
  Context {T : Type} {N : Num T} {L : Libm T}.
  Variable carg : cplx T -> T.
  Variable sr : Z.
  Local Open Scope num_scope.
  Definition T_ : T := nofZ 1 / nofZ sr.
  (** the value each array of MakeFilters has for the channel with centre frequency [x] *)
  Definition k_B (x : T) : cplx T :=
    let erb := cpow carg (cadd_r (cpow carg (cdiv_r (cofr x) earQ) (nofZ 1)) (dpow minBW (nofZ 1))) (nofZ 1 / nofZ 1) in cscale erb (ndec 1019 3 * nofZ 2 * mpi).
  Definition k_BT (x : T) : cplx T := cscale (k_B x) T_.
  Definition k_expBT (x : T) : cplx T := cexp (k_BT x).
  Definition k_B1 (x : T) : cplx T := cdiv (cscale (ccos (cscale (cscale (cscale (cofr x) (nofZ 2)) mpi) T_)) (nofZ (-2))) (k_expBT x).
  Definition k_BT2 (x : T) : cplx T := cscale (k_BT x) (nofZ (-2)).
  Definition k_B2 (x : T) : cplx T := cexp (k_BT2 x).
  Definition k_w1 (x : T) : cplx T := cscale (cofr x) (nofZ 2).
  Definition k_w2 (x : T) : cplx T := cscale (k_w1 x) mpi.
  Definition k_w (x : T) : cplx T := cscale (k_w2 x) T_.
  Definition k_sw (x : T) : cplx T := csin (k_w x).
  Definition k_b1 (x : T) : cplx T := cscale (k_sw x) T_.
  Definition k_b1_2 (x : T) : cplx T := cscale (k_b1 x) (nofZ 2).
  Definition k_bPos (x : T) : cplx T := cscale (k_b1_2 x) (nsqrt (nofZ 3 + dpow (nofZ 2) (ndec 15 1))).
  Definition k_bNeg (x : T) : cplx T := cscale (k_b1_2 x) (nsqrt (nofZ 3 + - dpow (nofZ 2) (ndec 15 1))).
  Definition k_cw (x : T) : cplx T := ccos (k_w x).
  Definition k_a2 (x : T) : cplx T := cscale (k_cw x) (nofZ 2).
  Definition k_a (x : T) : cplx T := cscale (k_a2 x) T_.
  Definition k_ae (x : T) : cplx T := cdiv (k_a x) (k_expBT x).
  Definition k_pe (x : T) : cplx T := cdiv (k_bPos x) (k_expBT x).
  Definition k_ne (x : T) : cplx T := cdiv (k_bNeg x) (k_expBT x).
  Definition k_s11 (x : T) : cplx T := cadd (k_ae x) (k_pe x).
  Definition k_m11 (x : T) : cplx T := copp (k_s11 x).
  Definition k_A11 (x : T) : cplx T := cdiv_r (k_m11 x) (nofZ 2).
  Definition k_s12 (x : T) : cplx T := csub (k_ae x) (k_pe x).
  Definition k_m12 (x : T) : cplx T := copp (k_s12 x).
  Definition k_A12 (x : T) : cplx T := cdiv_r (k_m12 x) (nofZ 2).
  Definition k_s13 (x : T) : cplx T := cadd (k_ae x) (k_ne x).
  Definition k_m13 (x : T) : cplx T := copp (k_s13 x).
  Definition k_A13 (x : T) : cplx T := cdiv_r (k_m13 x) (nofZ 2).
  Definition k_s14 (x : T) : cplx T := csub (k_ae x) (k_ne x).
  Definition k_m14 (x : T) : cplx T := copp (k_s14 x).
  Definition k_A14 (x : T) : cplx T := cdiv_r (k_m14 x) (nofZ 2).
  Definition k_q1 (x : T) : cplx T := (fun z => cmul z (n0, nofZ 4)) (cofr x).
  Definition k_q2 (x : T) : cplx T := cscale (k_q1 x) mpi.
  Definition k_q3 (x : T) : cplx T := cscale (k_q2 x) T_.
  Definition k_xExp (x : T) : cplx T := cexp (k_q3 x).
  Definition k_x01a (x : T) : cplx T := cscale (k_xExp x) (nofZ (-2)).
  Definition k_x01 (x : T) : cplx T := cscale (k_x01a x) T_.
  Definition k_mBT (x : T) : cplx T := copp (k_BT x).
  Definition k_r1 (x : T) : cplx T := (fun z => cmul z (n0, nofZ 2)) (cofr x).
  Definition k_r2 (x : T) : cplx T := cscale (k_r1 x) mpi.
  Definition k_r3 (x : T) : cplx T := cscale (k_r2 x) T_.
  Definition k_r4 (x : T) : cplx T := cadd (k_mBT x) (k_r3 x).
  Definition k_r5 (x : T) : cplx T := cexp (k_r4 x).
  Definition k_r6 (x : T) : cplx T := cscale (k_r5 x) (nofZ 2).
  Definition k_x02 (x : T) : cplx T := cscale (k_r6 x) T_.
  Definition k_xCos (x : T) : cplx T := ccos (k_w x).
  Definition k_xSin (x : T) : cplx T := csin (k_w x).
  Definition k_s1x (x : T) : cplx T := cscale (k_xSin x) (nsqrt (nofZ 3 - (dpow (nofZ 2) (nofZ 3 / nofZ 2)))).
  Definition k_s2x (x : T) : cplx T := cscale (k_xSin x) (nsqrt (nofZ 3 + (dpow (nofZ 2) (nofZ 3 / nofZ 2)))).
  Definition k_x12 (x : T) : cplx T := csub (k_xCos x) (k_s1x x).
  Definition k_p1x (x : T) : cplx T := cmul (k_x02 x) (k_x12 x).
  Definition k_x1 (x : T) : cplx T := cadd (k_x01 x) (k_p1x x).
  Definition k_x22 (x : T) : cplx T := cadd (k_xCos x) (k_s1x x).
  Definition k_p2x (x : T) : cplx T := cmul (k_x02 x) (k_x22 x).
  Definition k_x2 (x : T) : cplx T := cadd (k_x01 x) (k_p2x x).
  Definition k_x32 (x : T) : cplx T := csub (k_xCos x) (k_s2x x).
  Definition k_p3x (x : T) : cplx T := cmul (k_x02 x) (k_x32 x).
  Definition k_x3 (x : T) : cplx T := cadd (k_x01 x) (k_p3x x).
  Definition k_x42 (x : T) : cplx T := cadd (k_xCos x) (k_s2x x).
  Definition k_p4x (x : T) : cplx T := cmul (k_x02 x) (k_x42 x).
  Definition k_x4 (x : T) : cplx T := cadd (k_x01 x) (k_p4x x).
  Definition k_B_2 (x : T) : cplx T := cscale (k_B x) (nofZ 2).
  Definition k_B_2T (x : T) : cplx T := cscale (k_B_2 x) T_.
  Definition k_e2 (x : T) : cplx T := cexp (k_B_2T x).
  Definition k_u1 (x : T) : cplx T := (fun z => cdiv (cofr (nofZ (-2))) z) (k_e2 x).
  Definition k_u2 (x : T) : cplx T := cscale (k_xExp x) (nofZ 2).
  Definition k_u3 (x : T) : cplx T := csub (k_u1 x) (k_u2 x).
  Definition k_u4 (x : T) : cplx T := (fun z => cadd_r z (nofZ 1)) (k_xExp x).
  Definition k_u5 (x : T) : cplx T := cscale (k_u4 x) (nofZ 2).
  Definition k_eBT (x : T) : cplx T := cexp (k_BT x).
  Definition k_u6 (x : T) : cplx T := cdiv (k_u5 x) (k_eBT x).
  Definition k_x5 (x : T) : cplx T := cadd (k_u3 x) (k_u6 x).
  Definition k_g1 (x : T) : cplx T := cmul (k_x1 x) (k_x2 x).
  Definition k_g2 (x : T) : cplx T := cmul (k_g1 x) (k_x3 x).
  Definition k_g3 (x : T) : cplx T := cmul (k_g2 x) (k_x4 x).
  Definition k_g4 (x : T) : cplx T := (fun z => cpow carg z (nofZ 4)) (k_x5 x).
  Definition k_g5 (x : T) : cplx T := cdiv (k_g3 x) (k_g4 x).
  Definition k_gain (x : T) : T := cabs (k_g5 x).
  Definition k_A11r (x : T) : T := cre (k_A11 x).
  Definition k_A12r (x : T) : T := cre (k_A12 x).
  Definition k_A13r (x : T) : T := cre (k_A13 x).
  Definition k_A14r (x : T) : T := cre (k_A14 x).
  Definition k_B1r (x : T) : T := cre (k_B1 x).
  Definition k_B2r (x : T) : T := cre (k_B2 x).
  Definition k_cfr (x : T) : T := cre (cofr x).
  Lemma arrays_shape n low high : let cfs := center_freqs low (capped_high sr high) n in
    make_filters_arrays carg sr n low high =
    Ret ([repeat T_ n; map k_A11r cfs; map k_A12r cfs; map k_A13r cfs; map k_A14r cfs; repeat n0 n; repeat (nofZ 1) n; map k_B1r cfs; map k_B2r cfs; map k_gain cfs], map k_cfr cfs).
  Proof.
    intros cfs. assert (Ln : length cfs = n) by (unfold cfs, center_freqs; now rewrite map_length, seq_length).
    unfold make_filters_arrays. cbv zeta. fold cfs. unfold va_of.
    eapply bind_eq; [exact (for_each_1 cofr _ cfs k_B n (eq_sym Ln) eq_refl)|cbv beta].
    eapply bind_eq; [exact (va1_map _ k_B cfs k_BT eq_refl)|cbv beta].
    eapply bind_eq; [exact (va1_map _ k_BT cfs k_expBT eq_refl)|cbv beta].
    eapply bind_eq; [exact (for_each_2 _ cofr k_expBT cfs k_B1 _ (map_length k_B cfs) eq_refl)|cbv beta].
    eapply bind_eq; [exact (va1_map _ k_BT cfs k_BT2 eq_refl)|cbv beta].
    eapply bind_eq; [exact (va1_map _ k_BT2 cfs k_B2 eq_refl)|cbv beta].
    eapply bind_eq; [exact (va1_map _ cofr cfs k_w1 eq_refl)|cbv beta].
    eapply bind_eq; [exact (va1_map _ k_w1 cfs k_w2 eq_refl)|cbv beta].
    eapply bind_eq; [exact (va1_map _ k_w2 cfs k_w eq_refl)|cbv beta].
    eapply bind_eq; [exact (va1_map _ k_w cfs k_sw eq_refl)|cbv beta].
    eapply bind_eq; [exact (va1_map _ k_sw cfs k_b1 eq_refl)|cbv beta].
    eapply bind_eq; [exact (va1_map _ k_b1 cfs k_b1_2 eq_refl)|cbv beta].
    eapply bind_eq; [exact (va1_map _ k_b1_2 cfs k_bPos eq_refl)|cbv beta].
    eapply bind_eq; [exact (va1_map _ k_b1_2 cfs k_bNeg eq_refl)|cbv beta].
    eapply bind_eq; [exact (va1_map _ k_w cfs k_cw eq_refl)|cbv beta].
    eapply bind_eq; [exact (va1_map _ k_cw cfs k_a2 eq_refl)|cbv beta].
    eapply bind_eq; [exact (va1_map _ k_a2 cfs k_a eq_refl)|cbv beta].
    eapply bind_eq; [exact (va2_map _ k_a k_expBT cfs k_ae eq_refl)|cbv beta].
    eapply bind_eq; [exact (va2_map _ k_bPos k_expBT cfs k_pe eq_refl)|cbv beta].
    eapply bind_eq; [exact (va2_map _ k_bNeg k_expBT cfs k_ne eq_refl)|cbv beta].
    eapply bind_eq; [exact (va2_map _ k_ae k_pe cfs k_s11 eq_refl)|cbv beta].
    eapply bind_eq; [exact (va1_map _ k_s11 cfs k_m11 eq_refl)|cbv beta].
    eapply bind_eq; [exact (va1_map _ k_m11 cfs k_A11 eq_refl)|cbv beta].
    eapply bind_eq; [exact (va2_map _ k_ae k_pe cfs k_s12 eq_refl)|cbv beta].
    eapply bind_eq; [exact (va1_map _ k_s12 cfs k_m12 eq_refl)|cbv beta].
    eapply bind_eq; [exact (va1_map _ k_m12 cfs k_A12 eq_refl)|cbv beta].
    eapply bind_eq; [exact (va2_map _ k_ae k_ne cfs k_s13 eq_refl)|cbv beta].
    eapply bind_eq; [exact (va1_map _ k_s13 cfs k_m13 eq_refl)|cbv beta].
    eapply bind_eq; [exact (va1_map _ k_m13 cfs k_A13 eq_refl)|cbv beta].
    eapply bind_eq; [exact (va2_map _ k_ae k_ne cfs k_s14 eq_refl)|cbv beta].
    eapply bind_eq; [exact (va1_map _ k_s14 cfs k_m14 eq_refl)|cbv beta].
    eapply bind_eq; [exact (va1_map _ k_m14 cfs k_A14 eq_refl)|cbv beta].
    eapply bind_eq; [exact (va1_map _ cofr cfs k_q1 eq_refl)|cbv beta].
    eapply bind_eq; [exact (va1_map _ k_q1 cfs k_q2 eq_refl)|cbv beta].
    eapply bind_eq; [exact (va1_map _ k_q2 cfs k_q3 eq_refl)|cbv beta].
    eapply bind_eq; [exact (va1_map _ k_q3 cfs k_xExp eq_refl)|cbv beta].
    eapply bind_eq; [exact (va1_map _ k_xExp cfs k_x01a eq_refl)|cbv beta].
    eapply bind_eq; [exact (va1_map _ k_x01a cfs k_x01 eq_refl)|cbv beta].
    eapply bind_eq; [exact (va1_map _ k_BT cfs k_mBT eq_refl)|cbv beta].
    eapply bind_eq; [exact (va1_map _ cofr cfs k_r1 eq_refl)|cbv beta].
    eapply bind_eq; [exact (va1_map _ k_r1 cfs k_r2 eq_refl)|cbv beta].
    eapply bind_eq; [exact (va1_map _ k_r2 cfs k_r3 eq_refl)|cbv beta].
    eapply bind_eq; [exact (va2_map _ k_mBT k_r3 cfs k_r4 eq_refl)|cbv beta].
    eapply bind_eq; [exact (va1_map _ k_r4 cfs k_r5 eq_refl)|cbv beta].
    eapply bind_eq; [exact (va1_map _ k_r5 cfs k_r6 eq_refl)|cbv beta].
    eapply bind_eq; [exact (va1_map _ k_r6 cfs k_x02 eq_refl)|cbv beta].
    eapply bind_eq; [exact (va1_map _ k_w cfs k_xCos eq_refl)|cbv beta].
    eapply bind_eq; [exact (va1_map _ k_w cfs k_xSin eq_refl)|cbv beta].
    eapply bind_eq; [exact (va1_map _ k_xSin cfs k_s1x eq_refl)|cbv beta].
    eapply bind_eq; [exact (va1_map _ k_xSin cfs k_s2x eq_refl)|cbv beta].
    eapply bind_eq; [exact (va2_map _ k_xCos k_s1x cfs k_x12 eq_refl)|cbv beta].
    eapply bind_eq; [exact (va2_map _ k_x02 k_x12 cfs k_p1x eq_refl)|cbv beta].
    eapply bind_eq; [exact (va2_map _ k_x01 k_p1x cfs k_x1 eq_refl)|cbv beta].
    eapply bind_eq; [exact (va2_map _ k_xCos k_s1x cfs k_x22 eq_refl)|cbv beta].
    eapply bind_eq; [exact (va2_map _ k_x02 k_x22 cfs k_p2x eq_refl)|cbv beta].
    eapply bind_eq; [exact (va2_map _ k_x01 k_p2x cfs k_x2 eq_refl)|cbv beta].
    eapply bind_eq; [exact (va2_map _ k_xCos k_s2x cfs k_x32 eq_refl)|cbv beta].
    eapply bind_eq; [exact (va2_map _ k_x02 k_x32 cfs k_p3x eq_refl)|cbv beta].
    eapply bind_eq; [exact (va2_map _ k_x01 k_p3x cfs k_x3 eq_refl)|cbv beta].
    eapply bind_eq; [exact (va2_map _ k_xCos k_s2x cfs k_x42 eq_refl)|cbv beta].
    eapply bind_eq; [exact (va2_map _ k_x02 k_x42 cfs k_p4x eq_refl)|cbv beta].
    eapply bind_eq; [exact (va2_map _ k_x01 k_p4x cfs k_x4 eq_refl)|cbv beta].
    eapply bind_eq; [exact (va1_map _ k_B cfs k_B_2 eq_refl)|cbv beta].
    eapply bind_eq; [exact (va1_map _ k_B_2 cfs k_B_2T eq_refl)|cbv beta].
    eapply bind_eq; [exact (va1_map _ k_B_2T cfs k_e2 eq_refl)|cbv beta].
    eapply bind_eq; [exact (va1_map _ k_e2 cfs k_u1 eq_refl)|cbv beta].
    eapply bind_eq; [exact (va1_map _ k_xExp cfs k_u2 eq_refl)|cbv beta].
    eapply bind_eq; [exact (va2_map _ k_u1 k_u2 cfs k_u3 eq_refl)|cbv beta].
    eapply bind_eq; [exact (va1_map _ k_xExp cfs k_u4 eq_refl)|cbv beta].
    eapply bind_eq; [exact (va1_map _ k_u4 cfs k_u5 eq_refl)|cbv beta].
    eapply bind_eq; [exact (va1_map _ k_BT cfs k_eBT eq_refl)|cbv beta].
    eapply bind_eq; [exact (va2_map _ k_u5 k_eBT cfs k_u6 eq_refl)|cbv beta].
    eapply bind_eq; [exact (va2_map _ k_u3 k_u6 cfs k_x5 eq_refl)|cbv beta].
    eapply bind_eq; [exact (va2_map _ k_x1 k_x2 cfs k_g1 eq_refl)|cbv beta].
    eapply bind_eq; [exact (va2_map _ k_g1 k_x3 cfs k_g2 eq_refl)|cbv beta].
    eapply bind_eq; [exact (va2_map _ k_g2 k_x4 cfs k_g3 eq_refl)|cbv beta].
    eapply bind_eq; [exact (va1_map _ k_x5 cfs k_g4 eq_refl)|cbv beta].
    eapply bind_eq; [exact (va2_map _ k_g3 k_g4 cfs k_g5 eq_refl)|cbv beta].
    eapply bind_eq; [exact (va_abs_map k_g5 cfs k_gain eq_refl)|cbv beta].
    eapply bind_eq; [exact (va_real_map k_A11 cfs k_A11r eq_refl)|cbv beta].
    eapply bind_eq; [exact (va_real_map k_A12 cfs k_A12r eq_refl)|cbv beta].
    eapply bind_eq; [exact (va_real_map k_A13 cfs k_A13r eq_refl)|cbv beta].
    eapply bind_eq; [exact (va_real_map k_A14 cfs k_A14r eq_refl)|cbv beta].
    eapply bind_eq; [exact (va_real_map k_B1 cfs k_B1r eq_refl)|cbv beta].
    eapply bind_eq; [exact (va_real_map k_B2 cfs k_B2r eq_refl)|cbv beta].
    eapply bind_eq; [exact (va_real_map cofr cfs k_cfr eq_refl)|cbv beta].
    reflexivity.
  Qed.
End Channels.
