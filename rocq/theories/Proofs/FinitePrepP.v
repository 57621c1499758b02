(** Preparation of spectrograms in binary64 (C98). *)
From Coq Require Import ZArith List Bool Reals Lra Lia Floats.
From Flocq Require Import Core.Core IEEE754.BinarySingleNaN IEEE754.PrimFloat.
From Verif Require Import Base.Res Base.Num Base.NumR Base.NumF Base.Lists Base.Mat Model.Amatrix Model.MiscMath Model.Spectrogram
  Spec.UndefinedSpec Proofs.B64P Proofs.ConvP Proofs.BoundP Proofs.FiniteNsimP.
Import ListNotations.
Open Scope R_scope.

Notation F := PrimFloat.float.
(** finite, between a and b *)
Definition rg (a b : Z) (x : F) : Prop := fin x /\ IZR a <= FR x <= IZR b.

Lemma ofZ_rg z : (Z.abs z < 2 ^ 53)%Z -> rg z z (F_ofZ z).
Proof. intros H. destruct (FR_ofZ z H) as [E Fi]. split; [exact Fi|]. rewrite E. lra. Qed.
Lemma leb_rg a b x : (Z.abs a < 2 ^ 53)%Z -> (Z.abs b < 2 ^ 53)%Z -> fin x -> PrimFloat.leb (F_ofZ a) x = true -> PrimFloat.leb x (F_ofZ b) = true -> rg a b x.
Proof.
  intros A B Fx H1 H2. destruct (FR_ofZ a A) as [EA FA]. destruct (FR_ofZ b B) as [EB FB]. rewrite FR_leb in H1, H2 by assumption. rewrite EA in H1. rewrite EB in H2.
  revert H1; case Raux.Rle_bool_spec; [intros H1 _|discriminate]. revert H2; case Raux.Rle_bool_spec; [intros H2 _|discriminate]. split; [exact Fx|lra].
Qed.
(** between two finite numbers only finite numbers *)
Lemma leb_fin a b x : fin a -> fin b -> PrimFloat.leb a x = true -> PrimFloat.leb x b = true -> fin x.
Proof.
  unfold fin. rewrite !leb_equiv. unfold Bleb, SFleb.
  change (SFcompare (B2SF (Prim2B a)) (B2SF (Prim2B x))) with (Bcompare (Prim2B a) (Prim2B x)).
  change (SFcompare (B2SF (Prim2B x)) (B2SF (Prim2B b))) with (Bcompare (Prim2B x) (Prim2B b)).
  destruct (Prim2B a) as [?|?| |[] ? ? ?]; destruct (Prim2B b) as [?|?| |[] ? ? ?]; destruct (Prim2B x) as [?|[]| |? ? ? ?]; cbn; try discriminate; reflexivity.
Qed.
Lemma from_to_rg a b x : (Z.abs a < 2 ^ 53)%Z -> (Z.abs b < 2 ^ 53)%Z -> from_to (F_ofZ a) (F_ofZ b) x -> rg a b x.
Proof.
  intros A B [H1 H2]. apply leb_rg; try assumption. apply (leb_fin (F_ofZ a) (F_ofZ b)); try assumption; apply FR_ofZ; assumption.
Qed.

Lemma nmax_rg a b x y : rg a b x -> rg a b y -> rg a b (nmax x y).
Proof. intros. unfold nmax. destruct (nltb x y); assumption. Qed.
(** the floor may lie lower *)
Lemma nmax_floor a b c x y : rg c b x -> rg a b y -> rg a b (nmax x y) .
Proof.
  intros [Fx Hx] [Fy Hy]. unfold nmax. cbn [nltb NumF]. rewrite FR_ltb by assumption. case Raux.Rlt_bool_spec; intros H; split; try assumption; lra.
Qed.
Lemma nmin_rg a b x y : rg a b x -> rg a b y -> rg a b (nmin x y).
Proof. intros. unfold nmin. destruct (nltb y x); assumption. Qed.
Lemma max_rg a b l m : Forall (rg a b) l -> max_elem l = Ret m -> rg a b m.
Proof.
  intros H E. destruct l as [|x t]; [discriminate|]. injection E as <-. inversion H as [|? ? H1 H2]; subst. clear H. revert x H1.
  induction H2 as [|y t Hy _ IH]; intros x Hx; [exact Hx|]. cbn [max_elem_from]. apply IH. destruct (nltb x y); assumption.
Qed.
Lemma min_rg a b l m : Forall (rg a b) l -> min_elem l = Ret m -> rg a b m /\ Forall (fun x => FR m <= FR x) l.
Proof.
  intros H E. destruct l as [|x t]; [discriminate|]. injection E as <-. inversion H as [|? ? H1 H2]; subst. clear H.
  assert (G : forall t, Forall (rg a b) t -> forall x, rg a b x -> rg a b (min_elem_from x t) /\ FR (min_elem_from x t) <= FR x /\ Forall (fun y => FR (min_elem_from x t) <= FR y) t).
  { clear. induction t as [|y t IH]; intros Ht x Hx; [cbn; split; [exact Hx|split; [lra|constructor]]|]. inversion Ht as [|? ? Hy Ht']; subst. cbn [min_elem_from].
    cbn [nltb NumF]. rewrite (FR_ltb y x (proj1 Hy) (proj1 Hx)). case Raux.Rlt_bool_spec; intros C.
    - destruct (IH Ht' y Hy) as (I1 & I2 & I3). split; [exact I1|]. split; [lra|]. constructor; [exact I2|exact I3].
    - destruct (IH Ht' x Hx) as (I1 & I2 & I3). split; [exact I1|]. split; [lra|]. constructor; [lra|exact I3]. }
  destruct (G t H2 x H1) as (I1 & I2 & I3). split; [exact I1|]. constructor; assumption.
Qed.
Lemma min_attained (l : list F) m : min_elem l = Ret m -> In m l.
Proof.
  destruct l as [|x t]; [discriminate|]. intros E. injection E as <-. revert x. induction t as [|y t IH]; intros x; [left; reflexivity|].
  cbn [min_elem_from]. destruct (nltb y x); [right; apply IH|]. destruct (IH x) as [H|H]; [left; exact H|right; right; exact H].
Qed.
Lemma sub_rg a b c d x y : (Z.abs (a - d) < 2 ^ 53)%Z -> (Z.abs (b - c) < 2 ^ 53)%Z -> rg a b x -> rg c d y -> rg (a - d) (b - c) (PrimFloat.sub x y).
Proof.
  intros HA HB [Fx Hx] [Fy Hy].
  assert (Lo : IZR (a - d) <= rnd (FR x - FR y)).
  { rewrite <- (rnd_Z (a - d) HA). apply ScoresP.rnd_le. rewrite minus_IZR. lra. }
  assert (Hi : rnd (FR x - FR y) <= IZR (b - c)).
  { rewrite <- (rnd_Z (b - c) HB). apply ScoresP.rnd_le. rewrite minus_IZR. lra. }
  assert (BB : Rabs (rnd (FR x - FR y)) < fmax).
  { apply Rle_lt_trans with (Rabs (IZR (Z.max (Z.abs (a - d)) (Z.abs (b - c))))); [|apply IZR_lt_fmax; lia].
    rewrite (Rabs_pos_eq (IZR _)) by (apply IZR_le; lia). apply Rabs_le. split.
    - apply Rle_trans with (IZR (a - d)); [rewrite <- opp_IZR; apply IZR_le; lia|exact Lo].
    - apply Rle_trans with (IZR (b - c)); [exact Hi|apply IZR_le; lia]. }
  destruct (FR_sub x y Fx Fy BB) as [E Fi]. split; [exact Fi|]. rewrite E. lra.
Qed.
Lemma sub_self x : fin x -> FR (PrimFloat.sub x x) = 0 /\ fin (PrimFloat.sub x x).
Proof.
  intros Fx. assert (E0 : rnd (FR x - FR x) = 0) by (replace (FR x - FR x) with (IZR 0) by (cbn; lra); apply rnd_Z; lia).
  destruct (FR_sub x x Fx Fx) as [E Fi]; [rewrite E0, Rabs_R0; unfold fmax; apply bpow_gt_0|]. rewrite E, E0. auto.
Qed.
Lemma rg_bd a b k x : rg a b x -> (0 <= k)%Z -> (Z.abs a <= 2 ^ k)%Z -> (Z.abs b <= 2 ^ k)%Z -> bd k x.
Proof.
  intros [Fx Hx] K A B. split; [exact Fx|]. rewrite <- (IZR_Zpower radix2) by exact K. change (Zpower radix2 k) with (2 ^ k)%Z. apply Rabs_le. split.
  - apply Rle_trans with (IZR a); [rewrite <- opp_IZR; apply IZR_le; lia|lra].
  - apply Rle_trans with (IZR b); [lra|apply IZR_le; lia].
Qed.

(** *** decibels *)
Section Db.
  Context {L : Libm F} (SL : sane_log mlog10).

  Definition either (x : F) : Prop := rg (-4000) 4000 x \/ undefined x.

  Lemma mul10_rg x : rg (-400) 400 x -> rg (-4000) 4000 (PrimFloat.mul (F_ofZ 10) x).
  Proof.
    intros [Fx Hx]. destruct (FR_ofZ 10 ltac:(lia)) as [E10 F10].
    assert (Lo : IZR (-4000) <= rnd (FR (F_ofZ 10) * FR x)) by (rewrite <- (rnd_Z (-4000)) by lia; apply ScoresP.rnd_le; rewrite E10; lra).
    assert (Hi : rnd (FR (F_ofZ 10) * FR x) <= IZR 4000) by (rewrite <- (rnd_Z 4000) by lia; apply ScoresP.rnd_le; rewrite E10; lra).
    destruct (FR_mul (F_ofZ 10) x F10 Fx) as [E Fi].
    - apply Rle_lt_trans with (Rabs (IZR 4000)); [|apply IZR_lt_fmax; lia]. rewrite (Rabs_pos_eq (IZR 4000)) by lra. apply Rabs_le. lra.
    - split; [exact Fi|]. rewrite E. split; assumption.
  Qed.
  Lemma undefined_B x : undefined x <-> Prim2B x = B754_nan.
  Proof.
    unfold undefined. rewrite eqb_equiv. unfold Beqb, SFeqb. change (SFcompare (B2SF (Prim2B x)) (B2SF (Prim2B x))) with (Bcompare (Prim2B x) (Prim2B x)).
    destruct (Prim2B x) as [s|[]| |s m e H] eqn:E; cbn.
    - split; discriminate.
    - split; discriminate.
    - split; discriminate.
    - split; reflexivity.
    - split; [|discriminate]. destruct s; rewrite Z.compare_refl; change (Pos.compare_cont Eq m m) with (Pos.compare m m); rewrite Pos.compare_refl; discriminate.
  Qed.
  Lemma not_infinite_B x : ~ infinite x -> is_finite (Prim2B x) = true \/ Prim2B x = B754_nan.
  Proof.
    unfold infinite. rewrite eqb_equiv, abs_equiv. intros H. destruct (Prim2B x) as [s|s| |s m e HH] eqn:E; cbn in H; [left; reflexivity|exfalso; apply H; reflexivity|right; reflexivity|left; reflexivity].
  Qed.
  Lemma abs_B x : Prim2B (PrimFloat.abs x) = Babs (Prim2B x). Proof. apply abs_equiv. Qed.
  Lemma mul_undefined a x : undefined x -> undefined (PrimFloat.mul a x).
  Proof. rewrite !undefined_B, mul_equiv. intros ->. destruct (Prim2B a) as [?|?| |? ? ? ?]; reflexivity. Qed.
  Lemma db_either x : ~ infinite x -> either (convert_sample_to_db x).
  Proof.
    intros NI. destruct SL as (S1 & S2 & S3). unfold convert_sample_to_db. cbn [nmul nofZ neqb nabs NumF].
    assert (POS : forall y, PrimFloat.ltb 0 y = true -> PrimFloat.ltb y infinity = true -> either (PrimFloat.mul (F_ofZ 10) (mlog10 y))).
    { intros y H1 H2. left. apply mul10_rg. apply from_to_rg; [lia|lia|]. exact (S1 y H1 H2). }
    destruct (PrimFloat.eqb (PrimFloat.abs x) n0) eqn:Z0.
    - apply POS; reflexivity.
    - destruct (not_infinite_B x NI) as [Fi|Na].
      + apply POS.
        * rewrite eqb_equiv, abs_equiv in Z0. rewrite ltb_equiv, abs_equiv. change (Prim2B (@n0 F NumF)) with (B754_zero false : binary_float prec emax) in Z0.
          change (Prim2B 0%float) with (B754_zero false : binary_float prec emax). destruct (Prim2B x) as [s|s| |s m e HH]; try discriminate; reflexivity.
        * rewrite ltb_equiv, abs_equiv. change (Prim2B infinity) with (B754_infinity false : binary_float prec emax). destruct (Prim2B x) as [s|s| |s m e HH]; try discriminate; reflexivity.
      + right. apply mul_undefined, S3. apply undefined_B. rewrite abs_equiv, Na. reflexivity.
  Qed.
  Lemma ltb_undefined x y : undefined y -> PrimFloat.ltb x y = false.
  Proof.
    rewrite undefined_B, ltb_equiv. intros ->. unfold Bltb, SFltb. destruct (Prim2B x) as [[]|[]| |[] ? ? ?]; reflexivity.
  Qed.
  (** the floor of -45 dB takes the place of whatever is undefined *)
  Lemma floor_rg x : ~ infinite x -> rg (-45) 4000 (nmax kNoiseFloorAbsoluteDb (convert_sample_to_db x)).
  Proof.
    intros NI. unfold kNoiseFloorAbsoluteDb. cbn [nofZ NumF].
    assert (K : rg (-45) 4000 (F_ofZ (-45))) by (destruct (ofZ_rg (-45) ltac:(lia)) as [Fi H]; split; [exact Fi|lra]).
    unfold nmax. cbn [nltb NumF]. destruct (db_either x NI) as [R1|U]; [|rewrite ltb_undefined by exact U; exact K].
    rewrite FR_ltb by (apply K || apply R1). case Raux.Rlt_bool_spec; intros C; [|exact K]. destruct R1 as [R1 R2]. split; [exact R1|].
    destruct (FR_ofZ (-45) ltac:(lia)) as [E _]. rewrite E in C. lra.
  Qed.
  Lemma floor_undefined x : undefined x -> nmax kNoiseFloorAbsoluteDb (convert_sample_to_db x) = kNoiseFloorAbsoluteDb.
  Proof.
    intros U. destruct SL as (_ & _ & S3). unfold nmax, convert_sample_to_db. cbn [nltb nmul neqb nabs NumF].
    assert (UA : undefined (PrimFloat.abs x)) by (apply undefined_B; rewrite abs_equiv; apply undefined_B in U; rewrite U; reflexivity).
    assert (E : PrimFloat.eqb (PrimFloat.abs x) n0 = false).
    { apply undefined_B in UA. rewrite eqb_equiv, UA. reflexivity. }
    rewrite E. rewrite ltb_undefined; [reflexivity|]. apply mul_undefined, S3, UA.
  Qed.
  Lemma floor_zero : nmax kNoiseFloorAbsoluteDb (convert_sample_to_db 0%float) = kNoiseFloorAbsoluteDb.
  Proof.
    destruct SL as (S1 & S2 & _). unfold nmax, convert_sample_to_db, kNoiseFloorAbsoluteDb. cbn [nltb nmul neqb nabs nofZ NumF].
    change (PrimFloat.eqb (PrimFloat.abs 0) n0) with true. cbv iota. change (@dbl_epsilon F NumF) with (0x1p-52%float).
    destruct (S1 0x1p-52%float eq_refl eq_refl) as [A1 A2].
    assert (R1 : rg (-400) (-5) (mlog10 0x1p-52%float)).
    { apply from_to_rg; [lia|lia|]. split; [exact A1|exact S2]. }
    destruct R1 as [Fx Hx]. destruct (FR_ofZ 10 ltac:(lia)) as [E10 F10].
    assert (Lo : IZR (-4000) <= rnd (FR (F_ofZ 10) * FR (mlog10 0x1p-52%float))) by (rewrite <- (rnd_Z (-4000)) by lia; apply ScoresP.rnd_le; rewrite E10; lra).
    assert (Hi : rnd (FR (F_ofZ 10) * FR (mlog10 0x1p-52%float)) <= IZR (-50)) by (rewrite <- (rnd_Z (-50)) by lia; apply ScoresP.rnd_le; rewrite E10; lra).
    destruct (FR_mul (F_ofZ 10) (mlog10 0x1p-52%float) F10 Fx) as [E Fi].
    - apply Rle_lt_trans with (Rabs (IZR 4000)); [|apply IZR_lt_fmax; lia]. rewrite (Rabs_pos_eq (IZR 4000)) by lra. apply Rabs_le. lra.
    - destruct (FR_ofZ (-45) ltac:(lia)) as [E45 F45]. rewrite FR_ltb by assumption. rewrite E, E45. case Raux.Rlt_bool_spec; intros C; [lra|reflexivity].
  Qed.
  Lemma floor_silenced (M : mat F) : raise_floor kNoiseFloorAbsoluteDb (to_db (silenced M)) = raise_floor kNoiseFloorAbsoluteDb (to_db M).
  Proof.
    unfold raise_floor, to_db, silenced, mmap. cbn [nrows ncols elems]. f_equal. rewrite !map_map. apply map_ext. intros x.
    destruct (PrimFloat.eqb x x) eqn:E; [reflexivity|]. rewrite floor_zero. symmetry. apply floor_undefined. exact E.
  Qed.
  Lemma prepare_silenced (A B : mat F) : prepare_spectrograms (silenced A) (silenced B) = prepare_spectrograms A B.
  Proof. unfold prepare_spectrograms. rewrite !floor_silenced. reflexivity. Qed.

  (** *** per frame *)
  Definition all_rg (a b : Z) (M : mat F) : Prop := Forall (rg a b) (elems M).
  Lemma at_rg a b (M : mat F) r c : wf M -> (r < nrows M)%nat -> (c < ncols M)%nat -> all_rg a b M -> rg a b (at_ M r c).
  Proof.
    intros W Hr Hc H. unfold all_rg in H. rewrite Forall_forall in H. apply H. unfold at_, mget. apply nth_In. unfold wf in W. rewrite W. nia.
  Qed.
  Lemma set_col_rg a b (M M' : mat F) c v : wf M -> Forall (rg a b) v -> all_rg a b M -> m_set_col M (Z.of_nat c) v = Ret M' -> wf M' /\ nrows M' = nrows M /\ ncols M' = ncols M /\ all_rg a b M'.
  Proof.
    intros W Hv HM E. unfold m_set_col in E. destruct (_ && _) eqn:C in E; [|discriminate]. injection E as <-. split; [apply tab_wf|]. split; [reflexivity|]. split; [reflexivity|].
    apply andb_true_iff in C. destruct C as [C C3]. apply Nat.eqb_eq in C3. unfold all_rg, tab. cbn [elems]. apply Forall_forall. intros x Hx. apply in_flat_map in Hx. destruct Hx as (j & Hj & Hx).
    apply in_map_iff in Hx. destruct Hx as (r & <- & Hr). apply in_seq in Hj, Hr. destruct (Nat.eqb _ _).
    - rewrite Forall_forall in Hv. apply Hv, nth_In. lia.
    - apply at_rg; try assumption; lia.
  Qed.
  Lemma col_rg a b (M : mat F) c : wf M -> (c < ncols M)%nat -> all_rg a b M -> Forall (rg a b) (col_list M c).
  Proof.
    intros W Hc H. apply Forall_forall. intros x Hx. unfold col_list in Hx. apply in_map_iff in Hx. destruct Hx as (r & <- & Hr). apply in_seq in Hr. apply at_rg; try assumption; lia.
  Qed.
  Lemma frame_rg (A B A' B' : mat F) c : wf A -> wf B -> (c < ncols A)%nat -> (c < ncols B)%nat -> all_rg (-45) 4000 A -> all_rg (-45) 4000 B ->
    raise_frame kNoiseFloorRelativeToPeakDb (A, B) c = Ret (A', B') ->
    (wf A' /\ nrows A' = nrows A /\ ncols A' = ncols A /\ all_rg (-45) 4000 A') /\ (wf B' /\ nrows B' = nrows B /\ ncols B' = ncols B /\ all_rg (-45) 4000 B').
  Proof.
    intros WA WB CA CB HA HB E. unfold raise_frame in E.
    pose proof (col_rg _ _ A c WA CA HA) as FA. pose proof (col_rg _ _ B c WB CB HB) as FB.
    destruct (max_elem (col_list A c)) as [ma| | |] eqn:EA; try discriminate. destruct (max_elem (col_list B c)) as [mb| | |] eqn:EB; try discriminate. cbn [bind] in E.
    pose proof (max_rg _ _ _ _ FA EA) as RA. pose proof (max_rg _ _ _ _ FB EB) as RB.
    assert (FL : rg (-90) 4000 (nsub (nmax ma mb) kNoiseFloorRelativeToPeakDb)).
    { assert (K : rg 45 45 (F_ofZ 45)) by (apply ofZ_rg; lia). pose proof (sub_rg (-45) 4000 45 45 (nmax ma mb) (F_ofZ 45) ltac:(lia) ltac:(lia) (nmax_rg _ _ _ _ RA RB) K) as [S1 S2].
      change (nsub (nmax ma mb) kNoiseFloorRelativeToPeakDb) with (PrimFloat.sub (nmax ma mb) (F_ofZ 45)).
      split; [exact S1|]. change (-45 - 45)%Z with (-90)%Z in S2. change (4000 - 45)%Z with 3955%Z in S2. lra. }
    set (fl := nsub _ _) in *. clearbody fl.
    assert (G : forall l, Forall (rg (-45) 4000) l -> Forall (rg (-45) 4000) (map (nmax fl) l)).
    { intros l Hl. apply Forall_forall. intros x Hx. apply in_map_iff in Hx. destruct Hx as (y & <- & Hy). apply (nmax_floor _ _ (-90)); [exact FL|]. rewrite Forall_forall in Hl. apply Hl, Hy. }
    destruct (m_set_col A _ _) as [A1| | |] eqn:E1; try discriminate. cbn [bind] in E. destruct (m_set_col B _ _) as [B1| | |] eqn:E2; try discriminate. cbn [bind] in E. injection E as <- <-.
    split; [apply (set_col_rg _ _ A A1 c _ WA (G _ FA) HA E1)|apply (set_col_rg _ _ B B1 c _ WB (G _ FB) HB E2)].
  Qed.
  Lemma frames_rg is : forall (A B A' B' : mat F), wf A -> wf B -> (forall c, In c is -> (c < ncols A)%nat /\ (c < ncols B)%nat) -> all_rg (-45) 4000 A -> all_rg (-45) 4000 B ->
    raise_frames kNoiseFloorRelativeToPeakDb (A, B) is = Ret (A', B') -> all_rg (-45) 4000 A' /\ all_rg (-45) 4000 B'.
  Proof.
    induction is as [|c is IH]; intros A B A' B' WA WB HC HA HB E; cbn [raise_frames] in E; [injection E as <- <-; auto|].
    destruct (raise_frame _ (A, B) c) as [[A1 B1]| | |] eqn:E1; try discriminate. cbn [bind] in E.
    destruct (HC c (or_introl eq_refl)) as [C1 C2]. destruct (frame_rg A B A1 B1 c WA WB C1 C2 HA HB E1) as ((W1 & _ & N1 & R1) & (W2 & _ & N2 & R2)).
    apply (IH A1 B1 A' B' W1 W2); try assumption. intros c' Hc'. rewrite N1, N2. apply HC. right. exact Hc'.
  Qed.

  (** the prepared pair: everything from 0 to 4045, and 0 is there *)
  Lemma prepare_rg (A B A' B' : mat F) : wf A -> wf B -> Forall (fun x => ~ infinite x) (elems A) -> Forall (fun x => ~ infinite x) (elems B) ->
    prepare_spectrograms A B = Ret (A', B') -> all_rg 0 4045 A' /\ all_rg 0 4045 B' /\ exists x, (In x (elems A') \/ In x (elems B')) /\ fin x /\ FR x = 0.
  Proof.
    intros WA WB HA HB E. unfold prepare_spectrograms, raise_floor_per_frame in E.
    set (A0 := raise_floor kNoiseFloorAbsoluteDb (to_db A)) in *. set (B0 := raise_floor kNoiseFloorAbsoluteDb (to_db B)) in *.
    assert (G : forall M : mat F, wf M -> Forall (fun x => ~ infinite x) (elems M) -> wf (raise_floor kNoiseFloorAbsoluteDb (to_db M)) /\ all_rg (-45) 4000 (raise_floor kNoiseFloorAbsoluteDb (to_db M))).
    { intros M W HM. split; [unfold raise_floor, to_db, mmap, wf in *; cbn [nrows ncols elems]; rewrite !map_length; exact W|].
      unfold all_rg, raise_floor, to_db, mmap. cbn [elems]. rewrite map_map. apply Forall_forall. intros x Hx. apply in_map_iff in Hx. destruct Hx as (y & <- & Hy). apply floor_rg. rewrite Forall_forall in HM. apply HM, Hy. }
    destruct (G A WA HA) as [W1 R1]. destruct (G B WB HB) as [W2 R2]. fold A0 in W1, R1. fold B0 in W2, R2. clearbody A0 B0.
    destruct (raise_frames _ _ _) as [[A1 B1]| | |] eqn:E1; try discriminate. cbn [bind] in E.
    destruct (frames_rg (seq 0 (Nat.min (ncols A0) (ncols B0))) A0 B0 A1 B1 W1 W2) as [RA RB]; try assumption. { intros c Hc. apply in_seq in Hc. lia. }
    unfold spec_min in E. destruct (min_elem (elems A1)) as [ra| | |] eqn:EA; try discriminate. cbn [bind] in E. destruct (min_elem (elems B1)) as [rb| | |] eqn:EB; try discriminate. cbn [bind] in E.
    destruct (min_rg _ _ _ _ RA EA) as [Ma La]. destruct (min_rg _ _ _ _ RB EB) as [Mb Lb].
    pose proof (nmin_rg _ _ _ _ Ma Mb) as Ml.
    assert (LL : FR (nmin ra rb) <= FR ra /\ FR (nmin ra rb) <= FR rb).
    { unfold nmin. cbn [nltb NumF]. rewrite (FR_ltb rb ra (proj1 Mb) (proj1 Ma)). case Raux.Rlt_bool_spec; intros C; lra. }
    set (lo := nmin ra rb) in *.
    assert (SB : forall l, Forall (rg (-45) 4000) l -> Forall (fun x => FR lo <= FR x) l -> Forall (rg 0 4045) (map (fun x => nsub x lo) l)).
    { intros l H1 H2. apply Forall_forall. intros x Hx. apply in_map_iff in Hx. destruct Hx as (y & <- & Hy). rewrite Forall_forall in H1, H2. specialize (H1 y Hy). specialize (H2 y Hy).
      destruct (sub_rg (-45) 4000 (-45) 4000 y lo ltac:(lia) ltac:(lia) H1 Ml) as [S1 S2]. split; [exact S1|]. split; [|exact (proj2 S2)].
      cbn [nsub NumF]. destruct (FR_sub y lo (proj1 H1) (proj1 Ml)) as [ES _].
      { destruct Ml as [_ Ml]. destruct H1 as [_ H1]. apply Rle_lt_trans with (Rabs (IZR 5000)); [|apply IZR_lt_fmax; lia]. rewrite (Rabs_pos_eq (IZR 5000)) by lra. apply ScoresP.rnd_abs; [lia|]. apply Rabs_le. lra. }
      rewrite ES. change (IZR 0) with 0. rewrite <- (rnd_Z 0 ltac:(lia)). apply ScoresP.rnd_le. lra. }
    injection E as <- <-. unfold all_rg, subtract_floor, mmap. cbn [elems].
    split; [apply SB; [exact RA|]; eapply Forall_impl; [|exact La]; intros; cbn in *; lra|].
    split; [apply SB; [exact RB|]; eapply Forall_impl; [|exact Lb]; intros; cbn in *; lra|].
    assert (IN : In lo (elems A1) \/ In lo (elems B1)).
    { unfold lo, nmin. destruct (nltb rb ra); [right; apply min_attained, EB|left; apply min_attained, EA]. }
    exists (nsub lo lo). split; [destruct IN as [IN|IN]; [left|right]; apply (in_map (fun x => nsub x lo)), IN|].
    destruct (sub_self lo (proj1 Ml)) as [S1 S2]. split; [exact S2|exact S1].
  Qed.
End Db.
