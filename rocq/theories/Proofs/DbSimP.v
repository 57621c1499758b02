(** The preparation of spectrograms in binary64 follows the preparation over the reals (C116). *)
From Coq Require Import ZArith List Bool Reals Lra Lia Floats Arith.
From Flocq Require Import Core.Core IEEE754.BinarySingleNaN IEEE754.PrimFloat.
From Verif Require Import Base.Res Base.Num Base.NumR Base.NumF Base.Lists Base.Mat Model.Amatrix Model.MiscMath Model.Spectrogram
  Spec.StatSpec Proofs.B64P Proofs.RealP Proofs.RoundP Proofs.PrepareP Proofs.FinitePrepP.
Import ListNotations.
Open Scope R_scope.

(** a number that stands for a real one up to d *)
Definition cl (d : R) (x : F) (r : R) : Prop := rg (-90) 4000 x /\ Rabs (FR x - r) <= d.

Lemma cl_weak d e x r : d <= e -> cl d x r -> cl e x r.
Proof. intros H [A B]. split; [exact A|lra]. Qed.
Lemma nmax_cl d x y r s : cl d x r -> cl d y s -> cl d (nmax x y) (nmax r s).
Proof.
  intros [X1 X2] [Y1 Y2]. split; [apply nmax_rg; assumption|]. rewrite nmax_Rmax. unfold nmax. cbn [nltb NumF]. rewrite FR_ltb by (apply X1 || apply Y1).
  apply Raux.Rabs_le_inv in X2, Y2. apply Rabs_le. case Raux.Rlt_bool_spec; intros C; unfold Rmax; destruct (Rle_dec r s); lra.
Qed.
Lemma nmin_cl d x y r s : cl d x r -> cl d y s -> cl d (nmin x y) (nmin r s).
Proof.
  intros [X1 X2] [Y1 Y2]. split; [apply nmin_rg; assumption|]. rewrite nmin_Rmin. unfold nmin. cbn [nltb NumF]. rewrite FR_ltb by (apply X1 || apply Y1).
  apply Raux.Rabs_le_inv in X2, Y2. apply Rabs_le. case Raux.Rlt_bool_spec; intros C; unfold Rmin; destruct (Rle_dec r s); lra.
Qed.
Lemma max_cl d l l' : Forall2 (cl d) l l' -> l <> [] -> exists m m', max_elem l = Ret m /\ max_elem l' = Ret m' /\ cl d m m'.
Proof.
  intros H N. destruct H as [|x r t t' H1 H2]; [contradiction|]. clear N. eexists _, _. split; [reflexivity|]. split; [reflexivity|]. revert x r H1.
  induction H2 as [|y s t t' Hy _ IH]; intros x r Hx; [exact Hx|]. cbn [max_elem_from]. change (if nltb x y then y else x) with (nmax x y). change (if nltb r s then s else r) with (nmax r s).
  apply IH, nmax_cl; assumption.
Qed.
Lemma min_cl d l l' : Forall2 (cl d) l l' -> l <> [] -> exists m m', min_elem l = Ret m /\ min_elem l' = Ret m' /\ cl d m m'.
Proof.
  intros H N. destruct H as [|x r t t' H1 H2]; [contradiction|]. clear N. eexists _, _. split; [reflexivity|]. split; [reflexivity|]. revert x r H1.
  induction H2 as [|y s t t' Hy _ IH]; intros x r Hx; [exact Hx|]. cbn [min_elem_from]. change (if nltb y x then y else x) with (nmin x y). change (if nltb s r then s else r) with (nmin r s).
  apply IH, nmin_cl; assumption.
Qed.

(** what one subtraction may add *)
Definition eps1 : R := 1 / 1000000000000.
Lemma sub_err x y r s d e a b : fin x -> fin y -> Rabs (FR x - FR y) <= 4095 -> rg a b (PrimFloat.sub x y) -> Rabs (FR x - r) <= d -> Rabs (FR y - s) <= e ->
  Rabs (FR (PrimFloat.sub x y) - (r - s)) <= d + e + eps1.
Proof.
  intros Fx Fy B RG H1 H2.
  assert (TB : tiny <= 4095) by (unfold tiny; apply Rle_trans with (bpow radix2 0); [apply bpow_le; lia|cbn; lra]).
  pose proof (rnd_err (FR x - FR y) 4095 B TB) as E.
  assert (Rabs (rnd (FR x - FR y)) < fmax).
  { apply Rle_lt_trans with (Rabs (IZR 5000)); [|apply IZR_lt_fmax; lia]. rewrite (Rabs_pos_eq (IZR 5000)) by lra.
    assert (u * 4095 <= 1) by (unfold u; cbn; lra). apply Raux.Rabs_le_inv in E, B. apply Rabs_le. lra. }
  destruct (FR_sub x y Fx Fy H) as [EQ _]. rewrite EQ.
  assert (u * 4095 <= eps1) by (unfold u, eps1; cbn; lra).
  apply Raux.Rabs_le_inv in E, H1, H2. apply Rabs_le. lra.
Qed.

(** *** matrices *)
Definition mrel (d : nat -> R) (A : mat F) (X : mat R) : Prop :=
  wf A /\ wf X /\ same_shape A X /\ forall r c, (r < nrows A)%nat -> (c < ncols A)%nat -> cl (d c) (at_ A r c) (at_ X r c).
Lemma mrel_weak d e A X : (forall c, (c < ncols A)%nat -> d c <= e c) -> mrel d A X -> mrel e A X.
Proof. intros H (W1 & W2 & SH & G). split; [exact W1|]. split; [exact W2|]. split; [exact SH|]. intros r c Hr Hc. apply (cl_weak (d c)); [apply H; exact Hc|apply G; assumption]. Qed.
Lemma Forall2_map_in {I A B} (P : A -> B -> Prop) (f : I -> A) (g : I -> B) l : (forall i, In i l -> P (f i) (g i)) -> Forall2 P (map f l) (map g l).
Proof. induction l as [|i l IH]; intros H; cbn; constructor; [apply H; left; reflexivity|apply IH; intros j Hj; apply H; right; exact Hj]. Qed.
Lemma Forall2_by_nth {A B} (P : A -> B -> Prop) da db l : forall l', length l = length l' -> (forall i, (i < length l)%nat -> P (nth i l da) (nth i l' db)) -> Forall2 P l l'.
Proof.
  induction l as [|x l IH]; intros [|y l'] E H; try discriminate; constructor.
  - apply (H 0%nat). cbn. lia.
  - apply IH; [injection E as E; exact E|]. intros i Hi. apply (H (S i)). cbn. lia.
Qed.
Lemma col_cl d A X c : mrel d A X -> (c < ncols A)%nat -> Forall2 (cl (d c)) (col_list A c) (col_list X c).
Proof.
  intros (W1 & W2 & [SR SC] & G) Hc. unfold col_list. rewrite <- SR. apply Forall2_map_in. intros r Hr. apply in_seq in Hr. apply G; [lia|exact Hc].
Qed.
Lemma elems_cl d A X : mrel (fun _ => d) A X -> Forall2 (cl d) (elems A) (elems X).
Proof.
  intros (W1 & W2 & [SR SC] & G). unfold wf in W1, W2. apply (Forall2_by_nth (cl d) n0 n0); [rewrite W1, W2, SR, SC; reflexivity|].
  intros i Hi. rewrite W1 in Hi. assert (0 < nrows A)%nat by (destruct (nrows A); lia).
  pose proof (Nat.mod_upper_bound i (nrows A) ltac:(lia)) as M. assert (Q : (i / nrows A < ncols A)%nat) by (apply Nat.div_lt_upper_bound; lia).
  specialize (G _ _ M Q). unfold at_, mget in G. rewrite <- SR in G.
  replace ((i / nrows A) * nrows A + i mod nrows A)%nat with i in G by (rewrite Nat.mul_comm; apply Nat.div_mod; lia). exact G.
Qed.

Lemma set_col_F (M : mat F) c v : (c < ncols M)%nat -> length v = nrows M ->
  exists M', m_set_col M (Z.of_nat c) v = Ret M' /\ wf M' /\ same_shape M M' /\
    forall r j, (r < nrows M)%nat -> (j < ncols M)%nat -> at_ M' r j = if Nat.eqb j c then nth r v n0 else at_ M r j.
Proof.
  intros Hc Hv. unfold m_set_col.
  replace ((0 <=? Z.of_nat c)%Z && (Z.of_nat c <? Z.of_nat (ncols M))%Z && Nat.eqb (length v) (nrows M)) with true.
  - eexists. split; [reflexivity|]. split; [apply tab_wf|]. split; [split; reflexivity|].
    intros r j Hr Hj. unfold at_ at 1. rewrite mget_tab by assumption. rewrite Nat2Z.id. reflexivity.
  - symmetry. rewrite !andb_true_iff. rewrite Z.leb_le, Z.ltb_lt, Nat.eqb_eq. lia.
Qed.
Definition upd (d : nat -> R) (c : nat) (v : R) : nat -> R := fun j => if Nat.eqb j c then v else d j.
Lemma set_col_cl d A X c fl fl' : mrel d A X -> (c < ncols A)%nat -> cl (d c + eps1) fl fl' ->
  exists A' X', m_set_col A (Z.of_nat c) (map (nmax fl) (col_list A c)) = Ret A' /\ m_set_col X (Z.of_nat c) (map (nmax fl') (col_list X c)) = Ret X' /\
    mrel (upd d c (d c + eps1)) A' X' /\ same_shape A A'.
Proof.
  intros HR Hc HF. pose proof HR as (W1 & W2 & [SR SC] & G).
  destruct (set_col_F A c (map (nmax fl) (col_list A c)) Hc) as (A' & E1 & WA & SA & GA). { unfold col_list. rewrite !map_length, seq_length. reflexivity. }
  destruct (set_col_spec X c (map (nmax fl') (col_list X c)) ltac:(lia)) as (X' & E2 & WX & SX & GX). { unfold col_list. rewrite !map_length, seq_length. reflexivity. }
  exists A', X'. split; [exact E1|]. split; [exact E2|]. split; [|exact SA]. destruct SA as [SA1 SA2]. destruct SX as [SX1 SX2].
  split; [exact WA|]. split; [exact WX|]. split; [split; congruence|]. intros r j Hr Hj. rewrite <- SA1 in Hr. rewrite <- SA2 in Hj. rewrite GA, GX by lia. unfold upd.
  destruct (Nat.eqb_spec j c) as [->|]; [|apply G; assumption].
  rewrite (nth_indep _ n0 (nmax fl n0)) by (unfold col_list; rewrite !map_length, seq_length; assumption).
  rewrite (nth_indep _ 0 (nmax fl' 0)) by (unfold col_list; rewrite !map_length, seq_length; lia).
  rewrite !map_nth. unfold col_list. rewrite !nth_map_seq by lia. apply nmax_cl; [exact HF|]. apply (cl_weak (d c)); [unfold eps1; lra|]. apply G; assumption.
Qed.
Lemma frame_cl d A B X Y c : mrel d A X -> mrel d B Y -> (0 < nrows A)%nat -> (0 < nrows B)%nat -> (c < ncols A)%nat -> (c < ncols B)%nat ->
  all_rg (-45) 4000 A -> all_rg (-45) 4000 B ->
  exists A' B' X' Y', raise_frame kNoiseFloorRelativeToPeakDb (A, B) c = Ret (A', B') /\ raise_frame kNoiseFloorRelativeToPeakDb (X, Y) c = Ret (X', Y') /\
    mrel (upd d c (d c + eps1)) A' X' /\ mrel (upd d c (d c + eps1)) B' Y' /\ same_shape A A' /\ same_shape B B' /\ all_rg (-45) 4000 A' /\ all_rg (-45) 4000 B'.
Proof.
  intros HA HB RA RB CA CB GA GB.
  assert (NE : forall M : mat F, (0 < nrows M)%nat -> col_list M c <> []).
  { intros M H E. apply (f_equal (@length _)) in E. unfold col_list in E. rewrite map_length, seq_length in E. cbn in E. lia. }
  destruct (max_cl _ _ _ (col_cl d A X c HA CA) (NE A RA)) as (ma & ma' & Ea & Ea' & La).
  destruct (max_cl _ _ _ (col_cl d B Y c HB CB) (NE B RB)) as (mb & mb' & Eb & Eb' & Lb).
  pose proof (max_rg _ _ _ _ (col_rg _ _ A c (proj1 HA) CA GA) Ea) as Ra. pose proof (max_rg _ _ _ _ (col_rg _ _ B c (proj1 HB) CB GB) Eb) as Rb.
  pose proof (nmax_cl _ _ _ _ _ La Lb) as Lm. pose proof (nmax_rg _ _ _ _ Ra Rb) as Rm.
  assert (FL : cl (d c + eps1) (nsub (nmax ma mb) kNoiseFloorRelativeToPeakDb) (nsub (nmax ma' mb') kNoiseFloorRelativeToPeakDb)).
  { assert (K : rg 45 45 (F_ofZ 45)) by (apply ofZ_rg; lia). pose proof (sub_rg (-45) 4000 45 45 (nmax ma mb) (F_ofZ 45) ltac:(lia) ltac:(lia) Rm K) as SG.
    change (-45 - 45)%Z with (-90)%Z in SG. change (4000 - 45)%Z with 3955%Z in SG.
    change (nsub (nmax ma mb) kNoiseFloorRelativeToPeakDb) with (PrimFloat.sub (nmax ma mb) (F_ofZ 45)).
    change (nsub (nmax ma' mb') kNoiseFloorRelativeToPeakDb) with (nmax ma' mb' - 45). split; [destruct SG as [S1 S2]; split; [exact S1|lra]|].
    replace (d c + eps1) with (d c + 0 + eps1) by lra. apply (sub_err _ _ _ _ _ _ (-90) 3955); try assumption; [apply Rm|apply K| |apply Lm|].
    - destruct Rm as [_ Rm], K as [_ K]. apply Rabs_le. lra.
    - destruct K as [_ K]. apply Rabs_le. lra. }
  destruct (set_col_cl d A X c _ _ HA CA FL) as (A' & X' & E1 & E1' & M1 & S1). destruct (set_col_cl d B Y c _ _ HB CB FL) as (B' & Y' & E2 & E2' & M2 & S2).
  exists A', B', X', Y'.
  assert (EF : raise_frame kNoiseFloorRelativeToPeakDb (A, B) c = Ret (A', B')) by (unfold raise_frame; rewrite Ea, Eb; cbn [bind]; rewrite E1, E2; reflexivity).
  split; [exact EF|]. split; [unfold raise_frame; rewrite Ea', Eb'; cbn [bind]; rewrite E1', E2'; reflexivity|].
  split; [exact M1|]. split; [exact M2|]. split; [exact S1|]. split; [exact S2|].
  destruct (frame_rg A B A' B' c (proj1 HA) (proj1 HB) CA CB GA GB EF) as ((_ & _ & _ & G1) & (_ & _ & _ & G2)). split; assumption.
Qed.
Lemma frames_cl is : forall d A B X Y, NoDup is -> mrel d A X -> mrel d B Y -> (0 < nrows A)%nat -> (0 < nrows B)%nat -> (forall c, In c is -> (c < ncols A)%nat /\ (c < ncols B)%nat) ->
  all_rg (-45) 4000 A -> all_rg (-45) 4000 B ->
  exists A' B' X' Y', raise_frames kNoiseFloorRelativeToPeakDb (A, B) is = Ret (A', B') /\ raise_frames kNoiseFloorRelativeToPeakDb (X, Y) is = Ret (X', Y') /\
    mrel (fun c => d c + eps1) A' X' /\ mrel (fun c => d c + eps1) B' Y' /\ same_shape A A' /\ same_shape B B' /\ all_rg (-45) 4000 A' /\ all_rg (-45) 4000 B'.
Proof.
  assert (GEN : forall is d A B X Y, NoDup is -> mrel d A X -> mrel d B Y -> (0 < nrows A)%nat -> (0 < nrows B)%nat -> (forall c, In c is -> (c < ncols A)%nat /\ (c < ncols B)%nat) ->
    all_rg (-45) 4000 A -> all_rg (-45) 4000 B ->
    exists A' B' X' Y', raise_frames kNoiseFloorRelativeToPeakDb (A, B) is = Ret (A', B') /\ raise_frames kNoiseFloorRelativeToPeakDb (X, Y) is = Ret (X', Y') /\
      mrel (fun c => if in_dec Nat.eq_dec c is then d c + eps1 else d c) A' X' /\ mrel (fun c => if in_dec Nat.eq_dec c is then d c + eps1 else d c) B' Y' /\
      same_shape A A' /\ same_shape B B' /\ all_rg (-45) 4000 A' /\ all_rg (-45) 4000 B').
  { clear is. induction is as [|c is IH]; intros d A B X Y ND HA HB RA RB HC GA GB; cbn [raise_frames].
    - exists A, B, X, Y. refine (conj eq_refl (conj eq_refl (conj HA (conj HB (conj (conj eq_refl eq_refl) (conj (conj eq_refl eq_refl) (conj GA GB))))))).
    - inversion ND as [|? ? NI ND']; subst. destruct (HC c (or_introl eq_refl)) as [C1 C2].
      destruct (frame_cl d A B X Y c HA HB RA RB C1 C2 GA GB) as (A1 & B1 & X1 & Y1 & E1 & E2 & M1 & M2 & [S1 S1'] & [S2 S2'] & G1 & G2).
      rewrite E1, E2. cbn [bind].
      destruct (IH (upd d c (d c + eps1)) A1 B1 X1 Y1 ND' M1 M2) as (A' & B' & X' & Y' & F1 & F2 & N1 & N2 & [T1 T1'] & [T2 T2'] & H1 & H2); try assumption; try lia.
      { intros j Hj. rewrite <- S1', <- S2'. apply HC. right. exact Hj. }
      exists A', B', X', Y'. split; [exact F1|]. split; [exact F2|].
      assert (LE : forall j, (if in_dec Nat.eq_dec j is then upd d c (d c + eps1) j + eps1 else upd d c (d c + eps1) j) <= (if in_dec Nat.eq_dec j (c :: is) then d j + eps1 else d j)).
      { intros j. unfold upd. destruct (in_dec Nat.eq_dec j is) as [I|I], (in_dec Nat.eq_dec j (c :: is)) as [I'|I'], (Nat.eqb_spec j c) as [->|Ne].
        - contradiction.
        - lra.
        - contradiction.
        - exfalso. apply I'. right. exact I.
        - lra.
        - destruct I' as [Q|Q]; [congruence|contradiction].
        - exfalso. apply I'. left. reflexivity.
        - lra. }
      split; [apply (mrel_weak _ _ _ _ (fun j _ => LE j) N1)|]. split; [apply (mrel_weak _ _ _ _ (fun j _ => LE j) N2)|].
      split; [split; congruence|]. split; [split; congruence|]. split; assumption. }
  intros d A B X Y ND HA HB RA RB HC GA GB. destruct (GEN is d A B X Y ND HA HB RA RB HC GA GB) as (A' & B' & X' & Y' & F1 & F2 & N1 & N2 & T).
  exists A', B', X', Y'. split; [exact F1|]. split; [exact F2|].
  assert (LE : forall j, (if in_dec Nat.eq_dec j is then d j + eps1 else d j) <= d j + eps1) by (intros j; destruct (in_dec _ _ _); unfold eps1; lra).
  split; [apply (mrel_weak _ _ _ _ (fun j _ => LE j) N1)|]. split; [apply (mrel_weak _ _ _ _ (fun j _ => LE j) N2)|exact T].
Qed.

(** *** the whole preparation *)
Section Prep.
  Context {L : Libm F}.
  (** the raised levels agree up to d *)
  Definition raised_cl (d : R) (A : mat F) (X : mat R) : Prop :=
    wf A /\ wf X /\ same_shape A X /\ forall r c, (r < nrows A)%nat -> (c < ncols A)%nat ->
      rg (-45) 4000 (nmax kNoiseFloorAbsoluteDb (convert_sample_to_db (at_ A r c))) /\
      Rabs (FR (nmax kNoiseFloorAbsoluteDb (convert_sample_to_db (at_ A r c))) - Rmax (-45) (level (at_ X r c))) <= d.

  Lemma raised_mrel d A X : raised_cl d A X -> mrel (fun _ => d) (raise_floor kNoiseFloorAbsoluteDb (to_db A)) (raise_floor kNoiseFloorAbsoluteDb (to_db X)) /\
    all_rg (-45) 4000 (raise_floor kNoiseFloorAbsoluteDb (to_db A)).
  Proof.
    intros (W1 & W2 & SH & G).
    assert (AT : forall r c, (r < nrows A)%nat -> (c < ncols A)%nat -> at_ (raise_floor kNoiseFloorAbsoluteDb (to_db A)) r c = nmax kNoiseFloorAbsoluteDb (convert_sample_to_db (at_ A r c))).
    { intros r c Hr Hc. unfold raise_floor, to_db, at_. rewrite (mget_mmap n0) by (auto using mmap_wf). rewrite (mget_mmap n0) by auto. reflexivity. }
    split.
    - split; [apply mmap_wf, mmap_wf; exact W1|]. split; [apply mmap_wf, mmap_wf; exact W2|]. split; [exact SH|].
      intros r c Hr Hc. change (nrows (raise_floor kNoiseFloorAbsoluteDb (to_db A))) with (nrows A) in Hr. change (ncols (raise_floor kNoiseFloorAbsoluteDb (to_db A))) with (ncols A) in Hc.
      rewrite AT by assumption. destruct SH as [SR SC].
      replace (at_ (raise_floor kNoiseFloorAbsoluteDb (to_db X)) r c) with (Rmax (-45) (level (at_ X r c))).
      + destruct (G r c Hr Hc) as [[G1 G2] G3]. split; [split; [exact G1|lra]|exact G3].
      + unfold raise_floor, to_db, at_. rewrite (mget_mmap n0) by (auto using mmap_wf; cbn; lia). rewrite (mget_mmap n0) by (auto; lia). rewrite nmax_Rmax, convert_level. reflexivity.
    - unfold all_rg. apply Forall_forall. intros x Hx. destruct (In_nth _ _ n0 Hx) as (i & Hi & <-).
      assert (W : wf (raise_floor kNoiseFloorAbsoluteDb (to_db A))) by (apply mmap_wf, mmap_wf; exact W1). unfold wf in W. rewrite W in Hi.
      change (nrows (raise_floor kNoiseFloorAbsoluteDb (to_db A))) with (nrows A) in Hi. change (ncols (raise_floor kNoiseFloorAbsoluteDb (to_db A))) with (ncols A) in Hi.
      assert (0 < nrows A)%nat by (destruct (nrows A); lia).
      pose proof (Nat.mod_upper_bound i (nrows A) ltac:(lia)) as M. assert (Q : (i / nrows A < ncols A)%nat) by (apply Nat.div_lt_upper_bound; lia).
      pose proof (AT _ _ M Q) as E. unfold at_ at 1, mget in E. change (nrows (raise_floor kNoiseFloorAbsoluteDb (to_db A))) with (nrows A) in E.
      replace ((i / nrows A) * nrows A + i mod nrows A)%nat with i in E by (rewrite Nat.mul_comm; apply Nat.div_mod; lia). rewrite E. apply G; assumption.
  Qed.

  Lemma prepare_cl d A B X Y : 0 <= d -> raised_cl d A X -> raised_cl d B Y -> (0 < nrows A)%nat -> (0 < nrows B)%nat -> (0 < ncols A)%nat -> (0 < ncols B)%nat ->
    exists A' B' X' Y', prepare_spectrograms A B = Ret (A', B') /\ prepare_spectrograms X Y = Ret (X', Y') /\
      (forall r c, (r < nrows A)%nat -> (c < ncols A)%nat -> fin (at_ A' r c) /\ Rabs (FR (at_ A' r c) - at_ X' r c) <= 2 * d + 3 * eps1) /\
      (forall r c, (r < nrows B)%nat -> (c < ncols B)%nat -> fin (at_ B' r c) /\ Rabs (FR (at_ B' r c) - at_ Y' r c) <= 2 * d + 3 * eps1).
  Proof.
    intros Hd HA HB RA RB CA CB. destruct (raised_mrel d A X HA) as [MA GA]. destruct (raised_mrel d B Y HB) as [MB GB].
    assert (SX : same_shape A X) by apply HA. assert (SY : same_shape B Y) by apply HB. clear HA HB. destruct SX as [SX1 SX2], SY as [SY1 SY2].
    unfold prepare_spectrograms.
    assert (DA : nrows (raise_floor kNoiseFloorAbsoluteDb (to_db A)) = nrows A /\ ncols (raise_floor kNoiseFloorAbsoluteDb (to_db A)) = ncols A) by (split; reflexivity).
    assert (DB : nrows (raise_floor kNoiseFloorAbsoluteDb (to_db B)) = nrows B /\ ncols (raise_floor kNoiseFloorAbsoluteDb (to_db B)) = ncols B) by (split; reflexivity).
    assert (DX : ncols (raise_floor kNoiseFloorAbsoluteDb (to_db X)) = ncols X) by reflexivity. assert (DY : ncols (raise_floor kNoiseFloorAbsoluteDb (to_db Y)) = ncols Y) by reflexivity.
    set (A0 := raise_floor kNoiseFloorAbsoluteDb (to_db A)) in *. set (B0 := raise_floor kNoiseFloorAbsoluteDb (to_db B)) in *.
    set (X0 := raise_floor kNoiseFloorAbsoluteDb (to_db X)) in *. set (Y0 := raise_floor kNoiseFloorAbsoluteDb (to_db Y)) in *. clearbody A0 B0 X0 Y0.
    destruct DA as [DA1 DA2], DB as [DB1 DB2]. unfold raise_floor_per_frame. rewrite DA2, DB2, DX, DY, <- SX2, <- SY2.
    destruct (frames_cl (seq 0 (Nat.min (ncols A) (ncols B))) (fun _ => d) A0 B0 X0 Y0) as (A1 & B1 & X1 & Y1 & E1 & E2 & M1 & M2 & [S1 S1'] & [S2 S2'] & G1 & G2); try assumption; try lia.
    { apply seq_NoDup. } { intros c Hc. apply in_seq in Hc. lia. }
    rewrite E1, E2. cbn [bind]. unfold spec_min.
    assert (NE : forall M : mat F, wf M -> (0 < nrows M)%nat -> (0 < ncols M)%nat -> elems M <> []).
    { intros M W H1 H2 EE. unfold wf in W. rewrite EE in W. cbn in W. nia. }
    destruct (min_cl _ _ _ (elems_cl _ _ _ M1) (NE A1 (proj1 M1) ltac:(lia) ltac:(lia))) as (ra & ra' & Ea & Ea' & La).
    destruct (min_cl _ _ _ (elems_cl _ _ _ M2) (NE B1 (proj1 M2) ltac:(lia) ltac:(lia))) as (rb & rb' & Eb & Eb' & Lb).
    rewrite Ea, Eb, Ea', Eb'. cbn [bind].
    destruct (min_rg _ _ _ _ G1 Ea) as [Ra _]. destruct (min_rg _ _ _ _ G2 Eb) as [Rb _].
    pose proof (nmin_cl _ _ _ _ _ La Lb) as Lm. pose proof (nmin_rg _ _ _ _ Ra Rb) as Rm. set (lo := nmin ra rb) in *. set (lo' := nmin ra' rb') in *. clearbody lo lo'.
    eexists _, _, _, _. split; [reflexivity|]. split; [reflexivity|].
    assert (FIN : forall (M : mat F) (P : mat R) r c, mrel (fun _ => d + eps1) M P -> all_rg (-45) 4000 M -> (r < nrows M)%nat -> (c < ncols M)%nat ->
      fin (at_ (subtract_floor lo M) r c) /\ Rabs (FR (at_ (subtract_floor lo M) r c) - at_ (subtract_floor lo' P) r c) <= 2 * d + 3 * eps1).
    { intros M P r c MR G Hr Hc. pose proof MR as (W1 & W2 & [Q1 Q2] & C). specialize (C r c Hr Hc).
      unfold subtract_floor, at_. rewrite (mget_mmap n0) by assumption. rewrite (mget_mmap n0) by (assumption || lia). fold (at_ M r c). fold (at_ P r c).
      change (nsub (at_ M r c) lo) with (PrimFloat.sub (at_ M r c) lo). change (nsub (at_ P r c) lo') with (at_ P r c - lo').
      pose proof (at_rg _ _ M r c W1 Hr Hc G) as RG. pose proof (sub_rg (-45) 4000 (-45) 4000 _ _ ltac:(lia) ltac:(lia) RG Rm) as SG. split; [apply SG|].
      apply Rle_trans with ((d + eps1) + (d + eps1) + eps1); [|lra]. refine (sub_err _ _ _ _ _ _ _ _ (proj1 RG) (proj1 Rm) _ SG (proj2 C) (proj2 Lm)).
      destruct RG as [_ RG], Rm as [_ Rm]. apply Rabs_le. lra. }
    split; intros r c Hr Hc; apply FIN; try assumption; lia.
  Qed.
End Prep.
