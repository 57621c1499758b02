(** A concrete alignment with 32-bit transforms, and a recording aligned with itself (C109). *)
From Coq Require Import ZArith List Bool Lia Arith Reals Lra Psatz Floats.
From Coq Require Strings.String.
From Coq Require Import ZifyBool ZifyNat.
From Flocq Require Import Core.Core IEEE754.BinarySingleNaN IEEE754.PrimFloat.
From Verif Require Import Base.Res Base.Num Base.NumR Base.NumF Base.Lists Base.Cplx Base.Mat Model.Amatrix Model.MiscMath Model.Fft Model.Window Model.FilterBank Model.MiscAudio Model.Alignment Model.Mappers Model.Visqol Model.Manager
  Spec.FftSpec Spec.FftAccSpec Spec.EnvAccSpec Spec.EnvelopeSpec Spec.ManagerSpec Spec.TotalSpec Spec.LibmSpec Spec.PcmSpec Spec.SelfSpec
  Proofs.FftP Proofs.DftP Proofs.CopyP Proofs.B64P Proofs.FftErrP Proofs.XcorrLagP Proofs.EnvelopeP Proofs.EnvAlignP Proofs.ToyRunP Proofs.RoundedLibmP Proofs.AccurateRunP Proofs.AccurateCasesP Proofs.LevelFloatP Proofs.SelfRunP Proofs.SelfCasesP.
Import ListNotations.
Open Scope R_scope.
Local Notation F := PrimFloat.float.
Local Notation p2 := (bpow radix2).

(** a click at sample p of a recording of n samples *)
Definition click (p n : nat) : list F := (repeat 0 p ++ [0.5; 0.5; -0.5; -0.5] ++ repeat 0 (n - p - 4))%float%list.
Lemma click_length p n : (p + 4 <= n)%nat -> length (click p n) = n.
Proof. intros H. unfold click. rewrite !app_length, !repeat_length. cbn [length]. lia. Qed.
Lemma click_all (P : F -> Prop) p n : P 0%float -> P 0.5%float -> P (-0.5)%float -> Forall P (click p n).
Proof. intros P0 P1 P2. unfold click. apply Forall_app. split; [apply Forall_repeat_; exact P0|]. apply Forall_app. split; [repeat constructor; assumption|apply Forall_repeat_; exact P0]. Qed.
Lemma map_rep (x : F) k : map FR (repeat x k) = repeat (FR x) k.
Proof. induction k as [|k IH]; [reflexivity|]. cbn [repeat map]. rewrite IH. reflexivity. Qed.
Lemma values3 : FR 0%float = 0 /\ FR 0.5%float = 1 / 2 /\ FR (-0.5)%float = - (1 / 2).
Proof.
  assert (E1 : FR 0.5%float = F2R (Float radix2 4503599627370496 (-53))) by reflexivity. assert (E2 : FR (-0.5)%float = F2R (Float radix2 (-4503599627370496) (-53))) by reflexivity.
  unfold F2R in E1, E2. cbn [Fnum Fexp] in E1, E2. change (bpow radix2 (-53)) with (/ 9007199254740992) in E1, E2. split; [reflexivity|]. rewrite E1, E2. split; lra.
Qed.
Lemma click_at p n j : smp (exact (click p n)) j = if Nat.ltb j p then 0 else nth (j - p) [1 / 2; 1 / 2; - (1 / 2); - (1 / 2)] 0.
Proof.
  destruct values3 as (V0 & V1 & V2). unfold smp, exact, click. rewrite !map_app, !map_rep. cbn [map]. rewrite V0, V1, V2. destruct (Nat.ltb_spec j p) as [C|C].
  - rewrite app_nth1 by (rewrite repeat_length; lia). apply nth_repeat.
  - rewrite app_nth2 by (rewrite repeat_length; lia). rewrite repeat_length. destruct (Nat.lt_ge_cases (j - p) 4) as [D|D].
    + rewrite app_nth1 by (cbn; lia). reflexivity.
    + rewrite app_nth2 by (cbn; lia). rewrite nth_repeat. symmetry. apply nth_overflow. cbn. lia.
Qed.
Lemma sum_block p n f : (p + 4 <= n)%nat -> (forall j, (j < p)%nat \/ (p + 4 <= j)%nat -> f j = 0) -> sum n f = f p + f (p + 1)%nat + f (p + 2)%nat + f (p + 3)%nat.
Proof.
  intros H Z. replace n with (p + (4 + (n - p - 4)))%nat by lia. rewrite sum_app. rewrite DftP.sum_zero by (intros i Hi; apply Z; lia).
  rewrite sum_app. rewrite (DftP.sum_zero (n - p - 4)) by (intros i Hi; apply Z; lia). cbn [sum]. rewrite Nat.add_0_r. ring.
Qed.
Lemma click_out p n j : (j < p)%nat \/ (p + 4 <= j)%nat -> smp (exact (click p n)) j = 0.
Proof. intros H. rewrite click_at. destruct (Nat.ltb_spec j p); [reflexivity|]. apply nth_overflow. cbn. lia. Qed.
Lemma click_in p n i : smp (exact (click p n)) (p + i) = nth i [1 / 2; 1 / 2; - (1 / 2); - (1 / 2)] 0.
Proof. rewrite click_at. destruct (Nat.ltb_spec (p + i) p); [lia|]. f_equal. lia. Qed.
Lemma click_in0 p n : smp (exact (click p n)) p = 1 / 2.
Proof. pose proof (click_in p n 0) as H. rewrite Nat.add_0_r in H. exact H. Qed.
Ltac clicks := rewrite ?click_in0, ?click_in; cbn [nth].
Section Click.
  Variables p n : nat. Hypothesis H : (p + 4 <= n)%nat.
  Lemma click_exact_length : length (exact (click p n)) = n. Proof. unfold exact. rewrite map_length. apply click_length, H. Qed.
  Lemma click_size : size (exact (click p n)) = 1.
  Proof.
    unfold size. rewrite click_exact_length. rewrite (sum_block p n) by (try exact H; intros j Hj; rewrite click_out by exact Hj; ring). clicks.
    replace (_ + _ + _ + _) with 1 by field. apply R_sqrt.sqrt_1.
  Qed.
  Lemma click_average : average (exact (click p n)) = 0.
  Proof. unfold average. rewrite click_exact_length. rewrite (sum_block p n) by (try exact H; intros j Hj; rewrite click_out by exact Hj; ring). clicks. unfold Rdiv. replace (_ + _ + _ + _) with 0 by ring. ring. Qed.
  Lemma click_centred j : centred (exact (click p n)) j = smp (exact (click p n)) j.
  Proof. unfold centred. rewrite click_exact_length, click_average. destruct (Nat.ltb_spec j n); [ring|]. symmetry. apply click_out. lia. Qed.
  Lemma click_alternating : alternating (exact (click p n)) = 0.
  Proof.
    unfold alternating. rewrite click_exact_length. rewrite (sum_block p n) by (try exact H; intros j Hj; rewrite click_centred, click_out by exact Hj; ring). rewrite !click_centred. clicks. rewrite !pow_add. ring.
  Qed.
  Lemma click_rectified j : smp (rectified (exact (click p n))) j = if Nat.leb p j && Nat.ltb j (p + 4) then 1 else 0.
  Proof.
    assert (L : length (rectified (exact (click p n))) = n) by (unfold rectified; rewrite map_length, seq_length; apply click_exact_length).
    destruct (Nat.lt_ge_cases j n) as [C|C]; [|unfold smp; rewrite nth_overflow by lia; replace (Nat.ltb j (p + 4)) with false by lia; rewrite andb_false_r; reflexivity].
    unfold smp. rewrite rectified_nth by (rewrite click_exact_length; exact C). cbv zeta. rewrite click_alternating, click_average, click_centred. unfold Rdiv. rewrite Rmult_0_r, Rmult_0_l, Rmult_0_r, Rminus_0_r, Rplus_0_r.
    destruct (Nat.leb_spec p j) as [D|D]; cbn [andb]; [|rewrite click_out by lia; rewrite Rmult_0_r; apply Rabs_R0].
    destruct (Nat.ltb_spec j (p + 4)) as [G|G]; [|rewrite click_out by lia; rewrite Rmult_0_r; apply Rabs_R0].
    assert (A : (j = p + 0 \/ j = p + 1 \/ j = p + 2 \/ j = p + 3)%nat) by lia. destruct A as [-> |[-> |[-> | ->]]]; clicks; unfold Rabs; destruct (Rcase_abs _); lra.
  Qed.
  Lemma click_rectified_length : length (rectified (exact (click p n))) = n.
  Proof. unfold rectified. rewrite map_length, seq_length. apply click_exact_length. Qed.
  Lemma click_fin : Forall fin (click p n). Proof. apply click_all; reflexivity. Qed.
End Click.
Lemma click_correlation p q n k g : (p + 4 <= n)%nat -> (q + 4 <= k)%nat ->
  let c := cross_correlation (rectified (exact (click p n))) (rectified (exact (click q k))) g in
  ((g = Z.of_nat p - Z.of_nat q)%Z -> c = 4) /\ ((g <> Z.of_nat p - Z.of_nat q)%Z -> c <= 3).
Proof.
  intros Hp Hq c. assert (E : c = smpZ (rectified (exact (click p n))) (Z.of_nat q + g) + smpZ (rectified (exact (click p n))) (Z.of_nat (q + 1) + g) + smpZ (rectified (exact (click p n))) (Z.of_nat (q + 2) + g) + smpZ (rectified (exact (click p n))) (Z.of_nat (q + 3) + g)).
  { unfold c, cross_correlation. rewrite click_rectified_length by exact Hq.
    rewrite (sum_block q k) by (try exact Hq; intros j Hj; rewrite (click_rectified q k Hq); replace (Nat.leb q j && Nat.ltb j (q + 4))%bool with false by lia; ring).
    rewrite !(click_rectified q k Hq).
    replace (Nat.leb q q && Nat.ltb q (q + 4))%bool with true by lia. replace (Nat.leb q (q + 1) && Nat.ltb (q + 1) (q + 4))%bool with true by lia. replace (Nat.leb q (q + 2) && Nat.ltb (q + 2) (q + 4))%bool with true by lia. replace (Nat.leb q (q + 3) && Nat.ltb (q + 3) (q + 4))%bool with true by lia. ring. }
  assert (V : forall z, smpZ (rectified (exact (click p n))) z = if (Z.of_nat p <=? z)%Z && (z <? Z.of_nat p + 4)%Z then 1 else 0).
  { intros z. unfold smpZ. destruct (Z.ltb_spec z 0); [replace (Z.of_nat p <=? z)%Z with false by lia; reflexivity|]. rewrite (click_rectified p n Hp). replace (Nat.leb p (Z.to_nat z) && Nat.ltb (Z.to_nat z) (p + 4))%bool with ((Z.of_nat p <=? z)%Z && (z <? Z.of_nat p + 4)%Z)%bool by lia. reflexivity. }
  rewrite E, !V. clear E V c. split; intros G.
  - repeat match goal with |- context [if ?b then _ else _] => replace b with true by lia end. ring.
  - destruct (Z.lt_ge_cases g (Z.of_nat p - Z.of_nat q)) as [A|A].
    + replace ((Z.of_nat p <=? Z.of_nat q + g)%Z && (Z.of_nat q + g <? Z.of_nat p + 4)%Z)%bool with false by lia.
      repeat match goal with |- context [if ?b then _ else _] => destruct b end; lra.
    + replace ((Z.of_nat p <=? Z.of_nat (q + 3) + g)%Z && (Z.of_nat (q + 3) + g <? Z.of_nat p + 4)%Z)%bool with false by lia.
      repeat match goal with |- context [if ?b then _ else _] => destruct b end; lra.
Qed.
Lemma p2_22 : p2 (-22) <= 1 / 1000000. Proof. cbn; lra. Qed.
Lemma one_range : p2 (-16) <= 1 <= p2 16. Proof. cbn; lra. Qed.
Lemma click_range p n : (p + 4 <= n)%nat -> (Z.of_nat n <= 2 ^ 26)%Z ->
  Forall fin (click p n) /\ (2 <= length (click p n))%nat /\ (Z.of_nat (length (click p n)) <= 2 ^ 26)%Z /\ p2 (-16) <= size (exact (click p n)) <= p2 16.
Proof. intros H1 H2. rewrite click_length, click_size by exact H1. refine (conj (click_fin p n) (conj _ (conj H2 one_range))). lia. Qed.
Lemma click_peak p q n k g : (p + 4 <= n)%nat -> (q + 4 <= k)%nat -> (g <> Z.of_nat p - Z.of_nat q)%Z ->
  cross_correlation (rectified (exact (click p n))) (rectified (exact (click q k))) g + 1700 * p2 (-22) * (size (exact (click p n)) * size (exact (click q k)))
    < cross_correlation (rectified (exact (click p n))) (rectified (exact (click q k))) (Z.of_nat p - Z.of_nat q).
Proof.
  intros Hp Hq G. destruct (click_correlation p q n k (Z.of_nat p - Z.of_nat q) Hp Hq) as [E _]. destruct (click_correlation p q n k g Hp Hq) as [_ B].
  cbv zeta in E, B. rewrite (E eq_refl). specialize (B G). rewrite !click_size by assumption. pose proof p2_22. lra.
Qed.
Definition click_at_100 : audio F := MkAudio (click 100 (Z.to_nat 2700)) 4000.
Definition click_at_300 : audio F := MkAudio (click 300 (Z.to_nat 2700)) 4000.
Lemma clicks_aligned : globally_align single_fft click_at_100 click_at_300 = Ret (moved_by (-200) click_at_100 click_at_300).
Proof.
  assert (H1 : (100 + 4 <= Z.to_nat 2700)%nat) by lia. assert (H3 : (300 + 4 <= Z.to_nat 2700)%nat) by lia.
  assert (L1 : length (au_data click_at_100) = Z.to_nat 2700) by (apply click_length; lia). assert (L3 : length (au_data click_at_300) = Z.to_nat 2700) by (apply click_length; lia).
  apply (alignment_shift (p2 (-22)) single_fft single_transforms).
  - split; apply bpow_le; lia.
  - apply click_range; lia.
  - apply click_range; lia.
  - rewrite L1, L3. lia.
  - rewrite L1, L3. lia.
  - intros g' _ G. cbn [au_data click_at_100 click_at_300]. apply (click_peak 100 300 _ _ g' H1 H3 G).
Qed.

(** *** a recording and itself *)
Lemma self_moved (s : audio F) : moved_by 0 s s = (s, n0). Proof. reflexivity. Qed.
Lemma pcm_fin l : Forall pcm l -> Forall fin l.
Proof. apply Forall_impl. intros x H. apply (pcm_real x H). Qed.
Lemma self_aligned e (pf : pffft F) (s : audio F) : accurate_transforms e pf -> p2 (-23) <= e <= p2 (-10) -> Forall fin (au_data s) -> (9 <= length (au_data s))%nat -> (Z.of_nat (length (au_data s)) <= 2 ^ 26)%Z ->
  p2 (-16) <= size (exact (au_data s)) <= p2 16 ->
  (forall g, (- Z.of_nat (length (au_data s)) < g < Z.of_nat (length (au_data s)))%Z -> g <> 0%Z ->
     cross_correlation (rectified (exact (au_data s))) (rectified (exact (au_data s))) g + 1700 * e * size (exact (au_data s)) ^ 2
       < cross_correlation (rectified (exact (au_data s))) (rectified (exact (au_data s))) 0) ->
  globally_align pf s s = Ret (s, n0).
Proof.
  intros A E Fs Ln Lm Sz H. rewrite <- self_moved. assert (R : Forall fin (au_data s) /\ (2 <= length (au_data s))%nat /\ (Z.of_nat (length (au_data s)) <= 2 ^ 26)%Z /\ p2 (-16) <= size (exact (au_data s)) <= p2 16) by (refine (conj Fs (conj _ (conj Lm Sz))); lia).
  apply (alignment_shift e pf A E s s 0 R R); rewrite ?Nat.max_id; [exact Ln|lia|]. intros g Hg G. replace (size (exact (au_data s)) * size (exact (au_data s))) with (size (exact (au_data s)) ^ 2) by ring. apply H; [lia|exact G].
Qed.
Lemma frames_long sr n : (4000 <= sr)%Z -> (29 <= frames_in sr n)%Z -> (9 <= n)%nat.
Proof.
  intros Hs H. unfold frames_in in H. assert (B : (0 < hop_samples sr)%Z) by (unfold hop_samples, window_samples; Z.div_mod_to_equations; lia). assert (W : (0 < window_samples sr)%Z) by (unfold window_samples; Z.div_mod_to_equations; lia).
  destruct (Nat.lt_ge_cases n 9) as [C|C]; [|exact C]. exfalso.
  assert ((Z.of_nat n - window_samples sr) / hop_samples sr < 28)%Z by (apply Z.div_lt_upper_bound; lia). lia.
Qed.
Lemma size_audible (s : audio F) : Forall fin (au_data s) -> p2 (-16) <= size (exact (au_data s)) -> audible s.
Proof.
  intros FF SZ. unfold audible. destruct (Exists_dec (fun x => PrimFloat.eqb x 0 = false) (au_data s)) as [X|X]; [intros x; destruct (PrimFloat.eqb x 0); [right; discriminate|left; reflexivity]|exact X|]. exfalso.
    assert (Z0 : size (exact (au_data s)) = 0).
    { unfold size. rewrite DftP.sum_zero; [apply R_sqrt.sqrt_0|]. intros i Hi. unfold exact in *. rewrite map_length in Hi. unfold smp. change 0 with (FR 0%float). rewrite map_nth.
      assert (Hx : In (nth i (au_data s) 0%float) (au_data s)) by (apply nth_In; exact Hi). set (x := nth i (au_data s) 0%float) in *.
      assert (Ex : PrimFloat.eqb x 0 = true) by (destruct (PrimFloat.eqb x 0) eqn:Ex; [reflexivity|exfalso; apply X, Exists_exists; exists x; split; assumption]).
      assert (Fx : fin x) by (rewrite Forall_forall in FF; apply FF, Hx). rewrite eqb_equiv, Beqb_correct in Ex by (try exact Fx; reflexivity).
      apply Req_bool_true in Ex || (revert Ex; case Raux.Req_bool_spec; [intros Ex _|discriminate]). unfold FR at 1 2. rewrite Ex. cbn. ring. }
    rewrite Z0 in SZ. pose proof (bpow_gt_0 radix2 (-16)). lra.
Qed.
Lemma self_compared {L : Libm F} e (w : world F) (m : manager F) (s : audio F) msg : accurate L -> mpow10 0%float = 1%float -> keeps_length (w_fft w) -> accurate_transforms e (w_fft w) -> p2 (-23) <= e <= p2 (-10) -> mg_init m = true -> reachable m ->
  let sr := au_sr s in let st := mg_settings m in let frames := frames_in sr (length (au_data s)) in let p := (if st_speech st then 20 else 30)%Z in
  (4000 <= sr <= 262144)%Z -> (Z.of_nat (length (au_data s)) <= 2 ^ 26)%Z ->
  ((if st_speech st then 29 else 45) <= frames)%Z -> (st_speech st = true -> window_samples sr mod 4 = 0)%Z ->
  (frames <= st_radius st * p)%Z -> (frames + st_radius st * p <= 2 ^ 31)%Z ->
  Forall pcm (au_data s) -> p2 (-16) <= size (exact (au_data s)) <= p2 16 ->
  (forall g, (- Z.of_nat (length (au_data s)) < g < Z.of_nat (length (au_data s)))%Z -> g <> 0%Z ->
     cross_correlation (rectified (exact (au_data s))) (rectified (exact (au_data s))) g + 1700 * e * size (exact (au_data s)) ^ 2
       < cross_correlation (rectified (exact (au_data s))) (rectified (exact (au_data s))) 0) ->
  snd (run w m s s) = Ret msg -> PrimFloat.leb 0.999 (ms_vnsim msg) = true.
Proof.
  intros A P1 K AT E I HR sr st frames p Hsr Hl EF HW COV RB PR SZ PK EM.
  assert (N9 : (9 <= length (au_data s))%nat) by (apply (frames_long sr); [lia|fold frames; destruct (st_speech st); lia]).
  pose proof (size_audible s (pcm_fin _ PR) (proj1 SZ)) as EX.
  pose proof (self_aligned e (w_fft w) s AT E (pcm_fin _ PR) N9 Hl SZ PK) as GA.
  exact (self_run w m s msg A P1 K I HR Hsr ltac:(lia) EF HW COV RB PR EX (or_intror (ex_intro _ n0 GA)) EM).
Qed.
Definition click_world : world F := MkWorld single_fft (fun _ => None) (fun _ => inl Unknown) (fun _ => None) String.EmptyString.
Lemma single_keeps : keeps_length single_fft.
Proof. split; intros l; cbn [pf_fwd pf_bwd single_fft]; rewrite map_length; [apply packed_length|apply inverse_length]. Qed.
Lemma click_pcm p n : Forall pcm (click p n).
Proof. apply click_all; (split; [reflexivity|]); [left; reflexivity|right; reflexivity|right; reflexivity]. Qed.
Lemma click_self : mg_no_global (plain_manager false) = false /\ exists msg, snd (run (L:=rounded_libm) click_world (plain_manager false) click_at_100 click_at_100) = Ret msg /\ PrimFloat.leb 0.999 (ms_vnsim msg) = true.
Proof.
  split; [reflexivity|]. destruct (plain_reached false) as (R1 & R2 & R3).
  assert (H1 : (100 + 4 <= Z.to_nat 2700)%nat) by lia. assert (L1 : length (au_data click_at_100) = Z.to_nat 2700) by (apply click_length; lia).
  assert (LN : Z.of_nat (length (au_data click_at_100)) = 2700%Z) by (rewrite L1; lia).
  assert (FN : frames_in 4000 (length (au_data click_at_100)) = 30%Z) by (unfold frames_in; rewrite LN; reflexivity).
  assert (R5 : st_radius (mg_settings (plain_manager false)) = 4%Z) by reflexivity. assert (R6 : st_speech (mg_settings (plain_manager false)) = true) by reflexivity.
  assert (GA : globally_align (w_fft click_world) click_at_100 click_at_100 = Ret (click_at_100, n0)).
  { apply (self_aligned (p2 (-22))).
    - exact single_transforms.
    - split; apply bpow_le; lia.
    - apply click_fin.
    - lia.
    - lia.
    - apply click_range; lia.
    - intros g _ G. cbn [au_data click_at_100]. replace (size _ ^ 2) with (size (exact (click 100 (Z.to_nat 2700))) * size (exact (click 100 (Z.to_nat 2700)))) by ring.
      pose proof (click_peak 100 100 (Z.to_nat 2700) (Z.to_nat 2700) g H1 H1) as PK. rewrite Z.sub_diag in PK. apply PK, G. }
  refine (self_returns (L:=rounded_libm) click_world (plain_manager false) click_at_100 rounded_accurate rounded_pow single_keeps R2 R1 _ _ _ _ _ _ _ (click_pcm _ _) _ (or_intror (ex_intro _ n0 GA)) R3);
    change (au_sr click_at_100) with 4000%Z; rewrite ?LN, ?FN, ?R5, ?R6.
  - lia.
  - lia.
  - lia.
  - intros _. reflexivity.
  - lia.
  - lia.
  - exact Logic.I.
  - apply Exists_exists. exists 0.5%float. split; [|reflexivity]. cbn [au_data click_at_100]. unfold click. apply in_or_app. right. left. reflexivity.
Qed.
