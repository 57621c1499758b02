(** Lowest decile and pooled standard deviation over exact reals (C14-C16). *)
From Coq Require Import ZArith List Bool Reals Lra Lia ZifyBool ZifyNat Sorted Permutation.
From Verif Require Import Base.Res Base.Num Base.NumR Base.Lists Base.Mat Model.Amatrix Model.MiscMath Model.Alignment
  Model.Nsim Model.Fft Model.Selector Model.Visqol Spec.StatSpec Spec.AggSpec
  Proofs.RealP Proofs.ConvP Proofs.StatP Proofs.ShapeP Proofs.AggregateP.
Import ListNotations.
Open Scope R_scope.

(** *** sorting *)
Lemma insert_perm x l : Permutation (x :: l) (insert x l).
Proof.
  induction l as [|y t IH]; cbn [insert]; [reflexivity|]. destruct (nltb y x); [|reflexivity].
  eapply perm_trans; [apply perm_swap|]. now constructor.
Qed.
Lemma insert_sorted x l : StronglySorted Rle l -> StronglySorted Rle (insert x l).
Proof.
  induction 1 as [|y t Hs IH Hf]; cbn [insert]; [repeat constructor|].
  change (nltb y x) with (Rltb y x). destruct (Rltb_spec y x) as [C|C].
  - constructor; [exact IH|]. rewrite Forall_forall in *. intros z Hz.
    eapply (Permutation_in _ (Permutation_sym (insert_perm x t))) in Hz. destruct Hz as [<-|Hz]; [lra|auto].
  - constructor; [constructor; assumption|]. constructor; [lra|]. eapply Forall_impl; [|exact Hf]. cbn. intros z Hz. lra.
Qed.
Lemma isort_ascending (l : list R) : ascending l (isort l).
Proof.
  unfold isort. induction l as [|x t [IH1 IH2]]; cbn [fold_right]; [split; constructor|]. split.
  - eapply perm_trans; [|apply insert_perm]. now constructor.
  - now apply insert_sorted.
Qed.
Lemma ascending_unique : forall s s', StronglySorted Rle s -> StronglySorted Rle s' -> Permutation s s' -> s = s'.
Proof.
  induction s as [|x t IH]; intros s' H H' P; [symmetry; now apply Permutation_nil|].
  destruct s' as [|y t']; [apply Permutation_sym, Permutation_nil in P; discriminate|].
  inversion H as [|? ? H1 H2]; subst. inversion H' as [|? ? H1' H2']; subst. rewrite Forall_forall in H2, H2'.
  assert (x = y) as <-.
  { assert (A : In x (y :: t')) by (eapply Permutation_in; [exact P|now left]).
    assert (B : In y (x :: t)) by (eapply Permutation_in; [apply Permutation_sym; exact P|now left]).
    destruct A as [->|A]; [reflexivity|]. destruct B as [->|B]; [reflexivity|].
    specialize (H2 y B). specialize (H2' x A). lra. }
  f_equal. apply IH; auto. now apply Permutation_cons_inv in P.
Qed.
Lemma no_nan (l : list R) : has_nan l = false.
Proof.
  unfold has_nan. induction l as [|x t IH]; [reflexivity|]. cbn [existsb]. rewrite IH.
  change (neqb x x) with (Reqb x x). replace (Reqb x x) with true; [reflexivity|]. symmetry. now apply Reqb_true.
Qed.
Lemma rsum_perm l l' : Permutation l l' -> rsum l = rsum l'.
Proof. induction 1; cbn [rsum fold_right] in *; try lra. all: unfold rsum in *; cbn; lra. Qed.

Lemma tenth n : to_int (nmul (nofnat n) (ndec 10 2)) = (if fits_int (Z.of_nat n / 10) then Ret (Z.of_nat n / 10)%Z else Ub).
Proof.
  unfold to_int. cbn [ntrunc NumR].
  replace (nmul (nofnat n) (ndec 10 2)) with (IZR (Z.of_nat n) / IZR 10).
  - rewrite Rtrunc_div by lia. reflexivity.
  - unfold ndec, nofnat. cbn. lra.
Qed.

Lemma sorted_parts s : StronglySorted Rle s -> forall k, (k < length s)%nat ->
  (forall x, In x (firstn k s) -> x <= nth k s 0) /\ (forall x, In x (skipn k s) -> nth k s 0 <= x).
Proof.
  induction 1 as [|y t Hs IH Hf]; intros k Hk; [cbn in Hk; lia|]. rewrite Forall_forall in Hf.
  destruct k as [|k].
  - cbn. split; [tauto|]. intros x [->|Hx]; [lra|]. now apply Hf.
  - cbn in Hk. destruct (IH k ltac:(lia)) as [I1 I2]. cbn [firstn skipn nth]. split; [|exact I2].
    intros x [<-|Hx]; [|now apply I1]. apply Hf. apply nth_In. lia.
Qed.
Lemma rsum_upper l a : (forall x, In x l -> x <= a) -> rsum l <= INR (length l) * a.
Proof.
  induction l as [|x t IH]; intros H; [cbn; lra|]. cbn [rsum fold_right length]. rewrite S_INR.
  specialize (IH (fun y Hy => H y (or_intror Hy))). specialize (H x (or_introl eq_refl)). unfold rsum in *. cbn. lra.
Qed.
Lemma rsum_lower l a : (forall x, In x l -> a <= x) -> INR (length l) * a <= rsum l.
Proof.
  induction l as [|x t IH]; intros H; [cbn; lra|]. cbn [rsum fold_right length]. rewrite S_INR.
  specialize (IH (fun y Hy => H y (or_intror Hy))). specialize (H x (or_introl eq_refl)). unfold rsum in *. cbn. lra.
Qed.
Lemma mean_rsum l : mean l = rsum l / INR (length l).
Proof. unfold mean. now rewrite total_rsum. Qed.
Lemma mean_perm l l' : Permutation l l' -> mean l = mean l'.
Proof. intros P. rewrite !mean_rsum, (rsum_perm _ _ P), (Permutation_length P). reflexivity. Qed.
Lemma low_mean s k : StronglySorted Rle s -> (1 <= k <= length s)%nat -> mean (firstn k s) <= mean s.
Proof.
  intros Hs [H1 H2]. destruct (Nat.eq_dec k (length s)) as [->|N]; [rewrite firstn_all; lra|].
  destruct (sorted_parts s Hs k ltac:(lia)) as [A B].
  rewrite !mean_rsum. rewrite firstn_length, Nat.min_l by lia.
  pose proof (rsum_upper _ _ A) as A'. pose proof (rsum_lower _ _ B) as B'.
  rewrite firstn_length, Nat.min_l in A' by lia. rewrite skipn_length in B'.
  rewrite <- (firstn_skipn k s) at 2. rewrite rsum_app.
  rewrite minus_INR in B' by lia.
  assert (0 < INR k) by (apply lt_0_INR; lia). assert (INR k < INR (length s)) by (apply lt_INR; lia).
  set (S1 := rsum (firstn k s)) in *. set (S2 := rsum (skipn k s)) in *. set (a := nth k s 0) in *.
  set (K := INR k) in *. set (n := INR (length s)) in *.
  apply (Rmult_le_reg_r (K * n)); [nra|].
  replace (S1 / K * (K * n)) with (S1 * n) by (field; lra).
  replace ((S1 + S2) / n * (K * n)) with ((S1 + S2) * K) by (field; lra). nra.
Qed.

Lemma decile_of l (v : list R) : (0 < length v)%nat -> (Z.of_nat (length v) < 2 ^ 31)%Z ->
  (do s <- std_sort v;
   do k <- to_int (nmul (nofnat (length s)) (ndec 10 2));
   let n := Z.max 1 k in
   if (Z.of_nat (length s) <? n)%Z then Ub
   else Ret (ndiv (nsum (firstn (Z.to_nat n) s)) (nofZ n))) = Ret l ->
  forall s, ascending v s -> l = mean (firstn (decile_size (length v)) s).
Proof.
  intros H0 H1 H s [P S]. unfold std_sort in H. rewrite no_nan in H. cbn [bind] in H.
  destruct (isort_ascending v) as [P' S'].
  assert (isort v = s) as E by (apply ascending_unique; auto; eapply perm_trans; [apply Permutation_sym; exact P'|exact P]).
  rewrite E in H. assert (LS : length s = length v) by now rewrite <- (Permutation_length P).
  rewrite tenth in H. unfold fits_int in H. rewrite LS in H.
  assert (D : (Z.of_nat (length v) / 10 = Z.of_nat (length v / 10))%Z) by (rewrite Nat2Z.inj_div; reflexivity).
  pose proof (Nat.div_le_upper_bound (length v) 10 (length v) ltac:(lia) ltac:(lia)).
  destruct (_ && _) eqn:E1 in H; [|exfalso; rewrite D in E1; lia]. cbn [bind] in H.
  destruct (_ <? _)%Z eqn:E2 in H; [discriminate|]. injection H as <-.
  rewrite D. replace (Z.max 1 (Z.of_nat (length v / 10))) with (Z.of_nat (decile_size (length v))) by (unfold decile_size; lia).
  rewrite Nat2Z.id. rewrite mean_rsum, nsum_rsum. cbn [ndiv nofZ NumR]. rewrite <- INR_IZR_INZ.
  rewrite firstn_length, LS, Nat.min_l; [reflexivity|]. rewrite D in E2. unfold decile_size. lia.
Qed.

Lemma average_mean (l : list R) : average l = mean l.
Proof. unfold average. change (fold_left nadd l n0) with (nsum l). rewrite nsum_rsum, mean_rsum.
  cbn [ndiv nofZ NumR]. now rewrite <- INR_IZR_INZ. Qed.

(** the lowest decile of the patches in one band *)
Lemma quantile_spec nb (ps : list (psr R)) l b s : ps <> [] -> Forall (shaped nb) ps -> (Z.of_nat (length ps) < 2 ^ 31)%Z ->
  calc_quantile ps (ndec 10 2) = Ret l -> (b < nb)%nat ->
  let v := map (fun p => band_of b (ps_means p)) ps in
  ascending v s ->
  nth b l 0 = mean (firstn (decile_size (length ps)) s) /\ nth b l 0 <= mean v /\
  ((length ps < 20)%nat -> In (nth b l 0) v /\ forall x, In x v -> nth b l 0 <= x).
Proof.
  intros Hne Hsh Hlen H Hb v Hs. apply (calc_quantile_len nb) in H; [|assumption|assumption]. destruct H as [_ H].
  specialize (H b Hb). unfold quantile_band in H. rewrite (band_values nb) in H by auto using shaped_means.
  cbn [bind] in H. rewrite map_map in H. fold v in H.
  assert (Lv : length v = length ps) by (unfold v; now rewrite map_length).
  assert (L0 : (0 < length ps)%nat) by (destruct ps; [congruence|cbn; lia]).
  assert (Ls : length s = length ps) by (rewrite <- Lv; symmetry; apply Permutation_length, Hs).
  pose proof (decile_of _ v ltac:(lia) ltac:(lia) H s Hs) as E. rewrite Lv in E. change (nth b l n0) with (nth b l 0) in E.
  rewrite E. split; [reflexivity|]. destruct Hs as [P S]. split.
  - rewrite (mean_perm _ _ P). apply low_mean; [exact S|]. unfold decile_size.
    pose proof (Nat.div_le_upper_bound (length ps) 10 (length ps) ltac:(lia) ltac:(lia)). lia.
  - intros H20. replace (decile_size (length ps)) with 1%nat.
    2:{ unfold decile_size. assert (length ps / 10 <= 1)%nat; [|lia].
        apply Nat.lt_succ_r. apply Nat.div_lt_upper_bound; lia. }
    destruct s as [|x t]; [cbn in Ls; lia|]. cbn [firstn]. rewrite mean_rsum. cbn [rsum fold_right length INR].
    replace ((x + 0) / 1) with x by field. inversion S as [|? ? _ F]; subst. rewrite Forall_forall in F. split.
    + eapply Permutation_in; [apply Permutation_sym; exact P|now left].
    + intros y Hy. eapply Permutation_in in Hy; [|exact P]. destruct Hy as [<-|Hy]; [lra|auto].
Qed.

(** the order of the patches does not matter *)
Lemma quantile_perm nb (ps ps' : list (psr R)) : ps <> [] -> Forall (shaped nb) ps -> Permutation ps ps' ->
  calc_quantile ps (ndec 10 2) = calc_quantile ps' (ndec 10 2).
Proof.
  intros Hne Hsh P. assert (Hsh' : Forall (shaped nb) ps') by (eapply Permutation_Forall; eassumption).
  assert (Hne' : ps' <> []) by (intros ->; apply Permutation_sym, Permutation_nil in P; congruence).
  unfold calc_quantile. destruct ps as [|p0 t] eqn:E1; [congruence|]. rewrite <- E1 in *. destruct ps' as [|p1 t'] eqn:E2; [congruence|].
  rewrite <- E2 in *.
  assert (R : nrows (ps_means p0) = nb) by (subst ps; inversion Hsh as [|? ? ((_ & R & _) & _)]; exact R).
  assert (R' : nrows (ps_means p1) = nb) by (subst ps'; inversion Hsh' as [|? ? ((_ & R' & _) & _)]; exact R').
  rewrite R, R'. f_equal. apply map_ext_in. intros b Hb. apply in_seq in Hb. unfold quantile_band.
  rewrite !(band_values nb) by (auto using shaped_means; lia). cbn [bind].
  unfold std_sort. rewrite !no_nan. cbn [bind].
  replace (isort (map (band_of b) (map ps_means ps'))) with (isort (map (band_of b) (map ps_means ps))); [reflexivity|].
  apply ascending_unique; try apply isort_ascending.
  eapply perm_trans; [apply Permutation_sym; apply isort_ascending|].
  eapply perm_trans; [|apply isort_ascending]. apply Permutation_map, Permutation_map, P.
Qed.

(** *** pooled standard deviation *)
Definition sumsq (l : list R) : R := rsum (map (fun x => x * x) l).
Lemma rsum_cons x l : rsum (x :: l) = x + rsum l. Proof. reflexivity. Qed.
Lemma dev_sumsq l m : rsum (map (fun x => (x - m) * (x - m)) l) = sumsq l - 2 * m * rsum l + INR (length l) * m * m.
Proof.
  unfold sumsq. induction l as [|x t IH]; [cbn; lra|]. cbn [map length]. rewrite !rsum_cons, IH, S_INR. lra.
Qed.
Lemma variance_sumsq l : (1 <= length l)%nat -> (INR (length l) - 1) * variance l = sumsq l - INR (length l) * mean l * mean l.
Proof.
  intros H. unfold variance. destruct (Nat.ltb_spec (length l) 2) as [E|E].
  - destruct l as [|x [|y t]]; cbn in H, E; try lia. unfold sumsq. rewrite mean_rsum. cbn. field.
  - change total with rsum. rewrite dev_sumsq. apply (le_INR 2) in E. cbn in E. rewrite mean_rsum. field. lra.
Qed.
Lemma stddev_sq l : stddev l * stddev l = variance l.
Proof. unfold stddev. apply sqrt_sqrt. apply variance_nonneg. Qed.

Lemma frames_shaped p frames len : of_frames p frames len ->
  column (length frames) (ps_means p) /\ column (length frames) (ps_stddevs p).
Proof.
  intros (_ & -> & ->). unfold column, wf. cbn. rewrite !map_length. repeat split; lia.
Qed.

Lemma ceil_exact (n : Z) : Rceil (IZR n) = n.
Proof.
  unfold Rceil. pose proof (Rfloor_spec (- IZR n)) as [A B]. rewrite <- opp_IZR in A, B.
  assert (Rfloor (- IZR n) = - n)%Z; [|lia]. rewrite <- opp_IZR.
  apply le_IZR in A. rewrite <- plus_IZR in B. apply lt_IZR in B. lia.
Qed.
Lemma frame_count_exact (p : psr R) fd len : 0 < fd -> ps_ref_end p - ps_ref_start p = IZR len * fd ->
  (0 <= len < 2 ^ 31)%Z -> frame_count fd p = Ret len.
Proof.
  intros Hf E Hl. unfold frame_count. cbn [nceil NumR]. cbn [ndiv nsub NumR]. rewrite E.
  replace (IZR len * fd / fd) with (IZR len) by (field; lra). rewrite ceil_exact.
  unfold fits_int. replace (_ && _) with true by lia. reflexivity.
Qed.

Lemma contribute_frames p frames len acc : of_frames p frames len -> (1 <= len)%nat -> length acc = length frames ->
  contribute (Z.of_nat len) p acc =
  Ret (map (fun b => nth b acc 0 + sumsq (nth b frames [])) (seq 0 (length acc))).
Proof.
  intros OF Hlen Ha. pose proof (frames_shaped _ _ _ OF) as [C1 C2]. destruct OF as (HL & EM & ES).
  pose proof (column_elems _ _ C1) as L1. pose proof (column_elems _ _ C2) as L2. destruct C1 as (_ & R1 & _).
  unfold contribute. rewrite R1, L1, L2, Ha, !Nat.ltb_irrefl. cbn [orb]. f_equal. apply map_ext_in.
  intros b Hb. apply in_seq in Hb. replace (Nat.ltb b (length frames)) with true by lia. cbv zeta.
  rewrite EM, ES. cbn [elems]. change (@n0 R NumR) with 0.
  replace (nth b (map stddev frames) 0) with (stddev (nth b frames [])).
  2:{ rewrite (nth_indep _ 0 (stddev [])) by (rewrite map_length; lia). now rewrite map_nth. }
  replace (nth b (map mean frames) 0) with (mean (nth b frames [])).
  2:{ rewrite (nth_indep _ 0 (mean [])) by (rewrite map_length; lia). now rewrite map_nth. }
  set (f := nth b frames []). assert (LF : length f = len) by (apply HL, nth_In; lia).
  cbn [nadd nmul nofZ NumR]. rewrite minus_IZR. rewrite <- INR_IZR_INZ. rewrite <- LF.
  pose proof (variance_sumsq f ltac:(lia)) as V. pose proof (stddev_sq f) as Q.
  change (IZR 1) with 1. rewrite !Rmult_assoc. rewrite Q. rewrite Rmult_assoc in V. lra.
Qed.

Definition pooled_ok (fd : R) (x : psr R * (list (list R) * nat)) (nb : nat) : Prop :=
  let '(p, (frames, len)) := x in
  of_frames p frames len /\ length frames = nb /\ (1 <= len)%nat /\ ps_ref_end p - ps_ref_start p = INR len * fd.

Fixpoint count_all (xs : list (psr R * (list (list R) * nat))) : Z :=
  match xs with [] => 0%Z | x :: t => (Z.of_nat (snd (snd x)) + count_all t)%Z end.
Lemma count_all_nonneg xs : (0 <= count_all xs)%Z.
Proof. induction xs; cbn [count_all]; lia. Qed.

Lemma contribute_all_frames fd nb : 0 < fd -> forall xs tot acc, Forall (fun x => pooled_ok fd x nb) xs ->
  length acc = nb -> (0 <= tot)%Z -> (tot + count_all xs < 2 ^ 31)%Z ->
  contribute_all fd (map fst xs) tot acc =
  Ret ((tot + count_all xs)%Z,
       map (fun b => nth b acc 0 + sumsq (concat (map (fun x => nth b (fst (snd x)) []) xs))) (seq 0 nb)).
Proof.
  intros Hf. induction xs as [|[p [frames len]] t IH]; intros tot acc H Ha Ht Hb; cbn [map contribute_all fst].
  - cbn [count_all concat]. rewrite Z.add_0_r. f_equal. f_equal. apply (list_ext _ _ 0).
    + rewrite map_length, seq_length. exact Ha.
    + intros i Hi. rewrite nth_map_seq by lia. unfold sumsq. cbn. lra.
  - inversion H as [|? ? PO Ht' [EE1 EE2]]. destruct PO as (OF & E1 & E2 & E3). subst nb. rename E1 into E1'. assert (E1 : length acc = length frames) by congruence. cbn [count_all snd] in Hb. pose proof (count_all_nonneg t).
    rewrite (frame_count_exact p fd (Z.of_nat len)) by (auto; try lia; rewrite <- INR_IZR_INZ; exact E3). cbn [bind].
    unfold fits_int. replace ((_ && _) && _) with true by lia.
    rewrite (contribute_frames p frames len acc OF E2 E1). cbn [bind].
    assert (EL : length (map (fun b => nth b acc 0 + sumsq (nth b frames [])) (seq 0 (length acc))) = length frames)
      by (rewrite map_length, seq_length; congruence).
    rewrite IH by (auto; lia). cbn [count_all snd]. f_equal. f_equal; [lia|].
    apply map_ext_in. intros b Hb'. apply in_seq in Hb'. rewrite nth_map_seq by lia. cbn [map concat fst snd].
    unfold sumsq. rewrite map_app, rsum_app. lra.
Qed.

Lemma length_concat_frames xs nb fd b : Forall (fun x => pooled_ok fd x nb) xs -> (b < nb)%nat ->
  Z.of_nat (length (concat (map (fun x => nth b (fst (snd x)) []) xs))) = count_all xs.
Proof.
  induction 1 as [|[p [frames len]] t (OF & E1 & E2 & E3) _ IH]; intros Hb; [reflexivity|].
  cbn [map concat count_all fst snd]. rewrite app_length. destruct OF as (HL & _ & _).
  rewrite (HL (nth b frames [])) by (apply nth_In; lia). specialize (IH Hb). lia.
Qed.

(** the computed value: the mean used is the plain average of the patch means *)
Lemma stddevs_pooled fd nb xs : 0 < fd -> xs <> [] -> Forall (fun x => pooled_ok fd x nb) xs ->
  (2 <= count_all xs < 2 ^ 31)%Z ->
  exists l, calc_stddevs (map fst xs) fd = Ret l /\ length l = nb /\
    forall b, (b < nb)%nat ->
      let all := concat (map (fun x => nth b (fst (snd x)) []) xs) in
      let avg := mean (map (fun x => mean (nth b (fst (snd x)) [])) xs) in
      nth b l 0 = sqrt (Rmax 0 (variance all + INR (length all) / (INR (length all) - 1) * (mean all * mean all - avg * avg))).
Proof.
  intros Hf Hne H Hc.
  assert (ST : Forall (column nb) (map ps_means (map fst xs))).
  { rewrite map_map. apply Forall_map. eapply Forall_impl; [|exact H]. intros [p [frames len]] (OF & E1 & _).
    cbn [fst]. rewrite <- E1. apply (frames_shaped _ _ _ OF). }
  assert (EM : calc_means (map fst xs) = Ret (map (fun b => average (map (band_of b) (map ps_means (map fst xs)))) (seq 0 nb))).
  { unfold calc_means. apply mean_of_patches_ret; [|exact ST]. destruct xs; [congruence|discriminate]. }
  unfold calc_stddevs. destruct (map fst xs) as [|p0 t] eqn:E0; [destruct xs; [congruence|discriminate]|]. rewrite <- E0 in *.
  assert (RN : nrows (ps_means p0) = nb).
  { rewrite E0 in ST. inversion ST as [|? ? (_ & RN & _)]; exact RN. }
  rewrite RN, EM. cbn [bind]. rewrite (contribute_all_frames fd nb Hf xs 0 (repeat n0 nb) H) by (try lia; apply repeat_length).
  cbn [bind]. rewrite Z.add_0_l. unfold fits_int. replace (_ && _) with true by lia.
  rewrite map_length, seq_length. eexists. split; [reflexivity|]. split; [now rewrite map_length, seq_length|].
  intros b Hb. rewrite nth_map_seq by exact Hb. change (@n0 R NumR) with 0. rewrite !nth_map_seq by exact Hb. cbv zeta.
  set (all := concat (map (fun x => nth b (fst (snd x)) []) xs)).
  assert (EA : average (map (band_of b) (map ps_means (map fst xs))) = mean (map (fun x => mean (nth b (fst (snd x)) [])) xs)).
  { rewrite average_mean. f_equal. rewrite !map_map. apply map_ext_in. intros [p [frames len]] Hin. cbn [fst snd].
    rewrite Forall_forall in H. destruct (H _ Hin) as ((_ & EMp & _) & E1 & _). unfold band_of. rewrite EMp. cbn [elems].
    rewrite (nth_indep _ _ (mean [])) by (rewrite map_length; lia). now rewrite map_nth. }
  rewrite EA. set (avg := mean (map (fun x => mean (nth b (fst (snd x)) [])) xs)).
  pose proof (length_concat_frames xs nb fd b H Hb) as LC. fold all in LC.
  rewrite nth_repeat. unfold pooled. cbn [ndiv nsub nmul nofZ nltb nsqrt NumR]. rewrite minus_IZR.
  rewrite <- LC, <- INR_IZR_INZ. change (IZR 1) with 1. change (@n0 R NumR) with 0.
  assert (H2 : 2 <= INR (length all)) by (rewrite INR_IZR_INZ; apply IZR_le; lia).
  pose proof (variance_sumsq all ltac:(lia)) as V.
  replace ((0 + sumsq all - avg * avg * INR (length all)) / (INR (length all) - 1))
    with (variance all + INR (length all) / (INR (length all) - 1) * (mean all * mean all - avg * avg)).
  2:{ apply (Rmult_eq_reg_l (INR (length all) - 1)); [|lra]. rewrite Rmult_plus_distr_l, V. field. lra. }
  set (d := variance all + _). destruct (Rltb_spec d 0) as [D|D].
  - rewrite Rmax_left by lra. now rewrite sqrt_0.
  - rewrite Rmax_right by lra. reflexivity.
Qed.

Lemma same_length_mean (ls : list (list R)) len : (1 <= len)%nat -> ls <> [] -> (forall l, In l ls -> length l = len) ->
  mean (map mean ls) = mean (concat ls).
Proof.
  intros Hl Hne H. rewrite !mean_rsum, map_length.
  assert (E : rsum (map mean ls) = rsum (concat ls) / INR len /\ length (concat ls) = (length ls * len)%nat).
  { clear Hne. induction ls as [|x t IH]; [split; [cbn; field; apply not_0_INR; lia|reflexivity]|].
    destruct (IH (fun l Hin => H l (or_intror Hin))) as [I1 I2]. cbn [map concat]. rewrite rsum_app, app_length.
    rewrite rsum_cons. rewrite I1, I2, mean_rsum, (H x (or_introl eq_refl)).
    split; [field; apply not_0_INR; lia|cbn; lia]. }
  destruct E as [-> ->]. rewrite mult_INR. field. split; apply not_0_INR; solve [lia | destruct ls; [congruence|discriminate]].
Qed.
