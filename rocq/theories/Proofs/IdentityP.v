(** A recording compared with itself (C82). *)
From Coq Require Import ZArith List Bool Reals Lra Lia Sorting.Sorted.
From Coq Require Import ZifyBool ZifyNat.
From Verif Require Import Base.Res Base.Num Base.NumR Base.Lists Base.Mat Model.Amatrix Model.MiscMath Model.Fft Model.Window
  Model.FilterBank Model.Spectrogram Model.Nsim Model.Alignment Model.PatchCreator Model.Selector Model.MiscAudio Model.Mappers
  Model.Visqol Model.Manager Spec.FftSpec Proofs.DftP Spec.AlignSpec Spec.FineSpec Spec.MatchSpec Spec.AggSpec Spec.ManagerSpec Spec.TotalSpec Spec.StatSpec Spec.AudioSpec
  Proofs.ConvP Proofs.RealP Proofs.FftP Proofs.AlignP Proofs.BankP Proofs.ShapeP Proofs.AggregateP Proofs.AggregateRP
  Proofs.NsimP Proofs.PrepareP Proofs.MiscAudioP
  Proofs.PatchCreatorP Proofs.SelectorP Proofs.MatchP Proofs.MatchAllP Proofs.MatchCasesP Proofs.WindowP Proofs.FineRunP Proofs.TotalP Proofs.SelfLagP Proofs.IdentityDpP.
Import ListNotations.
Open Scope R_scope.

(** *** one comparison with similarity 1 *)
Lemma rsum_top l : (forall x, In x l -> x <= 1) -> rsum l = INR (length l) -> forall x, In x l -> x = 1.
Proof.
  induction l as [|y l IH]; intros H E x Hx; [destruct Hx|]. cbn [rsum length] in E. rewrite S_INR in E.
  assert (rsum l <= INR (length l)).
  { clear - H. induction l as [|z l IH]; [cbn; lra|]. cbn [rsum length]. rewrite S_INR. pose proof (H z (or_intror (or_introl eq_refl))).
    specialize (IH (fun x Hx => H x (match Hx with or_introl a => or_introl a | or_intror b => or_intror (or_intror b) end))). lra. }
  pose proof (H y (or_introl eq_refl)). destruct Hx as [<-|Hx]; [lra|]. apply IH; [intros; apply H; now right|lra|exact Hx].
Qed.

(** all bands are perfect in mean and spread *)
Definition perfect (nb : nat) (p : psr R) : Prop :=
  shaped nb p /\ ps_sim p = 1 /\ forall b, (b < nb)%nat -> band_of b (ps_means p) = 1 /\ band_of b (ps_stddevs p) = 0.

(** similarity 1 means 1 everywhere *)
Lemma measure_entries (A B : mat R) p : (0 < nrows A)%nat -> (0 < ncols A)%nat -> nrows A = nrows B -> ncols A = ncols B ->
  measure_patch_similarity A B = Ret p -> ps_sim p = 1 ->
  exists M, nsim_map A B = Ret M /\ (forall r c, (r < nrows A)%nat -> (c < ncols A)%nat -> at_ M r c = 1).
Proof.
  intros HR HC ER EC EM. destruct (measure_bounded A B HR HC ER EC) as (M & p' & EM1 & EM2 & B1 & B2 & B3).
  rewrite EM in EM2. injection EM2 as <-. intros E1.
  destruct (nsim_map_R A B HR HC ER EC) as (M' & EM' & WM & NM & CM & _). rewrite EM1 in EM'. injection EM' as <-.
  destruct (measure_R A B M EM1 ltac:(lia)) as (p' & EM2 & W1 & N1 & C1 & W2 & N2 & C2 & V1 & V2 & V3). rewrite EM in EM2. injection EM2 as <-.
  assert (IN : 0 < INR (nrows A)) by (apply lt_0_INR; assumption).
  assert (ME : elems (ps_means p) = map (fun r => at_ (ps_means p) r 0) (seq 0 (nrows A))).
  { apply (list_ext _ _ 0); [rewrite map_length, seq_length; rewrite W1, N1, C1; lia|]. intros i Hi. rewrite W1, N1, C1, NM in Hi.
    rewrite nth_map_seq by lia. unfold at_, mget. f_equal. }
  assert (T1 : forall r, (r < nrows A)%nat -> at_ (ps_means p) r 0 = 1).
  { intros r Hr. apply (rsum_top (elems (ps_means p))).
    - intros x Hx. rewrite ME in Hx. apply in_map_iff in Hx. destruct Hx as (k & <- & Hk). apply in_seq in Hk. apply B2. lia.
    - assert (EV : ps_sim p = vmean (elems (ps_means p))).
      { rewrite V3, ME, NM. f_equal. apply map_ext_in. intros k Hk. apply in_seq in Hk. rewrite V1 by lia. reflexivity. }
      rewrite EV, vmean_R in E1. rewrite ME in E1 at 2. rewrite map_length, seq_length in E1. rewrite ME at 2. rewrite map_length, seq_length.
      apply (f_equal (fun x => x * INR (nrows A))) in E1. unfold Rdiv in E1. rewrite Rmult_assoc, Rinv_l, Rmult_1_l, Rmult_1_r in E1 by lra. exact E1.
    - rewrite ME. apply in_map_iff. exists r. split; [reflexivity|]. apply in_seq. lia. }
  assert (T2 : forall r c, (r < nrows A)%nat -> (c < ncols A)%nat -> at_ M r c = 1).
  { intros r c Hr Hc. specialize (T1 r Hr). rewrite V1 in T1 by lia. rewrite vmean_R, row_list_length in T1.
    assert (0 < INR (ncols M)) by (apply lt_0_INR; lia).
    apply (rsum_top (row_list M r)).
    - intros x Hx. destruct (In_nth _ _ 0 Hx) as (k & Hk & <-). rewrite row_list_length in Hk. change 0 with (@n0 R NumR). rewrite nth_row_list by assumption. apply B1; lia.
    - rewrite row_list_length. apply (f_equal (fun x => x * INR (ncols M))) in T1. unfold Rdiv in T1.
      rewrite Rmult_assoc, Rinv_l, Rmult_1_l, Rmult_1_r in T1 by lra. exact T1.
    - change (at_ M r c) with (at_ M r c). rewrite <- (nth_row_list M r c) by lia. apply nth_In. rewrite row_list_length. lia. }
  exists M. split; [exact EM1|exact T2].
Qed.
Lemma measure_top (A B : mat R) p : (0 < nrows A)%nat -> (0 < ncols A)%nat -> nrows A = nrows B -> ncols A = ncols B ->
  measure_patch_similarity A B = Ret p -> ps_sim p <= 1 /\ (ps_sim p = 1 -> perfect (nrows A) p).
Proof.
  intros HR HC ER EC EM. destruct (measure_bounded A B HR HC ER EC) as (M & p' & EM1 & EM2 & B1 & B2 & B3).
  rewrite EM in EM2. injection EM2 as <-. split; [lra|]. intros E1.
  assert (SH : shaped (nrows A) p) by (exact (proj2 (proj2 (measure_shaped A B p ltac:(lia) ltac:(lia) ltac:(lia) ltac:(lia) EM)))).
  destruct (measure_entries A B p HR HC ER EC EM E1) as (M' & EM' & T2). rewrite EM1 in EM'. injection EM' as <-.
  destruct (nsim_map_R A B HR HC ER EC) as (M' & EM' & WM & NM & CM & _). rewrite EM1 in EM'. injection EM' as <-.
  destruct (measure_R A B M EM1 ltac:(lia)) as (p' & EM2 & W1 & N1 & C1 & W2 & N2 & C2 & V1 & V2 & V3). rewrite EM in EM2. injection EM2 as <-.
  split; [exact SH|]. split; [exact E1|].
  assert (T1 : forall r, (r < nrows A)%nat -> at_ (ps_means p) r 0 = 1).
  { intros r Hr. rewrite V1 by lia. rewrite (row_list_const M r 1) by (intros c Hc; apply T2; lia). apply vmean_repeat. lia. }
  intros b Hb. unfold band_of.
  assert (A1 : forall Q : mat R, wf Q -> nrows Q = nrows M -> ncols Q = 1%nat -> nth b (elems Q) n0 = at_ Q b 0).
  { intros Q WQ NQ CQ. unfold at_, mget. f_equal. }
  rewrite (A1 _ W1 N1 C1), (A1 _ W2 N2 C2). split; [apply T1, Hb|].
  rewrite V2 by lia. rewrite (row_list_const M b 1) by (intros c Hc; apply T2; lia). rewrite vvar_repeat. apply sqrt_0.
Qed.

(** *** identical spectrograms stay identical *)
Lemma at_mget (A : mat R) r c : at_ A r c = mget 0 A r c.
Proof. reflexivity. Qed.
Lemma prepare_same (A X Y : mat R) : wf A -> (0 < nrows A)%nat -> (0 < ncols A)%nat -> prepare_spectrograms A A = Ret (X, Y) -> X = Y.
Proof.
  intros W HR HC E. destruct (prepare_spec A A W W HR HR HC HC) as (X' & Y' & fl & low & E' & WX & WY & [NX CX] & [NY CY] & _ & _ & VX & VY & _).
  rewrite E in E'. injection E' as <- <-. apply (mat_ext 0); [exact WX|exact WY|congruence|congruence|].
  intros r c Hr Hc. rewrite <- !at_mget. rewrite VX, VY by lia. reflexivity.
Qed.

Lemma scale_self (s : audio R) : scale_to_match_spl s s = s.
Proof.
  unfold scale_to_match_spl. rewrite scale_factor_R. replace ((spl (au_data s) - spl (au_data s)) / 20 * ln 10) with 0 by lra. rewrite exp_0.
  destruct s as [d r]. cbn [au_data au_sr]. f_equal. rewrite <- (map_id d) at 2. apply map_ext. intros. cbn. lra.
Qed.

(** *** the second alignment keeps perfect results *)
Lemma realign_perfect (pf : pffft R) speech w ref deg k r k' r' : (0 < bk_bands k)%nat -> perfect (bk_bands k) r ->
  finely_align_one measure_patch_similarity pf speech w ref deg k r = (k', Ret r') ->
  bk_bands k' = bk_bands k /\ perfect (bk_bands k) r'.
Proof.
  intros Hk Hr. unfold finely_align_one. destruct (is_lost r).
  { intros H. injection H as <- <-. auto. }
  destruct (do ra <- slice ref (ps_ref_start r) (ps_ref_end r); _) as [[[ra da] lag]| | |]; try discriminate.
  destruct (build speech k ra w) as [k1 [rspec| | |]] eqn:E1; try discriminate.
  destruct (build speech k1 da w) as [k2 [dspec| | |]] eqn:E2; cbn [bind]; try discriminate.
  intros H. injection H as <- H. apply bind_ret in H. destruct H as ([A B] & EP & H).
  apply bind_ret in H. destruct H as (new & EM & H). injection H as <-.
  apply build_inv in E1, E2. destruct E1 as (A1 & A2 & _ & A3 & A4 & _). destruct E2 as (B1 & B2 & _ & B3 & B4 & _).
  apply prepare_inv in EP. destruct (measure_shaped A B new ltac:(lia) ltac:(lia) ltac:(lia) ltac:(lia) EM) as (S1 & S2 & _).
  destruct (measure_top A B new ltac:(lia) ltac:(lia) ltac:(lia) ltac:(lia) EM) as [T1 T2].
  replace (nrows A) with (bk_bands k) in T2 by lia.
  split; [congruence|]. unfold merge_result. cbn [nltb NumR]. destruct (Rltb_spec (ps_sim new) (ps_sim r)) as [C|C]; [exact Hr|].
  rewrite (proj1 (proj2 Hr)) in C. assert (E : ps_sim new = 1) by lra. destruct (T2 E) as (P1 & P2 & P3).
  split; [exact P1|]. split; [exact P2|exact P3].
Qed.
Lemma realign_all_perfect (pf : pffft R) speech w ref deg : forall rs k k' l, (0 < bk_bands k)%nat -> Forall (perfect (bk_bands k)) rs ->
  finely_align measure_patch_similarity pf speech w ref deg k rs = (k', Ret l) -> Forall (perfect (bk_bands k)) l.
Proof.
  induction rs as [|r t IH]; intros k k' l Hk Hf H; cbn [finely_align] in H.
  - injection H as <- <-. auto.
  - inversion Hf as [|? ? Hr Ht]; subst.
    destruct (finely_align_one _ pf speech w ref deg k r) as [k1 [r'| | |]] eqn:E1; try discriminate.
    apply realign_perfect in E1; [|exact Hk|exact Hr]. destruct E1 as (K1 & K3).
    destruct (finely_align _ pf speech w ref deg k1 t) as [k2 y] eqn:E2.
    destruct y as [y| | |]; cbn [bind] in H; try discriminate. injection H as <- <-.
    constructor; [exact K3|]. rewrite <- K1. apply (IH k1 k2 y); [lia|rewrite K1; exact Ht|exact E2].
Qed.

(** *** the summary of perfect results *)
Lemma ones (A : Type) (f : A -> R) v l : (forall x, In x l -> f x = v) -> map f l = repeat v (length l).
Proof. induction l as [|x l IH]; intros H; [reflexivity|]. cbn [map repeat length]. rewrite H by now left. f_equal. apply IH. intros; apply H; now right. Qed.
Lemma ones_seq (f : nat -> R) v n : (forall b, (b < n)%nat -> f b = v) -> map f (seq 0 n) = repeat v n.
Proof. intros H. rewrite (ones _ f v), seq_length; [reflexivity|]. intros x Hx. apply in_seq in Hx. apply H. lia. Qed.
Lemma nth_repeat_lt (v d : R) n b : (b < n)%nat -> nth b (repeat v n) d = v.
Proof. intros H. apply (repeat_spec n v). apply nth_In. now rewrite repeat_length. Qed.
Lemma firstn_in (l : list R) n x : In x (firstn n l) -> In x l.
Proof. intros H. rewrite <- (firstn_skipn n l). apply in_or_app. now left. Qed.
Lemma mean_ones l : l <> [] -> (forall x, In x l -> x = 1) -> mean l = 1.
Proof.
  intros Hl H. assert (E : l = repeat 1 (length l)) by (rewrite <- (map_id l) at 1; apply ones; exact H).
  rewrite mean_rsum, E, rsum_repeat, repeat_length. assert (0 < INR (length l)) by (apply lt_0_INR; destruct l; [congruence|cbn; lia]). field. lra.
Qed.
Lemma perfect_bands nb ps b : Forall (perfect nb) ps -> (b < nb)%nat ->
  map (fun p => band_of b (ps_means p)) ps = repeat 1 (length ps).
Proof. intros F Hb. apply ones. intros p Hp. rewrite Forall_forall in F. exact (proj1 (proj2 (proj2 (F p Hp)) b Hb)). Qed.
Lemma perfect_shaped nb ps : Forall (perfect nb) ps -> Forall (shaped nb) ps.
Proof. apply Forall_impl. intros p H. exact (proj1 H). Qed.

Lemma contribute_perfect nb fd : forall ps tot tot' l, Forall (perfect nb) ps ->
  contribute_all fd ps tot (repeat (IZR tot) nb) = Ret (tot', l) -> l = repeat (IZR tot') nb.
Proof.
  induction ps as [|p t IH]; intros tot tot' l F H; cbn [contribute_all] in H.
  - apply (f_equal (fun x => match x with Ret y => y | _ => (0%Z, []) end)) in H. pose proof (f_equal fst H) as H1. pose proof (f_equal snd H) as H2. cbn [fst snd] in H1, H2. congruence.
  - inversion F as [|? ? P1 P2]; subst. apply bind_ret in H. destruct H as (fc & _ & H). destruct (_ && _); [|discriminate].
    apply bind_ret in H. destruct H as (acc & EC & H). assert (EA : acc = repeat (IZR (tot + fc)) nb); [|rewrite EA in H; exact (IH _ _ _ P2 H)].
    destruct P1 as ((C1 & C2 & _) & _ & PB). unfold contribute in EC. rewrite (column_elems _ _ C1), (column_elems _ _ C2) in EC.
    destruct C1 as (_ & R1 & _). rewrite R1, repeat_length, Nat.ltb_irrefl in EC. cbn [orb] in EC.
    apply (f_equal (fun x => match x with Ret y => y | _ => [] end)) in EC. rewrite <- EC.
    apply ones_seq. intros b Hb. replace (Nat.ltb b nb) with true by lia.
    destruct (PB b ltac:(lia)) as [M1 M2]. unfold band_of in M1, M2. cbv zeta. rewrite M1, M2. cbn [nadd nmul nofZ NumR].
    change (@n0 R NumR) with 0. rewrite nth_repeat_lt by lia. rewrite plus_IZR. lra.
Qed.

Lemma summary_perfect {L : Libm R} nb f32 mp fd cfb ps r : (0 < nb)%nat -> ps <> [] -> (Z.of_nat (length ps) < 2 ^ 31)%Z -> Forall (perfect nb) ps ->
  summarise f32 mp fd cfb ps = Ret r ->
  sr_patches r = ps /\ sr_vnsim r = 1 /\ sr_fvnsim r = repeat 1 nb /\ sr_fvnsim10 r = repeat 1 nb /\ sr_fstdnsim r = repeat 0 nb /\
  predict_quality f32 mp (repeat 1 nb) (repeat 1 nb) (repeat 0 nb) (sr_fvdegenergy r) = Ret (sr_moslqo r).
Proof.
  intros Hnb Hne HL F H. pose proof (perfect_shaped nb ps F) as SH.
  destruct (summarise_inv nb f32 mp fd cfb ps r Hne SH H) as (S1 & _ & S3 & _ & S5 & S6 & S7 & S8 & S9 & mos & S10 & S11).
  assert (LP : (0 < length ps)%nat) by (destruct ps; [congruence|cbn; lia]).
  assert (E1 : sr_fvnsim r = repeat 1 nb).
  { rewrite S3. apply ones_seq. intros b Hb.
    rewrite average_mean, (perfect_bands nb) by (assumption || lia). apply mean_ones; [destruct (length ps); [lia|discriminate]|]. intros x Hx. now apply repeat_spec in Hx. }
  assert (E2 : sr_fvnsim10 r = repeat 1 nb).
  { apply (list_ext _ _ 0); [rewrite repeat_length; exact S6|]. intros b Hb. rewrite S6 in Hb. rewrite nth_repeat_lt by exact Hb.
    pose proof (isort_ascending (map (fun p => band_of b (ps_means p)) ps)) as A.
    destruct (quantile_spec nb ps (sr_fvnsim10 r) b _ Hne SH HL S5 Hb A) as (Q & _). rewrite Q. destruct A as [A _].
    pose proof (Permutation.Permutation_length A) as AL. rewrite map_length in AL.
    apply mean_ones.
    - intros C. apply (f_equal (@length R)) in C. rewrite firstn_length in C. cbn [length] in C. unfold decile_size in C. lia.
    - intros x Hx. apply firstn_in in Hx. eapply Permutation.Permutation_in in Hx; [|apply Permutation.Permutation_sym, A].
      rewrite (perfect_bands nb) in Hx by assumption. now apply repeat_spec in Hx. }
  assert (E3 : sr_fstdnsim r = repeat 0 nb).
  { unfold calc_stddevs in S7. destruct ps as [|p0 t] eqn:EP; [congruence|]. rewrite <- EP in *.
    assert (RR : nrows (ps_means p0) = nb) by (rewrite EP in SH; inversion SH as [|? ? ((_ & RR & _) & _)]; exact RR). rewrite RR in S7.
    rewrite (calc_means_ret nb) in S7 by assumption. cbn [bind] in S7. rewrite <- S3, E1 in S7.
    apply bind_ret in S7. destruct S7 as ([tot c] & EC & S7). change (repeat n0 nb) with (repeat (IZR 0) nb) in EC.
    apply (contribute_perfect nb fd ps 0 tot c F) in EC. subst c. destruct (fits_int _); [|discriminate].
    apply (f_equal (fun x => match x with Ret y => y | _ => [] end)) in S7. rewrite <- S7. rewrite repeat_length.
    apply ones_seq. intros b Hb.
    change (@n0 R NumR) with 0. rewrite !nth_repeat_lt by lia. unfold pooled. cbn [nsub nmul ndiv nofZ nltb nsqrt NumR].
    replace ((IZR tot - 1 * 1 * IZR tot) / IZR (tot - 1)) with 0 by (unfold Rdiv; lra). destruct (Rltb_spec 0 (@n0 R NumR)); [reflexivity|apply sqrt_0]. }
  assert (E4 : sr_vnsim r = 1).
  { rewrite S9, E1, average_mean. apply mean_ones; [destruct nb; [lia|discriminate]|]. intros x Hx. now apply repeat_spec in Hx. }
  split; [exact S1|]. split; [exact E4|]. split; [exact E1|]. split; [exact E2|]. split; [exact E3|].
  rewrite <- E1 at 1. rewrite <- E2, <- E3. rewrite S10, S11, E4. f_equal. unfold alter_for_extremes. cbn [nltb NumR].
  destruct (Rltb_spec 1 (ndec 15 2)) as [C|C]; [|reflexivity]. exfalso. unfold ndec in C. cbn [ndiv nofZ NumR] in C. change (10 ^ 2)%Z with 100%Z in C. lra.
Qed.

(** *** the comparison *)
Lemma sorted_step (idx : list Z) : StronglySorted Z.lt idx -> forall i, (S i < length idx)%nat -> (idx_at idx i < idx_at idx (S i))%Z.
Proof.
  unfold idx_at. induction 1 as [|a l HS IH HF]; intros i Hi; cbn [length] in Hi; [lia|]. destruct i as [|i].
  - rewrite Forall_forall in HF. cbn [nth]. apply HF. destruct l as [|b l]; [cbn in Hi; lia|now left].
  - cbn [nth]. apply (IH i). lia.
Qed.
Lemma patch_frames (X : mat R) p idx refs i : (1 <= p)%nat -> patch_starts p (Z.of_nat (ncols X)) idx -> (Z.of_nat (ncols X) < two64)%Z ->
  create_patches (Z.of_nat p) X idx = Ret refs -> (i < length idx)%nat -> ref_at refs i = frames_at 0 X (idx_at idx i) p.
Proof.
  intros Hp PS HB ER Hi. destruct PS as (_ & _ & PI).
  destruct (create_patches_spec (Z.of_nat p) X idx) as (ps & EP & LP & HP); [lia| |].
  { intros s Hs. destruct (PI s Hs). lia. }
  rewrite ER in EP. injection EP as <-. destruct (HP i Hi) as (W & N1 & C1 & V). fold (ref_at refs i) in W, N1, C1, V. rewrite Nat2Z.id in C1, V.
  assert (HI : In (idx_at idx i) idx) by (apply nth_In; exact Hi). destruct (PI _ HI) as [I1 I2].
  apply (mat_ext 0); [exact W|apply tab_wf|unfold frames_at; rewrite tab_nrows; exact N1|unfold frames_at; rewrite tab_ncols; exact C1|].
  intros r c Hr Hc. rewrite N1 in Hr. rewrite C1 in Hc. rewrite <- at_mget. rewrite V by assumption. unfold frames_at. rewrite mget_tab by assumption. cbv zeta.
  replace ((0 <=? idx_at idx i + Z.of_nat c) && (idx_at idx i + Z.of_nat c <? Z.of_nat (ncols X)))%Z with true by lia.
  rewrite <- at_mget. f_equal. unfold idx_at. unfold idx_at in I1. lia.
Qed.

(** two recordings whose prepared spectrograms agree frame by frame *)
Definition agree (A B : mat R) : Prop :=
  (ncols A <= ncols B)%nat /\ forall b c, (b < nrows A)%nat -> (c < ncols A)%nat -> at_ A b c = at_ B b c.
Lemma agree_frames (A B : mat R) s p : nrows A = nrows B -> agree A B -> (0 <= s)%Z -> (s + Z.of_nat p <= Z.of_nat (ncols A))%Z -> frames_at 0 A s p = frames_at 0 B s p.
Proof.
  intros EN [HC HV] H0 H1. unfold frames_at. rewrite <- EN. apply (mat_ext 0); [apply tab_wf|apply tab_wf|reflexivity|reflexivity|].
  intros r c Hr Hc. rewrite tab_nrows in Hr. rewrite tab_ncols in Hc. rewrite !mget_tab by assumption. cbv zeta.
  replace ((0 <=? s + Z.of_nat c) && (s + Z.of_nat c <? Z.of_nat (ncols A)))%Z with true by lia.
  replace ((0 <=? s + Z.of_nat c) && (s + Z.of_nat c <? Z.of_nat (ncols B)))%Z with true by lia.
  apply (HV r (Z.to_nat (s + Z.of_nat c))); [exact Hr|lia].
Qed.

Lemma similarity_match (pf : pffft R) st (w : window R) (s d : audio R) k h k' d' r : (0 < bk_bands k)%nat ->
  hop_size w = Some h -> (1 <= h)%Z -> (Z.of_nat (length (au_data s)) < 2 ^ 30)%Z -> bk_bands k = num_bands (st_speech st) ->
  (w_size w < length (au_data s))%nat -> (w_size w < length (au_data d))%nat ->
  let frames := (1 + (length (au_data s) - w_size w) / Z.to_nat h)%nat in
  let dframes := (1 + (length (au_data d) - w_size w) / Z.to_nat h)%nat in
  enough_frames (st_speech st) frames -> (1 <= st_radius st)%Z -> (Z.of_nat dframes + st_radius st * Z.of_nat (patch_size (st_speech st)) <= 2 ^ 31)%Z ->
  (st_speech st = true -> Z.of_nat (w_size w) = 4 * h /\ Z.of_nat (w_size w) < 2 ^ 24)%Z ->
  (forall R1 D1 A B, snd (build (st_speech st) k s w) = Ret R1 -> snd (build (st_speech st) k (scale_to_match_spl s d) w) = Ret D1 ->
    prepare_spectrograms (sp_data R1) (sp_data D1) = Ret (A, B) -> agree A B) ->
  calculate_similarity measure_patch_similarity pf st w s d k = (k', d', Ret r) ->
  exists fd cfb ps, summarise (pf_f32 pf) (st_mapper st) fd cfb ps = Ret r /\ ps <> [] /\ (Z.of_nat (length ps) < 2 ^ 31)%Z /\
    Forall (perfect (num_bands (st_speech st))) ps.
Proof.
  intros NP EH Hh Hr Hk Wr Wd frames dframes EF Rad RB HW HAB. unfold calculate_similarity. set (d1 := scale_to_match_spl s d) in *.
  assert (LD : length (au_data d1) = length (au_data d)) by (unfold d1, scale_to_match_spl; cbn [au_data]; apply map_length).
  destruct (build_ret (st_speech st) k s w h EH Hh Wr) as (R1 & B1 & W1 & N1 & C1 & _).
  destruct (build_ret (st_speech st) k d1 w h EH Hh ltac:(lia)) as (D1 & BD & WD & ND & CD & _). rewrite LD in CD. fold dframes in CD.
  specialize (HAB R1 D1). specialize (HAB) with (1 := B1) (2 := BD).
  pose proof (build_depends (st_speech st) k k s w eq_refl eq_refl) as (_ & K1 & K1').
  destruct (build (st_speech st) k s w) as [k1 rs] eqn:EB1. cbn [fst snd] in B1, K1, K1'. subst rs.
  pose proof (build_depends (st_speech st) k1 k d1 w K1 K1') as (B2 & K2 & K2'). rewrite BD in B2.
  destruct (build (st_speech st) k1 d1 w) as [k2 ds] eqn:EB2. cbn [fst snd] in B2, K2, K2'. subst ds.
  unfold compare_spectrograms. fold frames in C1.
  match goal with |- context [match ?e with Ret _ => _ | Err _ => _ | Throw => _ | Ub => _ end] =>
    destruct e as [[fd sims]| | |] eqn:EC end; try discriminate.
  apply bind_ret in EC. destruct EC as ([A B] & EP & EC). pose proof (HAB A B EP) as AG.
  apply prepare_inv in EP. assert (NA : nrows A = nrows (sp_data R1)) by lia. assert (CA : ncols A = frames) by lia.
  assert (NB : nrows B = nrows A) by lia. assert (CB : ncols B = dframes) by lia. pose proof (proj1 AG) as AC.
  apply bind_ret in EC. destruct EC as (idx & EI & EC).
  apply bind_ret in EC. destruct EC as (fd' & EFD & EC). apply bind_ret in EC. destruct EC as (refs & ER & EC).
  apply bind_ret in EC. destruct EC as (sims' & ES & EC). injection EC as -> ->.
  destruct (indices_return (st_speech st) (ncols A) s w h Hh Wr CA ltac:(lia) ltac:(rewrite CA; exact EF) HW) as (idx' & EI' & PS & CI).
  rewrite EI in EI'. injection EI' as <-.
  destruct (patch_size_facts (st_speech st)) as (P1 & P2 & P3). set (p := patch_size (st_speech st)) in *.
  assert (FB : (Z.of_nat dframes < 2 ^ 31)%Z) by lia. assert (FB' : (frames <= dframes)%nat) by lia.
  pose proof (create_patches_inv (Z.of_nat p) A ltac:(lia) ltac:(lia) idx refs ER) as [L1 L2]. rewrite Nat2Z.id in L2.
  assert (DP : (0 < dframes)%nat) by (apply le_n_S, Nat.le_0_l).
  assert (Sh : shapes refs B p).
  { constructor; [eapply find_some; exact ES| |lia|lia]. intros q Hq. destruct (L2 q Hq). split; lia. }
  assert (NRP : (0 < nrows B)%nat) by lia.
  assert (PF : forall i, (i < length idx)%nat -> ref_at refs i = frames_at 0 B (idx_at idx i) p).
  { intros i Hi. transitivity (frames_at 0 A (idx_at idx i) p); [apply (patch_frames A p idx refs i); [lia|exact PS|unfold two64; lia|exact ER|exact Hi]|].
    destruct (proj2 (proj2 PS) (idx_at idx i)) as [Q1 Q2]; [apply nth_In; exact Hi|]. apply agree_frames; [lia|exact AG|exact Q1|exact Q2]. }
  assert (FS : forall o, nrows (frames_at 0 B o p) = nrows B /\ ncols (frames_at 0 B o p) = p).
  { intros o. unfold frames_at. rewrite tab_nrows, tab_ncols. auto. }
  assert (RS : forall i, (i < length refs)%nat -> nrows (ref_at refs i) = nrows B /\ ncols (ref_at refs i) = p).
  { intros i Hi. destruct (sh_ref _ _ _ Sh (ref_at refs i)) as [Q1 Q2]; [apply nth_In; lia|]. split; congruence. }
  assert (MT : forall i o x, (i < length refs)%nat -> measure_patch_similarity (ref_at refs i) (frames_at 0 B o p) = Ret x ->
    ps_sim x <= 1 /\ (ps_sim x = 1 -> perfect (num_bands (st_speech st)) x)).
  { intros i o x Hi EM. destruct (RS i Hi) as [Q1 Q2]. destruct (FS o) as [Q3 Q4].
    replace (num_bands (st_speech st)) with (nrows (ref_at refs i)) by lia.
    apply (measure_top (ref_at refs i) (frames_at 0 B o p)); [lia|lia|congruence|congruence|exact EM]. }
  assert (PM : Forall (perfect (num_bands (st_speech st))) sims).
  { apply Forall_forall. intros x Hx. apply In_nth_error in Hx. destruct Hx as (i & Ei).
    destruct (perfect_matching measure_patch_similarity refs idx B p fd (st_radius st) Sh ltac:(lia) ltac:(lia)) with (l := sims) (i := i) (x := x)
      as (Hi & o & r0 & Ho & EM & E1 & ->); try assumption.
    - rewrite CB. exact RB.
    - intros j Hj. destruct (proj2 (proj2 PS) (idx_at idx j)) as [Q1 Q2]; [apply nth_In; exact Hj|]. lia.
    - apply sorted_step, PS.
    - intros j o r0 Hj _ EM. exact (proj1 (MT j _ r0 Hj EM)).
    - intros j Hj Hj'. rewrite (PF j Hj'). destruct (FS (idx_at idx j)) as [Q3 Q4].
      destruct (measure_self (frames_at 0 B (idx_at idx j) p)) as (y & Y1 & Y2 & _); [lia|lia|]. exists y. auto.
    - destruct (MT i _ r0 Hi EM) as [_ Q]. destruct (Q E1) as (X1 & X2 & X3). unfold with_times. split; [|split; [exact X2|exact X3]].
      destruct X1 as (Y1 & Y2 & Y3). split; [exact Y1|split; [exact Y2|exact Y3]]. }
  destruct (find_shaped refs idx B p _ (st_radius st) sims NRP Sh ES) as [F1 _].
  assert (LB : (Z.of_nat (length sims) < 2 ^ 31)%Z).
  { destruct (matched_results measure_patch_similarity _ _ _ _ _ _ _ Sh ES) as (off & lost & Q1 & Q2 & Q3 & _). nia. }
  assert (G : forall k3 al, (if st_no_realign st then (k2, Ret sims)
      else finely_align measure_patch_similarity pf (st_speech st) w s d1 k2 sims) = (k3, Ret al) ->
      al <> [] /\ (Z.of_nat (length al) < 2 ^ 31)%Z /\ Forall (perfect (num_bands (st_speech st))) al).
  { intros k3 al. assert (KK : bk_bands k2 = num_bands (st_speech st)) by congruence. destruct (st_no_realign st); intros H.
    - injection H as _ <-. auto.
    - rewrite <- KK in PM |- *. pose proof (realign_all_perfect pf (st_speech st) w s d1 sims k2 k3 al ltac:(lia) PM H) as Q.
      apply align_shaped in H; [|lia|apply perfect_shaped; exact PM]. destruct H as [_ H2].
      split; [destruct al, sims; cbn in H2; congruence|]. split; [lia|exact Q]. }
  destruct (if st_no_realign st then _ else _) as [k3 al] eqn:EA. intros H.
  injection H as _ _ H. apply bind_ret in H. destruct H as (ps & -> & H).
  exists fd, (sp_cfb R1), ps. destruct (G k3 ps eq_refl) as (G1 & G2 & G3). auto.
Qed.

Lemma similarity_self (pf : pffft R) st (w : window R) (s : audio R) k h k' d' r : (0 < bk_bands k)%nat ->
  hop_size w = Some h -> (1 <= h)%Z -> (Z.of_nat (length (au_data s)) < 2 ^ 30)%Z -> bk_bands k = num_bands (st_speech st) ->
  (w_size w < length (au_data s))%nat ->
  let frames := (1 + (length (au_data s) - w_size w) / Z.to_nat h)%nat in
  enough_frames (st_speech st) frames -> (1 <= st_radius st)%Z -> (Z.of_nat frames + st_radius st * Z.of_nat (patch_size (st_speech st)) <= 2 ^ 31)%Z ->
  (st_speech st = true -> Z.of_nat (w_size w) = 4 * h /\ Z.of_nat (w_size w) < 2 ^ 24)%Z ->
  calculate_similarity measure_patch_similarity pf st w s s k = (k', d', Ret r) ->
  exists fd cfb ps, summarise (pf_f32 pf) (st_mapper st) fd cfb ps = Ret r /\ ps <> [] /\ (Z.of_nat (length ps) < 2 ^ 31)%Z /\
    Forall (perfect (num_bands (st_speech st))) ps.
Proof.
  intros NP EH Hh Hr Hk Wr frames EF Rad RB HW. apply (similarity_match pf st w s s k h k' d' r); try assumption.
  rewrite scale_self. intros R1 D1 A B E1 E2 EP. rewrite E1 in E2. injection E2 as <-.
  destruct (build_ret (st_speech st) k s w h EH Hh Wr) as (R2 & B1 & W1 & N1 & C1 & _). rewrite E1 in B1. injection B1 as <-.
  assert (A = B) by (eapply prepare_same; [exact W1|lia| |exact EP]; rewrite C1; apply le_n_S, Nat.le_0_l). subst B. split; [lia|reflexivity].
Qed.
