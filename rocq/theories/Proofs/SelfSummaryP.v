(** The second alignment and the summary of sound patch results in binary64 (C106). *)
From Coq Require Import ZArith List Bool Reals Lra Lia Floats.
From Coq Require Import ZifyBool ZifyNat Sorting.Sorted.
From Flocq Require Import Core.Core IEEE754.BinarySingleNaN IEEE754.PrimFloat.
From Verif Require Import Base.Res Base.Num Base.NumR Base.NumF Base.Lists Base.Mat Model.Amatrix Model.MiscMath Model.Fft Model.Window
  Model.FilterBank Model.Spectrogram Model.Nsim Model.Alignment Model.PatchCreator Model.Selector Model.MiscAudio Model.Mappers
  Model.Visqol Model.Manager Spec.FftSpec Proofs.DftP Spec.AlignSpec Spec.FineSpec Spec.StatSpec Spec.AggSpec Spec.UndefinedSpec
  Proofs.ConvP Proofs.B64P Proofs.ScoresP Proofs.FftP Proofs.AlignP Proofs.AlignCasesP Proofs.BankP Proofs.ShapeP Proofs.AggregateP Proofs.AggFloatP
  Proofs.PatchCreatorP Proofs.SelectorP Proofs.ShortP Proofs.FineP Proofs.FineSafeP Proofs.FineTimesP Proofs.FineRunP Proofs.BoundP Proofs.FiniteNsimP Proofs.FinitePrepP Proofs.FiniteRunP Proofs.FiniteFineP
  Proofs.WiderP Proofs.RoundP Proofs.NsimRoundP Proofs.NsimWideP Proofs.SelfScoreP Proofs.SelfMatchP.
Import ListNotations.
Open Scope Z_scope.

Section Fine.
  Context {L : Libm F} (SL : sane_log mlog10).
  Context (pf : pffft F) (K : keeps_length pf) (speech : bool) (w : window F) (h : Z) (EH : hop_size w = Some h) (Hh : 1 <= h).
  Context (ref deg : audio F) (p : Z) (Hp : 20 <= p <= 60) (Hph : p * h + 2 < 2 ^ 30).
  Context (Hsr : 1 <= au_sr ref < 2 ^ 31) (Hs : au_sr deg = au_sr ref) (Hr : Z.of_nat (length (au_data ref)) < 2 ^ 30) (Hd : Z.of_nat (length (au_data deg)) < 2 ^ 30).
  Context (Q : F -> Prop) (Q0 : Q n0) (QR : Forall Q (au_data ref)) (QD : Forall Q (au_data deg)).
  Context (k0 : bank F) (Hk0 : (1 <= bk_bands k0)%nat) (Hk1 : Z.of_nat (bk_bands k0) <= 1000).
  Context (calm : forall x sp, au_sr x = au_sr ref -> Forall Q (au_data x) -> snd (build speech k0 x w) = Ret sp -> Forall (fun e => ~ infinite e) (elems (sp_data sp))).

  Lemma fine_one_sound k r k' r' : bk_bands k = bk_bands k0 -> bk_min k = bk_min k0 -> timed h (au_sr ref) p (Z.of_nat (length (au_data ref))) (Z.of_nat (length (au_data deg))) r ->
    sound_result r -> finely_align_one measure_patch_similarity pf speech w ref deg k r = (k', Ret r') ->
    (sound_result r' /\ (FR (ps_sim r) <= FR (ps_sim r'))%R) /\ bk_bands k' = bk_bands k0 /\ bk_min k' = bk_min k0.
  Proof.
    intros B0 B1 TM FI. unfold finely_align_one. destruct (is_lost r) eqn:El; [intros H; injection H as <- <-; split; [split; [exact FI|apply Rle_refl]|auto]|].
    destruct (slice ref _ _) as [ra| | |] eqn:E1; cbn [bind]; try discriminate.
    destruct (slice deg _ _) as [da| | |] eqn:E2; cbn [bind]; try discriminate.
    destruct (align_and_truncate pf ra da) as [[[ra' da'] lag]| | |] eqn:E3; try discriminate.
    assert (Hk2 : Z.of_nat (bk_bands k0) <= 2 ^ 31) by lia.
    destruct (pieces_of pf K speech w h Hh ref deg p Hp Hph Hsr Hs Hr Hd Q Q0 QR QD k0 Hk0 Hk2 calm r ra da ra' da' lag El TM E1 E2 E3) as (Q1 & Q2 & A1 & A2 & LE & LB & _).
    pose proof (build_depends speech k k0 ra' w B0 B1) as (D1 & K1 & K1').
    destruct (build speech k ra' w) as [k1 [rspec| | |]] eqn:EB1; try discriminate. cbn [fst snd] in D1, K1, K1'.
    pose proof (build_depends speech k1 k0 da' w ltac:(congruence) ltac:(congruence)) as (D2 & K2 & K2').
    destruct (build speech k1 da' w) as [k2 [dspec| | |]] eqn:EB2; cbn [bind]; try discriminate. cbn [fst snd] in D2, K2, K2'.
    destruct (prepare_spectrograms _ _) as [[A B]| | |] eqn:EP; cbn [bind]; try discriminate.
    destruct (measure_patch_similarity A B) as [new| | |] eqn:EM; cbn [bind]; try discriminate.
    intros H. injection H as <- <-. split; [|split; congruence].
    unfold merge_result. destruct (nltb (ps_sim new) (ps_sim r)) eqn:LT; [split; [exact FI|apply Rle_refl]|].
    pose proof (build_inv _ _ _ _ _ _ EB1) as (_ & _ & _ & _ & _ & h1 & EH1 & _ & L1 & _). pose proof (build_inv _ _ _ _ _ _ EB2) as (_ & _ & _ & _ & _ & h2 & EH2 & _ & L2 & _).
    destruct (build_ret speech k ra' w h EH Hh L1) as (R1 & G1 & W1 & N1 & C1 & _). rewrite EB1 in G1. cbn [snd] in G1. injection G1 as <-.
    destruct (build_ret speech k1 da' w h EH Hh L2) as (R2 & G2 & W2 & N2 & C2 & _). rewrite EB2 in G2. cbn [snd] in G2. injection G2 as <-.
    destruct (prepare_ret (sp_data rspec) (sp_data dspec) W1 W2) as (A' & B' & EP' & WA & WB & [NA CA] & [NB CB]);
      [lia|lia|rewrite C1; apply le_n_S, Nat.le_0_l|rewrite C2; apply le_n_S, Nat.le_0_l|].
    rewrite EP in EP'. injection EP' as <- <-.
    destruct (prepare_rg SL (sp_data rspec) (sp_data dspec) A B W1 W2) as (RA & RB & _); [apply (calm ra'); auto|apply (calm da'); auto|exact EP|].
    assert (NC : (0 < ncols A)%nat) by (rewrite CA, C1; apply Nat.lt_0_succ).
    assert (NE : ncols A = ncols B) by (rewrite CA, CB, C1, C2, LE; reflexivity).
    assert (NM : Z.of_nat (ncols A) <= 2000000000).
    { rewrite CA, C1. assert (X := Nat.div_le_upper_bound (length (au_data ra') - w_size w) (Z.to_nat h) (length (au_data ra') - w_size w) ltac:(lia) ltac:(nia)).
      set (q := ((length (au_data ra') - w_size w) / Z.to_nat h)%nat) in *. lia. }
    destruct (measure_sound A B) as (pp & EM' & SN); [apply wide_of; (assumption || lia)|apply wide_of; (assumption || lia)|lia|exact NE|lia|exact NM|].
    rewrite EM in EM'. injection EM' as <-. split; [exact SN|]. cbn [ps_sim].
    destruct SN as (_ & (F1 & _) & _). destruct FI as (_ & (F2 & _) & _). cbn [nltb NumF] in LT. rewrite FR_ltb in LT by assumption. revert LT. case Rlt_bool_spec; [discriminate|auto].
  Qed.
  Lemma fine_all_sound : forall rs k k' l, bk_bands k = bk_bands k0 -> bk_min k = bk_min k0 ->
    Forall (timed h (au_sr ref) p (Z.of_nat (length (au_data ref))) (Z.of_nat (length (au_data deg)))) rs -> Forall sound_result rs ->
    finely_align measure_patch_similarity pf speech w ref deg k rs = (k', Ret l) ->
    Forall sound_result l /\ length l = length rs /\ (total (map (fun x => FR (ps_sim x)) rs) <= total (map (fun x => FR (ps_sim x)) l))%R.
  Proof.
    induction rs as [|r t IH]; intros k k' l B0 B1 TM FI E; cbn [finely_align] in E; [injection E as <- <-; split; [constructor|split; [reflexivity|apply Rle_refl]]|].
    inversion TM; subst. inversion FI; subst.
    destruct (finely_align_one _ pf speech w ref deg k r) as [k1 [r'| | |]] eqn:E1; try discriminate.
    destruct (finely_align _ pf speech w ref deg k1 t) as [k2 [y| | |]] eqn:E2; cbn [bind] in E; try discriminate. injection E as <- <-.
    destruct (fine_one_sound k r k1 r') as ([X1 X4] & X2 & X3); try assumption. destruct (IH k1 k2 y) as (Y1 & Y2 & Y3); try assumption.
    split; [constructor; assumption|]. split; [cbn [length]; congruence|]. unfold total in *. cbn [map fold_right]. lra.
  Qed.
End Fine.

Open Scope R_scope.
Lemma average_shape (l : list F) : average l = ndiv (nsum l) (nofnat (length l)).
Proof. reflexivity. Qed.
Lemma summary_sound {L : Libm F} nb f32 mp fd cfb (ps : list (psr F)) r : (1 <= nb <= 1000)%nat -> ps <> [] -> (Z.of_nat (length ps) <= 27000000)%Z -> Forall (shaped nb) ps -> Forall sound_result ps ->
  summarise f32 mp fd cfb ps = Ret r -> fin (sr_vnsim r) /\ Rabs (FR (sr_vnsim r) - mean (map (fun x => FR (ps_sim x)) ps)) <= 4 / 100000.
Proof.
  intros Hnb Hne HL SH SR H. destruct (summarise_inv nb _ _ _ _ _ _ Hne SH H) as (_ & _ & E & _ & _ & _ & _ & _ & EV & _).
  tb. set (n := INR (length ps)). assert (N1 : 1 <= n <= 27000000). { unfold n. rewrite INR_IZR_INZ. split; apply IZR_le; [destruct ps; [congruence|cbn [length]; lia]|lia]. }
  set (e1 := u * (1.1 * n * 9000) + u * (2 * 9000)).
  assert (EB : 0 <= e1 <= 35 / 1000000).
  { unfold e1. assert (0 <= u * (1.1 * n * 9000)) by (apply Rmult_le_pos; lra). assert (u * (1.1 * n * 9000) <= 12 / 100000000000000000 * (1.1 * 27000000 * 9000)) by (apply Rmult_le_compat; lra). lra. }
  assert (BAND : forall b, (b < nb)%nat -> near (average (map (fun p => band_of b (ps_means p)) ps)) (mean (map (fun p => FR (band_of b (ps_means p))) ps)) e1 9000).
  { intros b Hb. rewrite average_shape. rewrite <- (map_map (fun p => band_of b (ps_means p)) FR). unfold e1, n. rewrite <- (map_length (fun p => band_of b (ps_means p)) ps). apply average_near.
    - lra.
    - destruct ps; [congruence|discriminate].
    - rewrite map_length. lia.
    - apply Forall_map. apply Forall_forall. intros x Hx. rewrite Forall_forall in SH, SR. destruct (SH x Hx) as (C1 & _). destruct (SR x Hx) as (S1 & _). rewrite Forall_forall in S1. apply S1.
      unfold band_of. apply nth_In. rewrite (column_elems _ _ C1). exact Hb. }
  assert (FV : Forall (upto 9001) (sr_fvnsim r)).
  { rewrite E. apply Forall_map, Forall_forall. intros b Hb. apply in_seq in Hb. pose proof (BAND b ltac:(lia)) as NB. pose proof (near_value _ _ _ _ NB). split; [apply NB|lra]. }
  assert (LV : length (sr_fvnsim r) = nb) by (rewrite E, map_length, seq_length; reflexivity).
  pose proof (average_near 9001 (sr_fvnsim r) ltac:(lra)) as AV. rewrite <- average_shape, <- EV, LV in AV.
  specialize (AV ltac:(intros C; rewrite C in LV; cbn in LV; lia) ltac:(lia) FV). destruct AV as (F1 & D1 & _). split; [exact F1|].
  assert (NN : 1 <= INR nb <= 1000) by (rewrite INR_IZR_INZ; split; apply IZR_le; lia).
  assert (D2 : u * (1.1 * INR nb * 9001) + u * (2 * 9001) <= 1 / 1000000).
  { assert (u * (1.1 * INR nb * 9001) <= 12 / 100000000000000000 * (1.1 * 1000 * 9001)) by (apply Rmult_le_compat; lra). lra. }
  assert (D3 : Rabs (mean (map FR (sr_fvnsim r)) - mean (map (fun b => mean (map (fun p => FR (band_of b (ps_means p))) ps)) (seq 0 nb))) <= e1).
  { apply mean_close; [lra|]. rewrite E, map_map. assert (G : forall b, In b (seq 0 nb) -> (b < nb)%nat) by (intros b Hb; apply in_seq in Hb; lia). revert G. generalize (seq 0 nb). clear - BAND. intros l G.
    induction l as [|b l IH]; [constructor|]. cbn [map]. constructor; [apply BAND, G; now left|apply IH; intros; apply G; now right]. }
  assert (D4 : Rabs (mean (map (fun b => mean (map (fun p => FR (band_of b (ps_means p))) ps)) (seq 0 nb)) - mean (map (fun x => FR (ps_sim x)) ps)) <= 1 / 1000000).
  { rewrite mean_swap. apply mean_close; [lra|]. clear - SH SR. induction ps as [|x ps IH]; [constructor|]. inversion SH as [|? ? SH1 SH2]; subst. inversion SR as [|? ? SR1 SR2]; subst. cbn [map]. constructor; [|apply IH; assumption].
    destruct SR1 as (_ & _ & S3). destruct SH1 as (C1 & _). pose proof (column_elems _ _ C1) as LE. rewrite Rabs_minus_sym.
    replace (map (fun b => FR (band_of b (ps_means x))) (seq 0 nb)) with (map FR (elems (ps_means x))); [exact S3|].
    apply (list_ext _ _ (FR n0)); [rewrite !map_length, seq_length; exact LE|]. intros i Hi. rewrite map_length, LE in Hi. rewrite map_nth.
    rewrite (nth_map_seq (fun b => FR (band_of b (ps_means x)))) by exact Hi. reflexivity. }
  revert D1 D3 D4. generalize (mean (map FR (sr_fvnsim r))) (mean (map (fun b => mean (map (fun p => FR (band_of b (ps_means p))) ps)) (seq 0 nb))) (mean (map (fun x => FR (ps_sim x)) ps)) (FR (sr_vnsim r)).
  intros a b c v D1 D3 D4. apply Rabs_le_inv in D1, D3, D4. apply Rabs_le. lra.
Qed.
