(** Remaining lemmas for C38-C40, C62. *)
From Coq Require Import ZArith List Bool Reals Lra Lia.
From Verif Require Import Base.Res Base.Num Base.NumR Base.Lists Base.Mat Model.Amatrix Model.MiscMath
  Model.Window Model.SignalFilter Model.Erb Model.Spectrogram Model.FilterBank Model.Manager
  Spec.FilterSpec Proofs.RealP Proofs.WindowP Proofs.FilterP Proofs.ErbP Proofs.BankP.
Import ListNotations.
Open Scope R_scope.

Lemma filter_general_refuted :
  (exists b a x y f, length b = length a /\ signal_filter b a x [] = Ret (y, f) /\ conv a y 0 <> conv b x 0) /\
  (exists b a x y f, nth 0 a 0 = 1 /\ signal_filter b a x [] = Ret (y, f) /\ conv a y 1 <> conv b x 1).
Proof.
  split.
  - exists [1], [2], [1], [1], []. split; [reflexivity|]. split; [exact a0_ignored|].
    rewrite !conv_0. cbn [nth]. lra.
  - destruct long_numerator_ignored as (f & E). exists [1; 5], [1], [1; 0], [1; 0], f.
    split; [reflexivity|]. split; [exact E|]. unfold conv. cbn. lra.
Qed.

Lemma rsum_fold l : rsum l = fold_right Rplus 0 l.
Proof. induction l as [|x l IH]; [reflexivity|]. cbn. rewrite IH. reflexivity. Qed.
Lemma row_rms_fold (y : list R) :
  row_rms y = sqrt (fold_right Rplus 0 (map (fun x => x * x) y) / INR (length y)).
Proof. rewrite row_rms_R, rsum_fold. reflexivity. Qed.
Lemma row_rms_example : row_rms [3; -3] = 3.
Proof.
  rewrite row_rms_fold. cbn [fold_right map length INR].
  replace ((3 * 3 + (-3 * -3 + 0)) / (1 + 1)) with (3 * 3) by lra. apply sqrt_square. lra.
Qed.

Lemma hop_positive_from_44 (sr : Z) : (44 <= sr)%Z ->
  exists w h, make_window (T:=R) sr = Ret w /\ hop_size w = Some h /\ (1 <= h)%Z.
Proof.
  intros H. eexists. pose proof (make_window_R sr ltac:(lia)) as E.
  destruct (hop_positive sr _ H E) as (h & E1 & E2). exists h. split; [exact E|]. auto.
Qed.

Lemma hop_refuted :
  exists sr : Z, (0 < sr)%Z /\
    (forall W model, snd (create (T:=R) W api_new
       (MkConfig (Some sr) (Some (MkOptions model true false false 0%Z false)))) = None) /\
    exists w, make_window (T:=R) sr = Ret w /\ hop_size w = Some 0%Z /\
      forall speech k s, (w_size w < length (au_data s))%nat -> snd (build speech k s w) = Ub.
Proof.
  exists 43%Z. split; [lia|]. split.
  - intros W model. unfold create, config_args. cbn. destruct model; reflexivity.
  - pose proof (make_window_R 43 ltac:(lia)) as E. eexists. split; [exact E|].
    pose proof (hop_zero 43 _ ltac:(lia) E) as E0. split; [exact E0|].
    intros speech k s Hs. apply build_zero_hop; assumption.
Qed.

Lemma built_bands (speech : bool) (k : bank R) s w S :
  (1 <= bk_bands k)%nat -> 0 <= bk_min k ->
  let high := Rmin (if speech then 8000 else IZR (au_sr s) / 2) (IZR (au_sr s) / 2) in
  bk_min k < high ->
  snd (build speech k s w) = Ret S ->
  length (sp_cfb S) = bk_bands k /\ nth 0 (sp_cfb S) 0 = bk_min k /\
  (forall i j, (i < j < bk_bands k)%nat -> nth i (sp_cfb S) 0 < nth j (sp_cfb S) 0) /\
  (forall i, (i < bk_bands k)%nat -> bk_min k <= nth i (sp_cfb S) 0 < high).
Proof.
  intros Hb Hm high Hh E.
  assert (EC : sp_cfb S = rev (center_freqs (bk_min k) high (bk_bands k))).
  { unfold build in E. pose proof (prepared_bank_spec speech k (au_sr s)) as PB.
    destruct (prepared_bank speech k (au_sr s)) as [k1 cfb].
    destruct PB as (_ & _ & _ & _ & _ & P6).
    destruct (hop_size w) as [h|]; [|discriminate].
    destruct (Nat.leb _ _); [discriminate|]. destruct (h <=? 0)%Z; [discriminate|].
    destruct (build_frames _ _ _ _ _) as [[cols k2]| | |]; try discriminate.
    cbn [snd] in E. injection E as <-. cbn [sp_cfb]. rewrite P6. unfold make_filters. cbn [snd].
    f_equal. f_equal. unfold capped_high, builder_max_freq, high. cbn [nltb ndiv nofZ NumR].
    destruct (Rltb_spec (IZR (au_sr s) / 2) (if speech then 8000 else IZR (au_sr s) / 2)).
    - rewrite Rmin_right; lra.
    - rewrite Rmin_left; lra. }
  rewrite EC. exact (reported_center_freqs (bk_min k) high (bk_bands k) Hm Hh Hb).
Qed.
