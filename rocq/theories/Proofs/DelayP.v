(** A recording with something in front is compared as the recording itself (C111). *)
From Coq Require Import ZArith List Bool Lia Arith Reals Lra Floats.
From Coq Require Import ZifyBool ZifyNat.
From Flocq Require Import Core.Core.
From Verif Require Import Base.Res Base.Num Base.NumR Base.NumF Base.Lists Base.Mat Model.Fft Model.Window Model.Nsim Model.FilterBank Model.MiscAudio Model.Alignment Model.Mappers Model.Visqol Model.Manager
  Spec.FftSpec Spec.FftAccSpec Spec.EnvAccSpec Spec.EnvelopeSpec Spec.ManagerSpec Spec.TotalSpec Spec.LibmSpec Spec.PcmSpec Spec.SelfSpec Spec.RatingSpec Spec.DelaySpec
  Proofs.FftP Proofs.B64P Proofs.EnvAlignP Proofs.ToyRunP Proofs.RoundedLibmP Proofs.AccurateRunP Proofs.AccurateCasesP Proofs.SelfRunP Proofs.SelfCasesP Proofs.EnvCasesP Proofs.RatingP Proofs.RatingRunP.
Import ListNotations.
Open Scope R_scope.
Local Notation F := PrimFloat.float.
Local Notation p2 := (bpow radix2).

Lemma late_moved (front : list F) (s : audio F) : (1 <= length front)%nat -> (2 * length front <= length (au_data s))%nat ->
  moved_by (- Z.of_nat (length front)) s (late front s) = (s, ndiv (nofZ (- Z.of_nat (length front))) (nofZ (au_sr s))).
Proof.
  intros H1 H2. unfold moved_by. replace (- Z.of_nat (length front) =? 0)%Z with false by lia. replace (Z.of_nat (length (au_data s)) <? 2 * Z.abs (- Z.of_nat (length front)))%Z with false by lia.
  cbn [orb]. replace (- Z.of_nat (length front) <? 0)%Z with true by lia. rewrite Z.opp_involutive, Nat2Z.id. unfold late. cbn [au_data au_sr].
  rewrite skipn_app, skipn_all, Nat.sub_diag. cbn [app skipn]. destruct s. reflexivity.
Qed.
(** when the alignment gives back the reference *)
Lemma aligned_same {L : Libm F} (w : world F) (m : manager F) (s d : audio F) lag : mg_no_global m = false -> au_sr d = au_sr s ->
  globally_align (w_fft w) s d = Ret (s, lag) ->
  snd (run w m s d) = (do x <- snd (run w (unaligned m) s s); Ret (with_lag x lag)).
Proof.
  intros NG ED EG. unfold run, unaligned. cbn [mg_init mg_settings mg_no_global mg_bank]. destruct (negb (mg_init m)); [reflexivity|]. unfold validate. rewrite ED, Z.eqb_refl, NG, EG.
  destruct (make_window (au_sr s)) as [win| | |]; try reflexivity.
  destruct (calculate_similarity _ _ _ _ _ _ _) as [[k' d'] r]. cbn [snd]. destruct r as [r| | |]; cbn [bind]; try reflexivity.
  unfold populate. destruct (sequence _) as [ps| | |]; reflexivity.
Qed.

Section Late.
  Variables (e : R) (w : world F) (s : audio F) (front : list F).
  Hypothesis AT : accurate_transforms e (w_fft w).
  Hypothesis E : p2 (-23) <= e <= p2 (-10).
  Let x := au_data s.
  Let y := (front ++ au_data s)%list.
  Let k := Z.of_nat (length front).
  Hypothesis Lf : (1 <= length front)%nat.
  Hypothesis Ls : (2 * length front <= length x)%nat.
  Hypothesis L9 : (9 <= length x)%nat.
  Hypothesis Ly : (Z.of_nat (length y) <= 2 ^ 26)%Z.
  Hypothesis Fy : Forall fin y.
  Hypothesis Sx : p2 (-16) <= size (exact x) <= p2 16.
  Hypothesis Sy : p2 (-16) <= size (exact y) <= p2 16.
  Hypothesis PK : forall g, (- Z.of_nat (length y) < g < Z.of_nat (length y))%Z -> g <> (- k)%Z ->
    cross_correlation (rectified (exact x)) (rectified (exact y)) g + 1700 * e * (size (exact x) * size (exact y))
      < cross_correlation (rectified (exact x)) (rectified (exact y)) (- k).
  Lemma late_aligned : globally_align (w_fft w) s (late front s) = Ret (s, ndiv (nofZ (- k)) (nofZ (au_sr s))).
  Proof.
    assert (LY : length y = (length front + length x)%nat) by (unfold y; apply app_length). assert (Fx : Forall fin x) by (unfold y in Fy; apply Forall_app in Fy; apply Fy).
    unfold k. rewrite <- late_moved by assumption. change (au_data (late front s)) with y in *.
    apply (alignment_shift e (w_fft w) AT E s (late front s)); change (au_data (late front s)) with y; fold x.
    - refine (conj Fx (conj _ (conj _ Sx))); lia.
    - refine (conj Fy (conj _ (conj _ Sy))); lia.
    - lia.
    - lia.
    - intros g Hg G. apply PK; [lia|exact G].
  Qed.
End Late.

Lemma late_same {L : Libm F} e (w : world F) (m : manager F) (s : audio F) (front : list F) : accurate_transforms e (w_fft w) -> p2 (-23) <= e <= p2 (-10) -> mg_no_global m = false ->
  let x := au_data s in let y := (front ++ au_data s)%list in let k := Z.of_nat (length front) in
  (1 <= length front)%nat -> (2 * length front <= length x)%nat -> (9 <= length x)%nat -> (Z.of_nat (length y) <= 2 ^ 26)%Z -> Forall fin y ->
  p2 (-16) <= size (exact x) <= p2 16 -> p2 (-16) <= size (exact y) <= p2 16 ->
  (forall g, (- Z.of_nat (length y) < g < Z.of_nat (length y))%Z -> g <> (- k)%Z ->
    cross_correlation (rectified (exact x)) (rectified (exact y)) g + 1700 * e * (size (exact x) * size (exact y))
      < cross_correlation (rectified (exact x)) (rectified (exact y)) (- k)) ->
  snd (run w m s (late front s)) = (do r <- snd (run w (unaligned m) s s); Ret (with_lag r (ndiv (nofZ (- k)) (nofZ (au_sr s))))).
Proof.
  intros AT E NG x y k Lf Ls L9 Ly Fy Sx Sy PK. apply aligned_same; [exact NG|reflexivity|]. exact (late_aligned e w s front AT E Lf Ls L9 Ly Fy Sx Sy PK).
Qed.
Lemma late_compared {L : Libm F} e (w : world F) (m : manager F) (s : audio F) (front : list F) msg : accurate L -> increasing_exp L -> mpow10 0%float = 1%float -> keeps_length (w_fft w) -> accurate_transforms e (w_fft w) -> p2 (-23) <= e <= p2 (-10) ->
  mg_init m = true -> reachable m -> mg_no_global m = false ->
  let sr := au_sr s in let st := mg_settings m in let x := au_data s in let y := (front ++ au_data s)%list in let k := Z.of_nat (length front) in
  let frames := frames_in sr (length x) in let patch := (if st_speech st then 20 else 30)%Z in
  (4000 <= sr <= 262144)%Z -> (1 <= length front)%nat -> (2 * length front <= length x)%nat -> (Z.of_nat (length y) <= 2 ^ 26)%Z ->
  ((if st_speech st then 29 else 45) <= frames)%Z -> (st_speech st = true -> window_samples sr mod 4 = 0)%Z ->
  (frames <= st_radius st * patch)%Z -> (frames + st_radius st * patch <= 2 ^ 31)%Z ->
  Forall pcm x -> Forall fin front -> p2 (-16) <= size (exact x) <= p2 16 -> p2 (-16) <= size (exact y) <= p2 16 ->
  (forall g, (- Z.of_nat (length y) < g < Z.of_nat (length y))%Z -> g <> (- k)%Z ->
    cross_correlation (rectified (exact x)) (rectified (exact y)) g + 1700 * e * (size (exact x) * size (exact y))
      < cross_correlation (rectified (exact x)) (rectified (exact y)) (- k)) ->
  snd (run w m s (late front s)) = Ret msg ->
  PrimFloat.leb 0.999 (ms_vnsim msg) = true /\ ms_lag msg = ndiv (nofZ (- k)) (nofZ sr) /\
  forall scaled, st_mapper st = MSpeech scaled -> PrimFloat.leb (if scaled then 4.99 else 4.01) (ms_moslqo msg) = true.
Proof.
  intros A I P1 K AT E Mi HR NG sr st x y k frames patch Hsr Lf Ls Ly EF HW COV RB PR Ff Sx Sy PK EM.
  assert (LY : length y = (length front + length x)%nat) by (unfold y; apply app_length).
  assert (L9 : (9 <= length x)%nat) by (apply (frames_long sr); [lia|fold frames; destruct (st_speech st); lia]).
  assert (Fy : Forall fin y) by (apply Forall_app; split; [exact Ff|apply pcm_fin, PR]).
  pose proof (late_aligned e w s front AT E Lf Ls L9 Ly Fy Sx Sy PK) as GA. fold k sr in GA.
  assert (EX : audible s) by (apply size_audible; [apply pcm_fin, PR|apply Sx]).
  assert (EG : (if mg_no_global m then Ret (late front s, n0) else globally_align (w_fft w) s (late front s)) = Ret (s, ndiv (nofZ (- k)) (nofZ sr))) by (rewrite NG; exact GA).
  assert (Hl : (Z.of_nat (length (au_data s)) < 2 ^ 29)%Z) by (fold x; lia).
  split; [|split].
  - destruct (aligned_run_range w m s (late front s) _ msg A P1 K Mi HR Hsr Hl EF HW COV RB PR EX eq_refl EG EM) as (S2 & S3 & _). apply leb_999; assumption.
  - rewrite (aligned_same w m s (late front s) _ NG eq_refl GA) in EM. apply Proofs.ShapeP.bind_ret in EM. destruct EM as (r & _ & EM). assert (X : forall a b : sim_msg F, Ret a = Ret b -> ms_lag b = ms_lag a) by (intros a b Hab; congruence). rewrite (X _ _ EM). reflexivity.
  - intros scaled HM. exact (aligned_rated w m s (late front s) _ msg scaled A I P1 K Mi HR Hsr Hl EF HW COV RB HM PR EX eq_refl EG EM).
Qed.

(** *** a click with 200 samples of silence in front *)
Definition silence_200 : list F := repeat 0%float 200.
Lemma late_click : (silence_200 ++ au_data click_at_100)%list = click 300 (Z.to_nat 2900).
Proof.
  unfold silence_200. cbn [au_data click_at_100]. unfold click. rewrite app_assoc, <- repeat_app. replace (Z.to_nat 2700 - 100 - 4)%nat with (Z.to_nat 2900 - 300 - 4)%nat by lia. reflexivity.
Qed.
Lemma late_example : mg_no_global (plain_manager false) = false /\ exists msg, snd (run (L:=rounded_libm) click_world (plain_manager false) click_at_100 (late silence_200 click_at_100)) = Ret msg /\
  PrimFloat.leb 0.999 (ms_vnsim msg) = true /\ ms_lag msg = (-0.05)%float /\ PrimFloat.leb 4.99 (ms_moslqo msg) = true.
Proof.
  split; [reflexivity|]. destruct (plain_reached false) as (R1 & R2 & R3).
  assert (H1 : (100 + 4 <= Z.to_nat 2700)%nat) by lia. assert (H3 : (300 + 4 <= Z.to_nat 2900)%nat) by lia.
  assert (L1 : length (au_data click_at_100) = Z.to_nat 2700) by (apply click_length; lia).
  assert (LN : Z.of_nat (length (au_data click_at_100)) = 2700%Z) by (rewrite L1; lia).
  assert (FN : frames_in 4000 (length (au_data click_at_100)) = 30%Z) by (unfold frames_in; rewrite LN; reflexivity).
  assert (R5 : st_radius (mg_settings (plain_manager false)) = 4%Z) by reflexivity. assert (R6 : st_speech (mg_settings (plain_manager false)) = true) by reflexivity. assert (R7 : st_mapper (mg_settings (plain_manager false)) = MSpeech true) by reflexivity.
  assert (LS : length silence_200 = 200%nat) by apply repeat_length.
  assert (LY : Z.of_nat (length (au_data (late silence_200 click_at_100))) = 2900%Z) by (unfold late; cbn [au_data]; rewrite app_length, LS; lia).
  destruct (run_accurate (L:=rounded_libm) click_world (plain_manager false) click_at_100 (late silence_200 click_at_100) rounded_accurate single_keeps R2 R1 eq_refl) as [[msg EM]|[C _]];
    change (au_sr click_at_100) with 4000%Z; rewrite ?LN, ?FN, ?LY, ?R5, ?R6, ?R7.
  - lia.
  - lia.
  - lia.
  - unfold window_samples. change ((4 * 4000 + 25) / 50)%Z with 320%Z. lia.
  - lia.
  - intros _. reflexivity.
  - lia.
  - lia.
  - exact Logic.I.
  - apply click_pcm.
  - unfold late. cbn [au_data]. rewrite late_click. apply click_pcm.
  - exists msg. split; [exact EM|].
    destruct (late_compared (L:=rounded_libm) (p2 (-22)) click_world (plain_manager false) click_at_100 silence_200 msg rounded_accurate rounded_increasing rounded_pow single_keeps single_transforms) as (X1 & X2 & X3);
      rewrite ?late_click, ?R5, ?R6; change (au_sr click_at_100) with 4000%Z; rewrite ?FN.
    + split; apply bpow_le; lia.
    + exact R2.
    + exact R1.
    + reflexivity.
    + lia.
    + rewrite LS; lia.
    + rewrite LS, L1; lia.
    + rewrite click_length by lia. lia.
    + lia.
    + intros _. reflexivity.
    + lia.
    + lia.
    + apply click_pcm.
    + apply Forall_repeat_. reflexivity.
    + apply click_range; lia.
    + apply click_range; lia.
    + intros g _ G. rewrite LS in *. exact (click_peak 100 300 (Z.to_nat 2700) (Z.to_nat 2900) g H1 H3 G).
    + exact EM.
    + split; [exact X1|]. split; [rewrite X2, LS; reflexivity|]. exact (X3 true R7).
  - rewrite R3 in C. discriminate C.
Qed.
