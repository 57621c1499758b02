(** InvalidArgument with the second alignment (C04), the second alignment of a whole comparison (C73). *)
From Coq Require Import ZArith List Bool Reals Lra Lia Floats.
From Flocq Require Import Core.Core IEEE754.BinarySingleNaN IEEE754.PrimFloat.
From Coq Require Import ZifyBool ZifyNat.
From Verif Require Import Base.Res Base.Num Base.NumR Base.NumF Base.Lists Base.Mat Model.Amatrix Model.MiscMath Model.Fft Model.Window
  Model.FilterBank Model.Spectrogram Model.Nsim Model.Alignment Model.PatchCreator Model.Selector Model.MiscAudio Model.Mappers
  Model.Visqol Model.Wav Model.Manager Spec.AlignSpec Spec.FineSpec Spec.ManagerSpec Proofs.FftP Proofs.AlignP Proofs.AlignCasesP Proofs.BankP Proofs.ShapeP Proofs.CodesP Proofs.AggregateP
  Proofs.ShortP Proofs.B64P Proofs.ScoresP Proofs.WindowP Proofs.WindowFP Proofs.FineSafeP Proofs.FineTimesP.
Import ListNotations.
Open Scope Z_scope.
Ltac Zify.zify_post_hook ::= Z.div_mod_to_equations.

Lemma patch_size_facts speech : (20 <= patch_size speech)%nat /\ Z.even (Z.of_nat (patch_size speech)) = true /\ Z.of_nat (patch_size speech) < 2 ^ 31.
Proof. destruct speech; cbn; repeat split; lia. Qed.

Section FineRun.
  Context {T : Type} {N : Num T} {L : Libm T}.
  Hypothesis HX : half_exact (T:=T) (2 ^ 53).
  Hypothesis HL : lag_back (T:=T) (2 ^ 31).
  Hypothesis HN : lag_back_neg (T:=T) (2 ^ 31).
  Hypothesis HZ : zero_back (T:=T) (2 ^ 31).
  Hypothesis H00 : neqb (n0 : T) n0 = true.
  Variable e : Z.
  Hypothesis He : 0 <= e <= 1.
  Hypothesis TW : forall h sr p, 1 <= h < 2 ^ 31 -> 1 <= sr < 2 ^ 31 -> 0 <= p < 2 ^ 31 -> times_within (T:=T) e h sr p (2 ^ 31).
  Hypothesis HW : forall sr (win : window T) h, - 2 ^ 31 <= sr < 2 ^ 31 -> make_window sr = Ret win -> hop_size win = Some h -> 1 <= h ->
    1 <= sr /\ h < 2 ^ 31 /\ 4 * h <= Z.of_nat (w_size win) <= 4 * h + 3.

  (** a comparison after both spectrograms have been built *)
  Lemma compare_invalid_realign (pf : pffft T) st w (ref deg : audio T) k k1 k2 rs ds : keeps_length pf ->
    - 2 ^ 31 <= au_sr ref < 2 ^ 31 -> make_window (au_sr ref) = Ret w -> au_sr deg = au_sr ref ->
    Z.of_nat (length (au_data ref)) < 2 ^ 30 -> Z.of_nat (length (au_data deg)) < 2 ^ 30 -> (0 < bk_bands k)%nat ->
    build (st_speech st) k ref w = (k1, Ret rs) -> build (st_speech st) k1 deg w = (k2, Ret ds) ->
    snd (compare_spectrograms measure_patch_similarity pf st w ref deg k2 rs ds) = Err InvalidArgument ->
    st_speech st = false /\ (ncols (sp_data rs) < 45)%nat.
  Proof.
    intros K Hsr EW Hs Hr Hd Hk B1 B2. destruct (st_no_realign st) eqn:NR; [apply compare_invalid; exact NR|].
    unfold compare_spectrograms. rewrite NR. destruct (bind _ _) as [[fd sims]|c| |] eqn:E; cbn [snd]; try discriminate.
    - intros H. exfalso.
      apply bind_ret in E. destruct E as ([A B] & EP & E). apply bind_ret in E. destruct E as (idx & EI & E).
      apply bind_ret in E. destruct E as (fd' & EF & E). apply bind_ret in E. destruct E as (refs & ER & E).
      apply bind_ret in E. destruct E as (sims' & ES & E). injection E as -> ->.
      destruct (patch_size_facts (st_speech st)) as (P1 & P2 & P3).
      pose proof B1 as B1'. apply build_inv in B1'. destruct B1' as (_ & _ & _ & _ & _ & h & EH & Hh & _).
      destruct (HW _ _ _ Hsr EW EH Hh) as (S1 & h2 & W4).
      destruct (second_alignment HX HL HN HZ H00 pf (st_speech st) (st_radius st) w ref deg k k1 k2 rs ds A B (patch_size (st_speech st)) idx refs fd sims e h)
        as [(l & EL)|[_ EL]]; try assumption; try lia; [apply TW; lia| |].
      + destruct (finely_align _ _ _ _ _ _ _ _) as [k' al]. cbn [snd] in EL, H. subst al. cbn [bind] in H. exact (summarise_invalid _ _ _ _ _ H).
      + destruct (finely_align _ _ _ _ _ _ _ _) as [k' al]. cbn [snd] in EL, H. subst al. discriminate.
    - intros H. assert (c = InvalidArgument) as -> by congruence. clear H.
      apply bind_err in E. destruct E as [E|([A B] & EP & E)]; [pose proof (coded_prepare only_cancelled _ _ _ E); discriminate|].
      apply prepare_inv in EP. destruct EP as [[_ EC] _]. rewrite <- EC.
      apply bind_err in E. destruct E as [E|(idx & EI & E)]; [exact (indices_invalid _ _ _ _ E)|].
      apply bind_err in E. destruct E as [E|(fd & EF & E)]; [unfold calc_frame_duration in E; destruct (hop_size w) as [hh|]; [destruct (0 <=? hh)%Z|]; discriminate|].
      apply bind_err in E. destruct E as [E|(pt & EQ & E)]; [pose proof (coded_create_patches only_cancelled _ _ _ _ E); discriminate|].
      apply bind_err in E. destruct E as [E|(sims & EM & E)]; [|discriminate].
      pose proof (coded_find only_cancelled only_c _ _ _ _ _ _ E). discriminate.
  Qed.

  Lemma run_invalid_realign w (m : manager T) ref deg : keeps_length (w_fft w) -> mg_init m = true -> reachable m -> au_sr ref = au_sr deg ->
    - 2 ^ 31 <= au_sr ref < 2 ^ 31 ->
    1 <= Z.of_nat (length (au_data ref)) < 2 ^ 29 -> 1 <= Z.of_nat (length (au_data deg)) < 2 ^ 29 ->
    snd (run w m ref deg) = Err InvalidArgument ->
    exists win aligned lag, make_window (au_sr ref) = Ret win /\
      (if mg_no_global m then Ret (deg, n0) else globally_align (w_fft w) ref deg) = Ret (aligned, lag) /\
      ((length (au_data ref) <= w_size win)%nat \/ (length (au_data aligned) <= w_size win)%nat \/
       (st_speech (mg_settings m) = false /\
        exists h, hop_size win = Some h /\ 1 <= h /\ (frame_number (length (au_data ref)) (w_size win) h < 45)%nat)).
  Proof.
    intros K I HR ES Hsr Lr Ld. pose proof (bank_invariant m HR) as [KB _].
    unfold run. rewrite I. cbn [negb]. unfold validate. rewrite ES, Z.eqb_refl.
    destruct (if mg_no_global m then _ else _) as [[d lag]|c| |] eqn:EG; cbn [snd]; try discriminate.
    2:{ intros H. exfalso. assert (C : coded only_cancelled (if mg_no_global m then Ret (deg, n0) else globally_align (w_fft w) ref deg)).
        { destruct (mg_no_global m); [apply coded_ret|apply coded_align]. } rewrite EG in C. pose proof (C _ eq_refl) as Q. unfold only_cancelled in Q. congruence. }
    destruct (make_window (au_sr deg)) as [win|c| |] eqn:EW; cbn [snd]; try discriminate.
    2:{ intros H. exfalso. pose proof (coded_window only_cancelled (au_sr deg)) as C. rewrite EW in C. pose proof (C _ eq_refl) as Q. unfold only_cancelled in Q. congruence. }
    assert (AL : au_sr d = au_sr ref /\ Z.of_nat (length (au_data d)) < 2 ^ 30).
    { destruct (mg_no_global m); [injection EG as <- _; split; [congruence|lia]|].
      apply (globally_align_cases _ _ _ _ _ HX K) in EG; [|lia|lia].
      split; [destruct EG as [(-> & _)|[(q & _ & _ & _ & -> & _)|(q & _ & _ & _ & -> & _)]]; congruence|].
      apply aligned_by_length in EG. lia. }
    destruct AL as [AS AL].
    unfold calculate_similarity. set (dd := scale_to_match_spl ref d).
    assert (LD : length (au_data dd) = length (au_data d)) by (unfold dd, scale_to_match_spl; cbn; apply map_length).
    assert (SD : au_sr dd = au_sr ref) by (unfold dd, scale_to_match_spl; cbn; exact AS).
    clearbody dd. intros H. exists win, d, lag. split; [reflexivity|]. split; [reflexivity|]. revert H.
    destruct (build (st_speech (mg_settings m)) (mg_bank m) ref win) as [k1 rs] eqn:B1.
    destruct rs as [rs|c| |]; cbn [snd bind]; try discriminate.
    2:{ intros H. left. apply (build_invalid (st_speech (mg_settings m)) (mg_bank m)). rewrite B1. cbn. congruence. }
    destruct (build (st_speech (mg_settings m)) k1 dd win) as [k2 ds] eqn:B2.
    destruct ds as [ds|c| |]; cbn [snd bind]; try discriminate.
    2:{ intros H. right. left. rewrite <- LD. apply (build_invalid (st_speech (mg_settings m)) k1). rewrite B2. cbn. congruence. }
    pose proof (compare_invalid_realign (w_fft w) (mg_settings m) win ref dd (mg_bank m) k1 k2 rs ds K) as C.
    destruct (compare_spectrograms _ _ _ _ _ _ _ _ _) as [k3 r]. cbn [snd] in C |- *. intros H. right. right.
    destruct r as [r|c| |]; cbn [bind] in H; try discriminate.
    - pose proof (coded_populate only_cancelled r lag _ H). discriminate.
    - destruct C as [C1 C2]; try assumption; try lia; try congruence.
      + rewrite KB. apply num_bands_pos.
      + split; [exact C1|]. apply build_inv in B1. destruct B1 as (_ & _ & _ & _ & _ & h & H1 & H2 & _ & H3).
        exists h. split; [exact H1|]. split; [exact H2|]. unfold frame_number. lia.
  Qed.
End FineRun.

(** *** the instances *)
Open Scope R_scope.
Lemma window_R sr (win : window R) h : (- 2 ^ 31 <= sr < 2 ^ 31)%Z -> make_window sr = Ret win -> hop_size win = Some h -> (1 <= h)%Z ->
  (1 <= sr /\ h < 2 ^ 31 /\ 4 * h <= Z.of_nat (w_size win) <= 4 * h + 3)%Z.
Proof.
  intros Hsr EW EH Hh. destruct (Z.le_gt_cases 1 sr) as [C|C].
  - rewrite make_window_R in EW by lia. assert (EQ : win = MkWin (Z.to_nat ((4 * sr + 25) / 50)) kOverlap) by congruence. subst win.
    rewrite hop_size_R in EH. assert (h = (Z.of_nat (Z.to_nat ((4 * sr + 25) / 50)) / 4)%Z) by congruence. cbn [w_size]. lia.
  - exfalso. unfold make_window in EW. destruct (window_size sr) as [z|] eqn:E; [|discriminate].
    assert (Z0 : (z <= 0)%Z).
    { unfold window_size in E. cbn [nround nmul nofZ NumR] in E. assert (Q : z = Rround (IZR sr * ndec 8 2)) by congruence. subst z.
      assert (X : IZR sr * ndec 8 2 <= 0). { unfold ndec. cbn [ndiv nofZ NumR]. change (10 ^ 2)%Z with 100%Z. apply (IZR_le sr 0) in C || (assert (IZR sr <= 0) by (apply IZR_le; lia)). lra. }
      unfold Rround. destruct (Rle_dec 0 (IZR sr * ndec 8 2)) as [D|D].
      - replace (IZR sr * ndec 8 2) with 0 by lra. destruct (Rfloor_spec (0 + / 2)) as [F1 F2].
        assert (IZR (Rfloor (0 + / 2)) < 1) as F3 by lra. apply (lt_IZR _ 1) in F3. lia.
      - destruct (Rfloor_spec (- (IZR sr * ndec 8 2) + / 2)) as [F1 F2].
        assert (-1 < IZR (Rfloor (- (IZR sr * ndec 8 2) + / 2))) as F3 by lra. apply (lt_IZR (-1)) in F3. lia. }
    destruct (Z.leb_spec 0 z); [|discriminate]. assert (EQ : win = MkWin (Z.to_nat z) kOverlap) by congruence. subst win.
    rewrite hop_size_R in EH. assert (h = (Z.of_nat (Z.to_nat z) / 4)%Z) by congruence. lia.
Qed.

Lemma mag_round_nonneg m e : (0 <= mag_round m e)%Z.
Proof.
  rewrite mag_round_floor. apply Zfloor_lub. assert (0 <= IZR (Zpos m)) by (apply IZR_le; lia). pose proof (bpow_ge_0 radix2 e). nra.
Qed.
Lemma F_round_nonpos x z : FR x <= 0 -> F_round x = Some z -> (z <= 0)%Z.
Proof.
  unfold FR, F_round. rewrite <- B2SF_Prim2B.
  destruct (Prim2B x) as [s|s| |s m e H]; cbn [is_finite B2SF B2R]; try discriminate.
  - intros _ E. injection E as <-. lia.
  - intros P E. pose proof (mag_round_nonneg m e). destruct s; injection E as <-; [lia|].
    exfalso. cbn [cond_Zopp] in P. unfold F2R in P. cbn [Fnum Fexp] in P. pose proof (bpow_gt_0 radix2 e).
    assert (0 < IZR (Zpos m)) by (apply IZR_lt; lia). nra.
Qed.

Lemma window_F sr (win : window PrimFloat.float) h : (- 2 ^ 31 <= sr < 2 ^ 31)%Z -> make_window sr = Ret win -> hop_size win = Some h -> (1 <= h)%Z ->
  (1 <= sr /\ h < 2 ^ 31 /\ 4 * h <= Z.of_nat (w_size win) <= 4 * h + 3)%Z.
Proof.
  intros Hsr EW EH Hh. destruct (Z.le_gt_cases 1 sr) as [C|C].
  - destruct (window_geometry_F sr ltac:(lia)) as [E1 E2]. rewrite E1 in EW.
    assert (EQ : win = MkWin (Z.to_nat ((4 * sr + 25) / 50)) kOverlap) by congruence. subst win.
    rewrite E2 in EH. assert (h = ((4 * sr + 25) / 50 / 4)%Z) by congruence. cbn [w_size]. lia.
  - exfalso. unfold make_window in EW. destruct (window_size sr) as [z|] eqn:E; [|discriminate].
    assert (Z0 : (z <= 0)%Z).
    { unfold window_size in E. cbn [nround nmul nofZ NumF] in E. apply (F_round_nonpos _ z) in E; [exact E|].
      destruct (FR_ofZ sr ltac:(lia)) as [E1 F1].
      assert (E2 : FR (ndec 8 2 : PrimFloat.float) = 5764607523034235 / 72057594037927936).
      { unfold FR. vm_compute (ndec 8 2 : PrimFloat.float). unfold Prim2B. cbn. unfold F2R. cbn. lra. }
      assert (F2 : fin (ndec 8 2 : PrimFloat.float)) by reflexivity.
      assert (S0 : -2147483648 <= IZR sr <= 0) by (split; [apply (IZR_le (-2147483648))|apply (IZR_le _ 0)]; lia).
      assert (PB : Rabs (rnd (IZR sr * (5764607523034235 / 72057594037927936))) <= IZR 2147483648).
      { apply rnd_abs; [lia|]. apply Rabs_le. split; nra. }
      destruct (FR_mul (F_ofZ sr) (ndec 8 2 : PrimFloat.float) F1 F2) as [M1 M2].
      { rewrite E1, E2. eapply Rle_lt_trans; [exact PB|]. rewrite <- (Rabs_pos_eq (IZR 2147483648)) by (apply IZR_le; lia). apply IZR_lt_fmax. lia. }
      rewrite M1, E1, E2. assert (R0 : rnd 0 = 0) by (change 0 with (IZR 0); apply rnd_Z; lia). rewrite <- R0. apply rnd_le. nra. }
    destruct (Z.leb_spec 0 z); [|discriminate]. assert (EQ : win = MkWin (Z.to_nat z) kOverlap) by congruence. subst win.
    rewrite hop_size_F in EH by lia. assert (h = (Z.of_nat (Z.to_nat z) / 4)%Z) by congruence. lia.
Qed.

(** *** C04 with the second alignment *)
Lemma nan_free_R : neqb (n0 : R) n0 = true.
Proof. unfold n0. cbn [neqb nofZ NumR]. apply Reqb_true. reflexivity. Qed.
Lemma times_R' h sr p : (1 <= h < 2 ^ 31)%Z -> (1 <= sr < 2 ^ 31)%Z -> (0 <= p < 2 ^ 31)%Z -> times_within (T:=R) 0 h sr p (2 ^ 31).
Proof. intros H1 H2 H3. apply times_R; lia. Qed.
Definition run_invalid_R {L : Libm R} := run_invalid_realign (half_exact_R _) lag_back_R lag_back_neg_R zero_back_R nan_free_R 0 ltac:(lia) times_R' window_R.
Definition run_invalid_F {L : Libm PrimFloat.float} := run_invalid_realign half_exact_F lag_back_F lag_back_neg_F zero_back_F eq_refl 1 ltac:(lia) times_F window_F.

(** *** C73 *)
Lemma second_R {L : Libm R} (pf : pffft R) (speech : bool) radius (w : window R) (ref deg : audio R) k k1 k2 rs ds A B idx refs fd sims h :
  keeps_length pf -> make_window (au_sr ref) = Ret w -> hop_size w = Some h -> (1 <= h)%Z ->
  (1 <= au_sr ref < 2 ^ 31)%Z -> au_sr deg = au_sr ref ->
  (Z.of_nat (length (au_data ref)) < 2 ^ 30)%Z -> (Z.of_nat (length (au_data deg)) < 2 ^ 30)%Z -> (0 < bk_bands k)%nat ->
  build speech k ref w = (k1, Ret rs) -> build speech k1 deg w = (k2, Ret ds) ->
  prepare_spectrograms (sp_data rs) (sp_data ds) = Ret (A, B) ->
  create_patches (if speech then 20 else 30) A idx = Ret refs -> calc_frame_duration w (au_sr ref) = Ret fd ->
  find_most_optimal_deg_patches measure_patch_similarity refs idx B fd radius = Ret sims ->
  exists l, snd (finely_align measure_patch_similarity pf speech w ref deg k2 sims) = Ret l.
Proof.
  intros K EW EH Hh Hsr Hs Hr Hd Hk B1 B2 EP EC EF EM.
  destruct (window_R (au_sr ref) w h ltac:(lia) EW EH Hh) as (_ & h2 & W4). destruct (patch_size_facts speech) as (P1 & P2 & P3).
  replace (if speech then 20%Z else 30%Z) with (Z.of_nat (patch_size speech)) in EC by (destruct speech; reflexivity).
  destruct (second_alignment (half_exact_R _) lag_back_R lag_back_neg_R zero_back_R nan_free_R pf speech radius w ref deg k k1 k2 rs ds A B
    (patch_size speech) idx refs fd sims 0 h) as [X|[X _]]; try assumption; try lia; apply times_R'; lia.
Qed.
Lemma second_F {L : Libm PrimFloat.float} (pf : pffft PrimFloat.float) (speech : bool) radius (w : window PrimFloat.float) (ref deg : audio PrimFloat.float)
  k k1 k2 rs ds A B idx refs fd sims h :
  keeps_length pf -> make_window (au_sr ref) = Ret w -> hop_size w = Some h -> (1 <= h)%Z ->
  (1 <= au_sr ref < 2 ^ 31)%Z -> au_sr deg = au_sr ref ->
  (Z.of_nat (length (au_data ref)) < 2 ^ 30)%Z -> (Z.of_nat (length (au_data deg)) < 2 ^ 30)%Z -> (0 < bk_bands k)%nat ->
  build speech k ref w = (k1, Ret rs) -> build speech k1 deg w = (k2, Ret ds) ->
  prepare_spectrograms (sp_data rs) (sp_data ds) = Ret (A, B) ->
  create_patches (if speech then 20 else 30) A idx = Ret refs -> calc_frame_duration w (au_sr ref) = Ret fd ->
  find_most_optimal_deg_patches measure_patch_similarity refs idx B fd radius = Ret sims ->
  (exists l, snd (finely_align measure_patch_similarity pf speech w ref deg k2 sims) = Ret l) \/
  snd (finely_align measure_patch_similarity pf speech w ref deg k2 sims) = Throw.
Proof.
  intros K EW EH Hh Hsr Hs Hr Hd Hk B1 B2 EP EC EF EM.
  destruct (window_F (au_sr ref) w h ltac:(lia) EW EH Hh) as (_ & h2 & W4). destruct (patch_size_facts speech) as (P1 & P2 & P3).
  replace (if speech then 20%Z else 30%Z) with (Z.of_nat (patch_size speech)) in EC by (destruct speech; reflexivity).
  destruct (second_alignment half_exact_F lag_back_F lag_back_neg_F zero_back_F eq_refl pf speech radius w ref deg k k1 k2 rs ds A B
    (patch_size speech) idx refs fd sims 1 h) as [X|[_ X]]; try assumption; try lia; [apply times_F; lia|left; exact X|right; exact X].
Qed.
