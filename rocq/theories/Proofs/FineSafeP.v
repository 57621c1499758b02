(** The second alignment: sizes of the slices, of the aligned slices, and what can go wrong. *)
From Coq Require Import ZArith List Bool Lia.
From Coq Require Import ZifyBool ZifyNat.
From Verif Require Import Base.Res Base.Num Base.Lists Base.Mat Model.Amatrix Model.MiscMath Model.Fft Model.Window
  Model.FilterBank Model.Spectrogram Model.Nsim Model.Alignment Model.PatchCreator Model.Selector Model.MiscAudio Model.Mappers
  Model.Visqol Spec.AlignSpec Spec.FineSpec Proofs.FftP Proofs.AlignP Spec.MatchSpec Proofs.NsimP Proofs.BankP Proofs.SelectorP Proofs.MatchP Proofs.MatchAllP Proofs.ShapeP Proofs.ShortP.
Import ListNotations.
Open Scope Z_scope.
Ltac Zify.zify_post_hook ::= Z.div_mod_to_equations.

Section FineSafe.
  Context {T : Type} {N : Num T} {L : Libm T}.

  (** *** times of patches *)
  (** multiplied with the rate and truncated, times are at most [e] samples below the multiple of the hop *)
  Definition times_within (e h sr p bound : Z) : Prop := forall i, 0 <= i -> (i + p) * h < bound ->
    nltb (frame_time h sr i) n0 = false /\
    (exists a, to_int (nmul (frame_time h sr i) (nofZ sr)) = Ret a /\ 0 <= a /\ i * h - e <= a <= i * h) /\
    (exists b, to_int (nmul (frame_end h sr p i) (nofZ sr)) = Ret b /\ (i + p) * h - e <= b <= (i + p) * h) /\
    forall n, 0 <= n < bound ->
      let d := nsub (nmul (frame_end h sr p i) (nofZ sr)) (nofZ n) in
      if nltb n0 d
      then exists k, to_size d = Ret k /\ 0 <= k /\ (i + p) * h - n - e <= k <= (i + p) * h - n
      else (i + p) * h <= n.

  Lemma int_small z : - 2 ^ 31 <= z < 2 ^ 31 -> int_of z = z.
  Proof. intros H. unfold int_of. destruct (Z.ltb_spec (z mod 2 ^ 32) (2 ^ 31)); lia. Qed.

  Lemma slice_close (s : audio T) e h p i : 0 <= e <= 1 -> 1 <= h -> 2 <= p -> times_within e h (au_sr s) p (2 ^ 31) ->
    0 <= i -> (i + p) * h < 2 ^ 31 -> i * h + 1 < Z.of_nat (length (au_data s)) < 2 ^ 31 ->
    exists m, slice s (frame_time h (au_sr s) i) (frame_end h (au_sr s) p i) = Ret m /\ au_sr m = au_sr s /\
      p * h - 1 - e <= Z.of_nat (length (au_data m)) <= p * h + e /\
      ((i + p) * h < Z.of_nat (length (au_data s)) -> p * h - e <= Z.of_nat (length (au_data m))).
  Proof.
    intros He Hh Hp W Hi Hb Hn. destruct (W i Hi Hb) as (N0 & (a & Ea & A0 & A1) & (b & Eb & B1) & D).
    specialize (D (Z.of_nat (length (au_data s))) ltac:(lia)). cbv zeta in D.
    unfold slice. rewrite Ea. cbn [bind]. rewrite Eb. cbn [bind]. rewrite N0.
    set (n := Z.of_nat (length (au_data s))) in *.
    rewrite (size_small (n - 1)) by (unfold two64; lia). rewrite int_small by lia.
    rewrite (Z.max_r 0 a) by lia.
    assert (P2 : p * h >= 2) by nia. replace ((i + p) * h) with (i * h + p * h) in * by ring.
    rewrite size_small by (unfold two64; lia).
    rewrite v_rows_ret by lia. cbn [bind].
    destruct (nltb n0 _).
    - destruct D as (k & Ek & K0 & K1). rewrite Ek. cbn [bind]. eexists. split; [reflexivity|]. split; [reflexivity|].
      cbn [au_data]. rewrite app_length, repeat_length, firstn_length, skipn_length. lia.
    - cbn [bind]. eexists. split; [reflexivity|]. split; [reflexivity|].
      cbn [au_data]. rewrite firstn_length, skipn_length. lia.
  Qed.

  (** *** aligning two slices *)
  (** int((-k / sr) * sr) is between -k and 0 *)
  Definition lag_back_neg (bound : Z) : Prop := forall k sr, 0 <= k < bound -> 1 <= sr < bound ->
    exists a, - k <= a <= 0 /\ to_int (nmul (ndiv (nofZ (- k)) (nofZ sr)) (nofZ sr)) = Ret a.

  Lemma truncate_outcome (ref deg aligned : audio T) t :
    lag_back (2 ^ 31) -> lag_back_neg (2 ^ 31) -> zero_back (2 ^ 31) -> aligned_by ref deg aligned t ->
    1 <= Z.of_nat (length (au_data ref)) < 2 ^ 30 -> Z.of_nat (length (au_data deg)) < 2 ^ 30 ->
    1 <= Z.of_nat (length (au_data deg)) ->
    1 <= au_sr ref < 2 ^ 31 -> au_sr deg = au_sr ref ->
    (exists r' d', truncate_aligned ref deg aligned t = Ret (r', d', t) /\ au_sr r' = au_sr ref /\ au_sr d' = au_sr ref /\
       length (au_data r') = length (au_data d') /\
       (2 * length (au_data r') + length (au_data ref) >= 2 * Nat.min (length (au_data ref)) (length (au_data deg)))%nat) \/
    (truncate_aligned ref deg aligned t = Throw /\ (length (au_data ref) < length (au_data deg))%nat).
  Proof.
    intros HL HN HZ HA H1 H2 H2' Hsr Hs. unfold truncate_aligned. rewrite Hs.
    destruct HA as [(-> & ->)|[(k & K1 & K2 & K3 & K4 & ->)|(k & K1 & K2 & K3 & K4 & ->)]].
    - destruct (Z.ltb_spec (Z.of_nat (length (au_data deg))) (Z.of_nat (length (au_data ref)))).
      + rewrite size_small by (unfold two64; lia). rewrite v_rows_ret by lia. cbn [bind]. left.
        eexists _, _. split; [reflexivity|]. cbn [au_data au_sr]. rewrite firstn_length, skipn_length. lia.
      + destruct (Z.ltb_spec (Z.of_nat (length (au_data ref))) (Z.of_nat (length (au_data deg)))).
        * rewrite (HZ (au_sr ref) Hsr). cbn [bind]. change (size_of 0) with 0.
          rewrite size_small by (unfold two64; lia). rewrite !v_rows_ret by lia. cbn [bind]. left.
          eexists _, _. split; [reflexivity|]. cbn [au_data au_sr]. rewrite !firstn_length, !skipn_length. lia.
        * cbn [bind]. left. eexists _, _. split; [reflexivity|]. cbn [au_data au_sr]. lia.
    - rewrite ?Hs. assert (LA : length (au_data aligned) = (length (au_data deg) - k)%nat) by (rewrite K3; apply skipn_length).
      rewrite LA. destruct (Z.ltb_spec (Z.of_nat (length (au_data deg) - k)) (Z.of_nat (length (au_data ref)))).
      + rewrite size_small by (unfold two64; lia). rewrite v_rows_ret by lia. cbn [bind]. left.
        eexists _, _. split; [reflexivity|]. cbn [au_data au_sr]. rewrite firstn_length, skipn_length. lia.
      + destruct (Z.ltb_spec (Z.of_nat (length (au_data ref))) (Z.of_nat (length (au_data deg) - k))).
        * destruct (HN (Z.of_nat k) (au_sr ref)) as (a & A1 & A2); [lia|exact Hsr|]. rewrite A2. cbn [bind].
          destruct (Z.eq_dec a 0) as [->|A0].
          { change (size_of 0) with 0. rewrite size_small by (unfold two64; lia). rewrite !v_rows_ret by lia. cbn [bind]. left.
            eexists _, _. split; [reflexivity|]. cbn [au_data au_sr]. rewrite !firstn_length, !skipn_length. lia. }
          { right. rewrite (size_neg a) by (unfold two64; lia). rewrite size_small by (unfold two64; lia).
            unfold v_rows at 1. replace (_ && _) with false; [split; [reflexivity|lia]|].
            symmetry. apply andb_false_iff. left. apply andb_false_iff. left. unfold two64. lia. }
        * cbn [bind]. left. eexists _, _. split; [reflexivity|]. cbn [au_data au_sr]. lia.
    - rewrite ?Hs. assert (LA : length (au_data aligned) = (k + length (au_data deg))%nat) by (rewrite K3, app_length, repeat_length; lia).
      destruct (Z.ltb_spec (Z.of_nat (length (au_data aligned))) (Z.of_nat (length (au_data ref)))).
      + rewrite size_small by (unfold two64; lia). rewrite v_rows_ret by lia. cbn [bind]. left.
        eexists _, _. split; [reflexivity|]. cbn [au_data au_sr]. rewrite firstn_length, skipn_length. lia.
      + destruct (Z.ltb_spec (Z.of_nat (length (au_data ref))) (Z.of_nat (length (au_data aligned)))).
        * destruct (HL (Z.of_nat k) (au_sr ref)) as (a & A1 & A2); [lia|exact Hsr|]. rewrite A2. cbn [bind].
          rewrite !size_small by (unfold two64; lia). rewrite !v_rows_ret by lia. cbn [bind]. left.
          eexists _, _. split; [reflexivity|]. cbn [au_data au_sr]. rewrite !firstn_length, !skipn_length. lia.
        * cbn [bind]. left. eexists _, _. split; [reflexivity|]. cbn [au_data au_sr]. lia.
  Qed.

  Lemma align_outcome pf (ref deg : audio T) :
    half_exact (2 ^ 53) -> lag_back (2 ^ 31) -> lag_back_neg (2 ^ 31) -> zero_back (2 ^ 31) -> keeps_length pf ->
    1 <= Z.of_nat (length (au_data ref)) < 2 ^ 30 -> Z.of_nat (length (au_data deg)) < 2 ^ 30 ->
    (length (au_data ref) < 2 * length (au_data deg))%nat -> 1 <= au_sr ref < 2 ^ 31 -> au_sr deg = au_sr ref ->
    (exists r' d' t, align_and_truncate pf ref deg = Ret (r', d', t) /\ au_sr r' = au_sr ref /\ au_sr d' = au_sr ref /\
       length (au_data r') = length (au_data d') /\
       (2 * length (au_data r') + length (au_data ref) >= 2 * Nat.min (length (au_data ref)) (length (au_data deg)))%nat) \/
    (align_and_truncate pf ref deg = Throw /\ (length (au_data ref) < length (au_data deg))%nat).
  Proof.
    intros HX HL HN HZ K H1 H2 H3 Hsr Hs. unfold align_and_truncate.
    assert (G : exists al t, globally_align pf ref deg = Ret (al, t) /\ aligned_by ref deg al t).
    { unfold globally_align.
      destruct (envelope_returns pf (au_data ref) K ltac:(lia)) as (re & RE & RL).
      destruct (envelope_returns pf (au_data deg) K ltac:(lia)) as (de & DE & DL).
      rewrite RE, DE. cbn [bind].
      destruct (lag_returns pf re de K ltac:(lia) ltac:(lia)) as (g & G & GB). rewrite G. cbn [bind].
      destruct (apply_lag_returns ref deg g HX ltac:(lia) ltac:(lia) ltac:(lia) ltac:(lia)) as (d & t & E).
      exists d, t. split; [exact E|]. apply (apply_lag_cases ref deg g d t HX); try assumption; try lia. unfold two64; lia. }
    destruct G as (al & t & -> & HA). cbn [bind].
    destruct (truncate_outcome ref deg al t HL HN HZ HA) as [(r' & d' & X)|X]; try lia; [left|right; exact X].
    exists r', d', t. exact X.
  Qed.

  (** *** one matched patch *)
  Hypothesis HX : half_exact (T:=T) (2 ^ 53).
  Hypothesis HL : lag_back (T:=T) (2 ^ 31).
  Hypothesis HN : lag_back_neg (2 ^ 31).
  Hypothesis HZ : zero_back (T:=T) (2 ^ 31).
  Hypothesis H00 : neqb (n0 : T) n0 = true.

  (** the times of a result that is not lost are those of frames [i] and [j] *)
  Definition timed (h sr p nr nd : Z) (r : psr T) : Prop := is_lost r = true \/ exists i j,
    0 <= i /\ (i + p) * h < nr /\ 0 <= j /\ j * h + 1 < nd /\
    ps_ref_start r = frame_time h sr i /\ ps_ref_end r = frame_end h sr p i /\
    ps_deg_start r = frame_time h sr j /\ ps_deg_end r = frame_end h sr p j.

  Lemma measure_returns (A B : mat T) : (0 < nrows A)%nat -> (0 < ncols A)%nat -> nrows A = nrows B -> ncols A = ncols B ->
    exists r, measure_patch_similarity A B = Ret r.
  Proof.
    intros H1 H2 H3 H4. unfold measure_patch_similarity. pose proof (nsim_map_spec A B H1 H2 H3 H4) as E. cbv zeta in E.
    rewrite E. cbn [bind]. eexists. reflexivity.
  Qed.

  Lemma fine_one pf speech (w : window T) (ref deg : audio T) k r e h p : keeps_length pf -> 0 <= e <= 1 ->
    hop_size w = Some h -> 1 <= h -> 4 * h <= Z.of_nat (w_size w) <= 4 * h + 3 -> 20 <= p -> Z.even p = true -> p * h + 2 < 2 ^ 30 ->
    times_within e h (au_sr ref) p (2 ^ 31) -> 1 <= au_sr ref < 2 ^ 31 -> au_sr deg = au_sr ref ->
    Z.of_nat (length (au_data ref)) < 2 ^ 30 -> Z.of_nat (length (au_data deg)) < 2 ^ 30 -> (0 < bk_bands k)%nat ->
    timed h (au_sr ref) p (Z.of_nat (length (au_data ref))) (Z.of_nat (length (au_data deg))) r ->
    (exists r', snd (finely_align_one measure_patch_similarity pf speech w ref deg k r) = Ret r') \/
    (e = 1 /\ snd (finely_align_one measure_patch_similarity pf speech w ref deg k r) = Throw).
  Proof.
    intros K He EH Hh Hw Hp Ev Hph W Hsr Hs Hr Hd Hk TM. unfold finely_align_one.
    destruct TM as [->|(i & j & Hi & Hi' & Hj & Hj' & -> & -> & -> & ->)]; [cbn; eauto|].
    destruct (is_lost r); [cbn; eauto|].
    destruct (slice_close ref e h p i He Hh ltac:(lia) W Hi ltac:(lia) ltac:(nia)) as (ra & Ea & Sa & La & La').
    specialize (La' Hi'). rewrite Ea. cbn [bind].
    destruct (slice_close deg e h p j He Hh ltac:(lia)) as (da & Ed & Sd & Ld & _); [rewrite Hs; exact W|exact Hj|nia|lia|].
    rewrite Hs in Ed. rewrite Ed. cbn [bind].
    set (P := p * h) in *.
    assert (P20 : 20 * h <= P) by (unfold P; nia).
    assert (PE : Z.even P = true) by (unfold P; rewrite Z.even_mul, Ev; reflexivity).
    apply Z.even_spec in PE. destruct PE as (q & Eq).
    destruct (align_outcome pf ra da HX HL HN HZ K) as [(r' & d' & t & EA & S1 & S2 & L1 & L2)|[EA LT]]; try lia.
    2:{ rewrite EA. right. split; [lia|reflexivity]. }
    rewrite EA. left.
    assert (LB : (w_size w < length (au_data r'))%nat) by lia.
    destruct (build_ret speech k r' w h EH Hh LB) as (R1 & B1 & W1 & N1 & C1 & _).
    pose proof (build_depends speech k k r' w eq_refl eq_refl) as (_ & K1 & K2).
    destruct (build speech k r' w) as [k1 rs]. cbn [fst snd] in B1, K1, K2. rewrite B1.
    destruct (build_ret speech k1 d' w h EH Hh ltac:(lia)) as (R2 & B2 & W2 & N2 & C2 & _).
    destruct (build speech k1 d' w) as [k2 ds]. cbn [snd] in B2. rewrite B2. cbn [bind snd].
    destruct (prepare_ret (sp_data R1) (sp_data R2) W1 W2) as (A & B & EP & _ & _ & [NA CA] & [NB CB]);
      [lia|lia|rewrite C1; apply le_n_S, Nat.le_0_l|rewrite C2; apply le_n_S, Nat.le_0_l|].
    rewrite EP. cbn [bind].
    destruct (measure_returns A B) as (new & EM); [lia|rewrite CA, C1; apply Nat.lt_0_succ|lia|rewrite CA, CB, C1, C2, L1; reflexivity|].
    rewrite EM. cbn [bind]. eauto.
  Qed.

  Lemma fine_all pf speech (w : window T) (ref deg : audio T) e h p : keeps_length pf -> 0 <= e <= 1 ->
    hop_size w = Some h -> 1 <= h -> 4 * h <= Z.of_nat (w_size w) <= 4 * h + 3 -> 20 <= p -> Z.even p = true -> p * h + 2 < 2 ^ 30 ->
    times_within e h (au_sr ref) p (2 ^ 31) -> 1 <= au_sr ref < 2 ^ 31 -> au_sr deg = au_sr ref ->
    Z.of_nat (length (au_data ref)) < 2 ^ 30 -> Z.of_nat (length (au_data deg)) < 2 ^ 30 ->
    forall rs k, (0 < bk_bands k)%nat ->
    Forall (timed h (au_sr ref) p (Z.of_nat (length (au_data ref))) (Z.of_nat (length (au_data deg)))) rs ->
    (exists l, snd (finely_align measure_patch_similarity pf speech w ref deg k rs) = Ret l) \/
    (e = 1 /\ snd (finely_align measure_patch_similarity pf speech w ref deg k rs) = Throw).
  Proof.
    intros K He EH Hh Hw Hp Ev Hph W Hsr Hs Hr Hd. induction rs as [|r t IH]; intros k Hk HF; cbn [finely_align]; [cbn; eauto|].
    inversion HF as [|? ? F1 F2]; subst.
    pose proof (fine_one pf speech w ref deg k r e h p K He EH Hh Hw Hp Ev Hph W Hsr Hs Hr Hd Hk F1) as O.
    pose proof (align_one_bank measure_patch_similarity pf speech w ref deg k r) as [KB _].
    destruct (finely_align_one _ pf speech w ref deg k r) as [k1 x]. cbn [fst snd] in O, KB.
    destruct O as [(r' & ->)|[E1 ->]]; [|right; cbn; auto].
    specialize (IH k1 ltac:(lia) F2). destruct (finely_align _ pf speech w ref deg k1 t) as [k2 y]. cbn [snd] in IH |- *.
    destruct IH as [(l & ->)|[E1 ->]]; [left; cbn; eauto|right; cbn; auto].
  Qed.

  (** *** the results of matching are timed *)
  Lemma patches_inside p (S : mat T) : 1 <= p < 2 ^ 31 -> Z.of_nat (ncols S) < 2 ^ 31 -> forall idx refs, create_patches p S idx = Ret refs ->
    forall i, In i idx -> 0 <= i /\ i + p <= Z.of_nat (ncols S).
  Proof.
    intros Hp Hc. induction idx as [|x t IH]; intros refs H i; cbn [create_patches] in H; [intros []|].
    apply bind_ret in H. destruct H as (P & EP & H). apply bind_ret in H. destruct H as (rest & ER & H).
    intros [<-|Hin]; [|exact (IH _ ER i Hin)].
    unfold m_cols in EP. destruct (_ && _) eqn:E; [|discriminate].
    apply andb_true_iff in E. destruct E as [E E3]. apply andb_true_iff in E. destruct E as [E1 E2].
    assert (x <= size_of (x + p - 1) < Z.of_nat (ncols S)) as [Y1 Y2] by lia. rewrite size_small in Y2 by (unfold two64; lia). lia.
  Qed.

  Lemma sims_timed measure (w : window T) h sr p (nr nd : nat) (A B : mat T) idx refs radius sims :
    1 <= h -> 4 * h <= Z.of_nat (w_size w) -> (w_size w < nr)%nat -> (w_size w < nd)%nat ->
    Z.of_nat nr < 2 ^ 30 -> Z.of_nat nd < 2 ^ 30 -> (20 <= p)%nat -> Z.of_nat p < 2 ^ 31 ->
    ncols A = (1 + (nr - w_size w) / Z.to_nat h)%nat -> ncols B = (1 + (nd - w_size w) / Z.to_nat h)%nat ->
    nrows A = nrows B ->
    create_patches (Z.of_nat p) A idx = Ret refs ->
    find_most_optimal_deg_patches measure refs idx B (ndiv (nofZ h) (nofZ sr)) radius = Ret sims ->
    Z.of_nat p * h + 2 < 2 ^ 30 /\ Forall (timed h sr (Z.of_nat p) (Z.of_nat nr) (Z.of_nat nd)) sims.
  Proof.
    intros Hh Hw Hr Hd Nr Nd Hp Hp' CA CB RR EP EF.
    assert (DA : (Z.of_nat (ncols A) - 1) * h <= Z.of_nat nr - Z.of_nat (w_size w)).
    { rewrite CA. pose proof (Nat.mul_div_le (nr - w_size w) (Z.to_nat h) ltac:(lia)).
      set (q := ((nr - w_size w) / Z.to_nat h)%nat) in *. nia. }
    assert (DB : (Z.of_nat (ncols B) - 1) * h <= Z.of_nat nd - Z.of_nat (w_size w)).
    { rewrite CB. pose proof (Nat.mul_div_le (nd - w_size w) (Z.to_nat h) ltac:(lia)).
      set (q := ((nd - w_size w) / Z.to_nat h)%nat) in *. nia. }
    assert (BA : Z.of_nat (ncols A) < 2 ^ 31) by nia. assert (BB : Z.of_nat (ncols B) < 2 ^ 31) by nia.
    assert (B1 : 1 <= Z.of_nat (ncols B)) by (rewrite CB; lia). clear CA CB.
    pose proof (patches_inside (Z.of_nat p) A ltac:(lia) BA idx refs EP) as IN.
    destruct (create_patches_inv (Z.of_nat p) A ltac:(lia) BA idx refs EP) as [L1 L2]. rewrite Nat2Z.id in L2.
    assert (Sh : shapes refs B p).
    { constructor; [eapply find_some; exact EF| |lia|lia]. intros q Hq. destruct (L2 q Hq). split; lia. }
    destruct (matched_results measure _ _ _ _ _ _ _ Sh EF) as (off & lost & F1 & F2 & F3 & F4 & _).
    assert (HI : forall i, (i < length sims)%nat -> 0 <= idx_at idx i /\ idx_at idx i + Z.of_nat p <= Z.of_nat (ncols A)).
    { intros i Hi. apply IN. unfold idx_at. apply nth_In. lia. }
    split.
    { destruct (HI 0%nat ltac:(lia)). nia. }
    apply Forall_forall. intros x Hx. apply In_nth_error in Hx. destruct Hx as (i & Ei).
    assert (Hi : (i < length sims)%nat) by (apply nth_error_Some; congruence).
    destruct (F4 i Hi) as (Ho & r & Er & Ex). rewrite Ex in Ei. injection Ei as <-. destruct (HI i Hi) as [I1 I2].
    unfold with_times. destruct (lost i).
    - left. unfold is_lost. cbn [ps_deg_start ps_deg_end]. rewrite H00. reflexivity.
    - right. exists (idx_at idx i), (Z.of_nat (off i)). split; [exact I1|]. split; [nia|]. split; [lia|]. split; [nia|].
      cbn. repeat split.
  Qed.

  (** *** the second alignment of everything matched *)
  Lemma second_alignment pf speech radius (w : window T) (ref deg : audio T) k k1 k2 rs ds A B p idx refs fd sims e h :
    keeps_length pf -> 0 <= e <= 1 -> hop_size w = Some h -> 1 <= h -> 4 * h <= Z.of_nat (w_size w) <= 4 * h + 3 ->
    (20 <= p)%nat -> Z.even (Z.of_nat p) = true -> Z.of_nat p < 2 ^ 31 ->
    times_within e h (au_sr ref) (Z.of_nat p) (2 ^ 31) -> 1 <= au_sr ref < 2 ^ 31 -> au_sr deg = au_sr ref ->
    Z.of_nat (length (au_data ref)) < 2 ^ 30 -> Z.of_nat (length (au_data deg)) < 2 ^ 30 -> (0 < bk_bands k)%nat ->
    build speech k ref w = (k1, Ret rs) -> build speech k1 deg w = (k2, Ret ds) ->
    prepare_spectrograms (sp_data rs) (sp_data ds) = Ret (A, B) ->
    create_patches (Z.of_nat p) A idx = Ret refs -> calc_frame_duration w (au_sr ref) = Ret fd ->
    find_most_optimal_deg_patches measure_patch_similarity refs idx B fd radius = Ret sims ->
    (exists l, snd (finely_align measure_patch_similarity pf speech w ref deg k2 sims) = Ret l) \/
    (e = 1 /\ snd (finely_align measure_patch_similarity pf speech w ref deg k2 sims) = Throw).
  Proof.
    intros K He EH Hh Hw Hp Ev Hp' W Hsr Hs Hr Hd Hk B1 B2 EP EC EF EM.
    apply build_inv in B1. destruct B1 as (R1 & _ & _ & K1 & _ & h1 & EH1 & _ & L1 & C1).
    apply build_inv in B2. destruct B2 as (R2 & _ & _ & K2 & _ & h2 & EH2 & _ & L2 & C2).
    rewrite EH in EH1, EH2. injection EH1 as <-. injection EH2 as <-.
    apply prepare_inv in EP. destruct EP as [[RA CA] [RB CB]].
    unfold calc_frame_duration in EF. rewrite EH in EF. destruct (0 <=? h); [|discriminate]. injection EF as <-.
    destruct (sims_timed measure_patch_similarity w h (au_sr ref) p (length (au_data ref)) (length (au_data deg)) A B idx refs radius sims) as [PB TM];
      try lia; try assumption.
    apply (fine_all pf speech w ref deg e h (Z.of_nat p)); try assumption; try lia.
  Qed.
End FineSafe.
