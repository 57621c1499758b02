(** Reported times of realigned pairs (C97). *)
From Coq Require Import ZArith List Bool Reals Lra Lia.
From Coq Require Import ZifyBool ZifyNat.
From Verif Require Import Base.Res Base.Num Base.NumR Base.Lists Base.Mat Model.Amatrix Model.MiscMath Model.Window
  Model.FilterBank Model.Spectrogram Model.Nsim Model.Fft Model.Alignment Model.Selector
  Spec.AlignSpec Spec.PieceSpec Proofs.RealP Proofs.FftP Proofs.AlignP Proofs.AlignCasesP Proofs.FineP.
Import ListNotations.
Open Scope Z_scope.

(** *** pieces *)
Lemma interval_length {T} {N : Num T} (l : list T) i j : length (interval l i j) = Z.to_nat (j - i).
Proof. unfold interval. now rewrite map_length, seq_length. Qed.
Lemma interval_first {T} {N : Num T} (l : list T) i j n : Z.of_nat n <= j - i -> firstn n (interval l i j) = interval l i (i + Z.of_nat n).
Proof.
  intros H. unfold interval. rewrite firstn_map. f_equal. replace (Z.to_nat (i + Z.of_nat n - i)) with n by lia.
  replace (Z.to_nat (j - i)) with (n + (Z.to_nat (j - i) - n))%nat by lia. rewrite seq_app, firstn_app, seq_length, Nat.sub_diag. cbn [firstn]. rewrite app_nil_r. apply firstn_all2. rewrite seq_length. lia.
Qed.
Lemma interval_skip {T} {N : Num T} (l : list T) i j n : Z.of_nat n <= j - i -> skipn n (interval l i j) = interval l (i + Z.of_nat n) j.
Proof.
  intros H. unfold interval. rewrite skipn_map. replace (Z.to_nat (j - i)) with (n + Z.to_nat (j - (i + Z.of_nat n)))%nat by lia.
  rewrite seq_app, skipn_app, seq_length, Nat.sub_diag. cbn [skipn]. rewrite skipn_all2 by (rewrite seq_length; lia). cbn [app Nat.add].
  set (m := Z.to_nat (j - (i + Z.of_nat n))). clearbody m. clear H.
  assert (G : forall o, map (fun m0 => let z := i + Z.of_nat m0 in if z <? 0 then n0 else nth (Z.to_nat z) l n0) (seq (n + o) m) =
    map (fun m0 => let z := i + Z.of_nat n + Z.of_nat m0 in if z <? 0 then n0 else nth (Z.to_nat z) l n0) (seq o m)).
  { induction m as [|m IH]; intros o; [reflexivity|]. cbn [seq map]. f_equal.
    - cbv zeta. replace (i + Z.of_nat (n + o)) with (i + Z.of_nat n + Z.of_nat o) by lia. reflexivity.
    - rewrite <- Nat.add_succ_r. apply IH. }
  specialize (G 0%nat). rewrite Nat.add_0_r in G. exact G.
Qed.

(** *** alignment and truncation of two pieces of the same length *)
Lemma aligned_pieces pf (ra da ra' da' : audio R) lag : keeps_length pf -> au_sr ra = au_sr da -> 1 <= au_sr da ->
  length (au_data ra) = length (au_data da) -> 1 <= Z.of_nat (length (au_data ra)) < 2 ^ 30 ->
  align_and_truncate pf ra da = Ret (ra', da', lag) -> au_sr ra' = au_sr ra /\ au_sr da' = au_sr da /\ let n := length (au_data ra) in
  exists g, (2 * g <= n)%nat /\
    ((lag = - (IZR (Z.of_nat g) / IZR (au_sr da)) /\ au_data ra' = firstn (n - g) (au_data ra) /\ au_data da' = skipn g (au_data da)) \/
     ((1 <= g)%nat /\ lag = IZR (Z.of_nat g) / IZR (au_sr da) /\ au_data ra' = skipn g (au_data ra) /\ au_data da' = firstn (n - g) (au_data da)))%R.
Proof.
  intros K ES HS EL HL H. unfold align_and_truncate in H. destruct (globally_align pf ra da) as [[al t]| | |] eqn:G; try discriminate. cbn [bind] in H.
  pose proof (globally_align_cases pf ra da al t (half_exact_R _) K HL ltac:(rewrite <- EL; exact HL) G) as C.
  assert (LA : forall l, Z.of_nat (length (au_data al)) = l -> truncate_aligned ra da al t = Ret (ra', da', lag)) by (intros; exact H).
  unfold truncate_aligned in H. destruct C as [[-> ->]|[(g & G1 & G2 & E1 & E2 & ->)|(g & G1 & G2 & E1 & E2 & ->)]].
  - rewrite <- EL, Z.ltb_irrefl in H. cbn [bind] in H. injection H as <- <- <-. cbn [au_data au_sr]. split; [reflexivity|]. split; [reflexivity|]. exists 0%nat. split; [lia|]. left.
    rewrite Nat.sub_0_r, firstn_all. split; [|split; reflexivity]. change (@n0 R NumR) with 0%R. cbn. unfold Rdiv. ring.
  - rewrite E1, skipn_length in H. replace (Z.of_nat (length (au_data da) - g) <? Z.of_nat (length (au_data ra))) with true in H by lia.
    rewrite size_small in H by (unfold two64; lia). rewrite v_rows_ret in H by lia. cbn [bind] in H. injection H as <- <- <-. cbn [au_data au_sr].
    split; [reflexivity|]. split; [reflexivity|]. exists g. split; [lia|]. left. split; [|split; [|reflexivity]].
    + cbn [ndiv nofZ NumR]. rewrite opp_IZR. unfold Rdiv. ring.
    + cbn [skipn Z.to_nat]. f_equal. lia.
  - rewrite E1, app_length, repeat_length in H. replace (Z.of_nat (g + length (au_data da)) <? Z.of_nat (length (au_data ra))) with false in H by lia.
    replace (Z.of_nat (length (au_data ra)) <? Z.of_nat (g + length (au_data da))) with true in H by lia.
    rewrite ES in H. rewrite lag_exact_R in H by lia. cbn [bind] in H. rewrite !size_small in H by (unfold two64; lia).
    rewrite v_rows_ret in H by lia. cbn [bind] in H. rewrite v_rows_ret in H by (rewrite ?app_length, ?repeat_length; lia). cbn [bind] in H. injection H as <- <- <-. cbn [au_data au_sr].
    split; [exact (eq_sym ES)|]. split; [reflexivity|]. exists g. split; [lia|]. right. split; [lia|]. split; [reflexivity|]. rewrite Nat2Z.id. split.
    + apply firstn_all2. rewrite skipn_length. lia.
    + rewrite skipn_app, repeat_length, Nat.sub_diag. cbn [skipn]. rewrite skipn_all2 by (rewrite repeat_length; lia). cbn [app]. f_equal. lia.
Qed.

(** *** one realigned result *)
Section One.
  Context {L : Libm R}.
  Variable measure : mat R -> mat R -> res (psr R).
  Variable pf : pffft R.
  Variable speech : bool.
  Variable w : window R.
  Variables ref deg : audio R.
  Hypothesis K : keeps_length pf.

  Lemma one_times k r k' r' a b c d : finely_align_one measure pf speech w ref deg k r = (k', Ret r') ->
    au_sr ref = au_sr deg -> 1 <= au_sr deg -> Z.of_nat (length (au_data ref)) < 2 ^ 30 -> Z.of_nat (length (au_data deg)) < 2 ^ 30 ->
    let sr := au_sr deg in
    (ps_ref_start r = IZR a / IZR sr /\ ps_ref_end r = IZR b / IZR sr /\ ps_deg_start r = IZR c / IZR sr /\ ps_deg_end r = IZR d / IZR sr)%R ->
    0 <= a < b -> b < Z.of_nat (length (au_data ref)) -> 0 <= c < d -> d < Z.of_nat (length (au_data deg)) -> b - a = d - c ->
    r' = r \/
    exists a' b' c' d', a <= a' < b' /\ b' <= b /\ c <= c' < d' /\ d' <= d /\ b' - a' = d' - c' /\ 2 * (b' - a') >= b - a /\
      (ps_ref_start r' = IZR a' / IZR sr /\ ps_ref_end r' = IZR b' / IZR sr /\ ps_deg_start r' = IZR c' / IZR sr /\ ps_deg_end r' = IZR d' / IZR sr)%R /\
      compares measure speech w (MkAudio (interval (au_data ref) a' b') sr) (MkAudio (interval (au_data deg) c' d') sr) r'.
  Proof.
    intros H ES HS LR LD sr (T1 & T2 & T3 & T4) HA HB HC HD HE. unfold finely_align_one in H. destruct (is_lost r); [injection H as _ <-; now left|].
    rewrite T1, T2, T3, T4 in H. unfold sr in H. rewrite <- ES in H at 1 2. rewrite slice_R in H by lia. cbn [bind] in H. rewrite slice_R in H by lia. cbn [bind] in H. rewrite ES in H.
    destruct (align_and_truncate pf _ _) as [[[ra' da'] lag]| | |] eqn:AT; try discriminate.
    destruct (build speech k ra' w) as [k1 [rspec| | |]] eqn:B1; try discriminate.
    destruct (build speech k1 da' w) as [k2 [dspec| | |]] eqn:B2; cbn [bind] in H; try discriminate.
    destruct (prepare_spectrograms _ _) as [[A B]| | |] eqn:PS; cbn [bind] in H; try discriminate.
    destruct (measure A B) as [new| | |] eqn:ME; cbn [bind] in H; try discriminate.
    injection H as _ <-. unfold merge_result. destruct (nltb (ps_sim new) (ps_sim r)); [now left|]. right.
    apply aligned_pieces in AT; [|exact K|reflexivity|exact HS|cbn [au_data]; rewrite !interval_length; lia|cbn [au_data]; rewrite interval_length; lia].
    cbn [au_data au_sr] in AT. rewrite interval_length in AT. fold sr in AT. destruct AT as (S1 & S2 & g & G & AT).
    assert (SP : (1 <= IZR sr)%R) by (apply IZR_le; exact HS).
    assert (ER : ra' = MkAudio (au_data ra') sr) by (destruct ra' as [q1 q2]; cbn [au_data au_sr] in S1 |- *; rewrite S1; reflexivity).
    assert (ED : da' = MkAudio (au_data da') sr) by (destruct da' as [q1 q2]; cbn [au_data au_sr] in S2 |- *; rewrite S2; reflexivity).
    rewrite S1, S2. cbn [ps_ref_start ps_ref_end ps_deg_start ps_deg_end]. cbn [nadd nsub NumR]. change (@n0 R NumR) with 0%R. rewrite T1, T3. fold sr.
    destruct AT as [(LG & DR & DD)|(G1 & LG & DR & DD)].
    - rewrite interval_first in DR by lia. rewrite interval_skip in DD by lia.
      replace (nltb 0%R lag) with false. 2:{ symmetry. cbn [nltb NumR]. apply Rltb_false. rewrite LG. assert (0 <= IZR (Z.of_nat g) / IZR sr)%R; [|lra]. apply Rmult_le_pos; [apply IZR_le; lia|left; apply Rinv_0_lt_compat; lra]. }
      exists a, (a + Z.of_nat (Z.to_nat (b - a) - g)), (c + Z.of_nat g), d. do 6 (split; [lia|]). split.
      + rewrite DR, DD, !interval_length, LG. repeat split.
        * rewrite <- Rdiv_plus_distr, <- plus_IZR. do 2 f_equal. lia.
        * rewrite plus_IZR. unfold Rdiv. ring.
        * replace (IZR c / IZR sr - - (IZR (Z.of_nat g) / IZR sr) + IZR (Z.of_nat (Z.to_nat (d - (c + Z.of_nat g)))) / IZR sr)%R with ((IZR c + IZR (Z.of_nat g) + IZR (Z.of_nat (Z.to_nat (d - (c + Z.of_nat g))))) / IZR sr)%R by (unfold Rdiv; ring).
          rewrite <- !plus_IZR. do 2 f_equal. lia.
      + rewrite <- DR, <- DD, <- ER, <- ED. exists k, k1, k2, rspec, dspec, A, B, new. cbn. auto 10.
    - rewrite interval_skip in DR by lia. rewrite interval_first in DD by lia.
      replace (nltb 0%R lag) with true. 2:{ symmetry. cbn [nltb NumR]. apply Rltb_true. rewrite LG. apply Rmult_lt_0_compat; [apply IZR_lt; lia|apply Rinv_0_lt_compat; lra]. }
      exists (a + Z.of_nat g), b, c, (c + Z.of_nat (Z.to_nat (b - a) - g)). do 6 (split; [lia|]). split.
      + rewrite DR, DD, !interval_length, LG. repeat split.
        * rewrite plus_IZR. unfold Rdiv. ring.
        * rewrite <- !Rdiv_plus_distr, <- !plus_IZR. do 2 f_equal. lia.
        * rewrite <- Rdiv_plus_distr, <- plus_IZR. do 2 f_equal. lia.
      + rewrite <- DR, <- DD, <- ER, <- ED. exists k, k1, k2, rspec, dspec, A, B, new. cbn. auto 10.
  Qed.

  Lemma all_times rs : forall k k' l i r r' a b c d, finely_align measure pf speech w ref deg k rs = (k', Ret l) -> nth_error rs i = Some r -> nth_error l i = Some r' ->
    au_sr ref = au_sr deg -> 1 <= au_sr deg -> Z.of_nat (length (au_data ref)) < 2 ^ 30 -> Z.of_nat (length (au_data deg)) < 2 ^ 30 ->
    let sr := au_sr deg in
    (ps_ref_start r = IZR a / IZR sr /\ ps_ref_end r = IZR b / IZR sr /\ ps_deg_start r = IZR c / IZR sr /\ ps_deg_end r = IZR d / IZR sr)%R ->
    0 <= a < b -> b < Z.of_nat (length (au_data ref)) -> 0 <= c < d -> d < Z.of_nat (length (au_data deg)) -> b - a = d - c ->
    r' = r \/
    exists a' b' c' d', a <= a' < b' /\ b' <= b /\ c <= c' < d' /\ d' <= d /\ b' - a' = d' - c' /\ 2 * (b' - a') >= b - a /\
      (ps_ref_start r' = IZR a' / IZR sr /\ ps_ref_end r' = IZR b' / IZR sr /\ ps_deg_start r' = IZR c' / IZR sr /\ ps_deg_end r' = IZR d' / IZR sr)%R /\
      compares measure speech w (MkAudio (interval (au_data ref) a' b') sr) (MkAudio (interval (au_data deg) c' d') sr) r'.
  Proof.
    induction rs as [|x rs IH]; intros k k' l i r r' a b c d H N1 N2; cbn [finely_align] in H; [destruct i; discriminate|].
    destruct (finely_align_one measure pf speech w ref deg k x) as [k1 [y| | |]] eqn:E1; try discriminate.
    destruct (finely_align measure pf speech w ref deg k1 rs) as [k2 [ys| | |]] eqn:E2; cbn [bind] in H; try discriminate.
    injection H as _ <-. destruct i as [|i]; cbn [nth_error] in N1, N2.
    - injection N1 as <-. injection N2 as <-. exact (one_times k x k1 y a b c d E1).
    - exact (IH k1 k2 ys i r r' a b c d E2 N1 N2).
  Qed.
End One.
