(** GloballyAlign, AlignAndTruncate and Slice. *)
From Coq Require Import ZArith List Bool Lia Arith.
From Coq Require Import ZifyBool ZifyNat.
From Verif Require Import Base.Res Base.Num Base.Lists Base.Mat Model.Amatrix Model.MiscMath Model.Fft
  Model.FilterBank Model.Alignment Model.PatchCreator Model.Selector Spec.AlignSpec Proofs.FftP.
Import ListNotations.
Open Scope Z_scope.
Ltac Zify.zify_post_hook ::= Z.div_mod_to_equations.

Section Align.
  Context {T : Type} {N : Num T}.

  Lemma v_rows_inv (l : list T) a b m : v_rows l a b = Ret m ->
    0 <= a <= b /\ b < Z.of_nat (length l) /\
    m = firstn (Z.to_nat (b - a + 1)) (skipn (Z.to_nat a) l) /\ length m = Z.to_nat (b - a + 1).
  Proof.
    unfold v_rows. destruct (_ && _) eqn:E; [|discriminate]. intros H. injection H as <-.
    apply andb_true_iff in E. destruct E as [E1 E3]. apply andb_true_iff in E1. destruct E1 as [E1 E2].
    rewrite firstn_length, skipn_length. repeat split; lia.
  Qed.
  Lemma v_rows_ret (l : list T) a b : 0 <= a <= b -> b < Z.of_nat (length l) ->
    v_rows l a b = Ret (firstn (Z.to_nat (b - a + 1)) (skipn (Z.to_nat a) l)).
  Proof.
    intros H1 H2. unfold v_rows.
    replace (_ && _) with true; [reflexivity|]. symmetry. rewrite !andb_true_iff. lia.
  Qed.

  Lemma size_small z : 0 <= z < two64 -> size_of z = z.
  Proof. intros H. unfold size_of. apply Z.mod_small. exact H. Qed.
  Lemma size_neg z : - two64 < z < 0 -> size_of z = z + two64.
  Proof. intros H. unfold size_of. replace z with (z + two64 + (-1) * two64) at 1 by lia.
    rewrite Z.mod_add by (unfold two64; lia). apply Z.mod_small. lia. Qed.

  (** comparisons with half a length are exact *)
  Definition half_exact (bound : Z) : Prop := forall n k, 0 <= n < bound -> 0 <= k < bound ->
    nltb (ndiv (nofZ n) (nofZ 2)) (nofZ k) = (n <? 2 * k).
  (** int((k / sr) * sr) is between 0 and k *)
  Definition lag_back (bound : Z) : Prop := forall k sr, 0 <= k < bound -> 1 <= sr < bound ->
    exists a, 0 <= a <= k /\ to_int (nmul (ndiv (nofZ k) (nofZ sr)) (nofZ sr)) = Ret a.
  Definition zero_back (bound : Z) : Prop := forall sr, 1 <= sr < bound ->
    to_int (nmul n0 (nofZ sr)) = Ret 0.

  (** *** what GloballyAlign does with the lag *)
  Lemma apply_lag_cases (ref deg : audio T) g d t : half_exact (2 ^ 53) ->
    Z.of_nat (length (au_data ref)) < 2 ^ 53 -> Z.abs g < 2 ^ 53 -> Z.of_nat (length (au_data deg)) < two64 ->
    apply_lag ref deg g = Ret (d, t) ->
    aligned_by ref deg d t.
  Proof.
    intros HX Hr Hg Hd. unfold apply_lag, aligned_by, nofnat.
    rewrite HX by lia.
    destruct (Z.eqb_spec g 0) as [->|G0]; cbn [orb].
    { intros H. injection H as <- <-. left. auto. }
    destruct (Z.ltb_spec (Z.of_nat (length (au_data ref))) (2 * Z.abs g)) as [C|C]; cbn [orb].
    { intros H. injection H as <- <-. left. auto. }
    destruct (Z.ltb_spec g 0) as [G1|G1].
    - destruct (v_rows _ _ _) as [m| | |] eqn:E; try discriminate. cbn [bind]. intros H. injection H as <- <-.
      apply v_rows_inv in E. destruct E as (E1 & E2 & E3 & E4).
      assert (L0 : 1 <= Z.of_nat (length (au_data deg))) by lia.
      rewrite size_small in E1, E2, E3, E4 by lia.
      right. left. exists (Z.to_nat (- g)). split; [lia|]. split; [lia|]. cbn [au_data au_sr].
      replace (Z.abs g) with (- g) in * by lia.
      split; [|split; [reflexivity|]].
      + rewrite E3. apply firstn_all2. rewrite skipn_length. lia.
      + f_equal. f_equal. lia.
    - cbn [bind]. intros H. injection H as <- <-. right. right. exists (Z.to_nat g). split; [lia|]. split; [lia|].
      split; [reflexivity|]. split; [reflexivity|]. f_equal. f_equal. lia.
  Qed.

  (** *** AlignAndTruncate *)
  Notation part := (@part_of T).
  Lemma part_refl (l : list T) : part l l.
  Proof. exists 0%nat. cbn [skipn]. now rewrite firstn_all. Qed.
  Lemma v_rows_part (l : list T) a b m : v_rows l a b = Ret m -> part l m.
  Proof.
    intros H. apply v_rows_inv in H. destruct H as (_ & _ & E & L). exists (Z.to_nat a). rewrite L. exact E.
  Qed.

  Lemma truncate_equal (ref deg aligned r' d' : audio T) lag lag' :
    au_sr ref = au_sr deg -> Z.of_nat (length (au_data aligned)) < two64 -> Z.of_nat (length (au_data ref)) < two64 ->
    truncate_aligned ref deg aligned lag = Ret (r', d', lag') ->
    length (au_data r') = length (au_data d') /\ part (au_data ref) (au_data r') /\
    part (au_data aligned) (au_data d') /\ au_sr r' = au_sr ref /\ au_sr d' = au_sr deg /\ lag' = lag.
  Proof.
    intros Hs Hb Hr. unfold truncate_aligned.
    set (r := au_data ref) in *. set (d := au_data aligned) in *.
    destruct (Z.ltb_spec (Z.of_nat (length d)) (Z.of_nat (length r))) as [C|C].
    - destruct (v_rows r _ _) as [m| | |] eqn:E; try discriminate. cbn [bind]. intros H. injection H as <- <- <-.
      cbn [au_data au_sr]. pose proof (v_rows_part _ _ _ _ E) as P. apply v_rows_inv in E. destruct E as (E1 & E2 & _ & E4).
      split; [|auto 6 using part_refl].
      destruct (Z.eq_dec (Z.of_nat (length d)) 0) as [Z0|Z0].
      + rewrite Z0 in E2. change (size_of (0 - 1)) with (two64 - 1) in E2. lia.
      + rewrite size_small in E4 by (unfold two64 in *; lia). lia.
    - destruct (Z.ltb_spec (Z.of_nat (length r)) (Z.of_nat (length d))) as [D|D].
      + rewrite Hs. destruct (to_int _) as [a| | |]; try discriminate. cbn [bind].
        destruct (v_rows r _ _) as [m| | |] eqn:E; try discriminate. cbn [bind].
        destruct (v_rows d _ _) as [m'| | |] eqn:E'; try discriminate. cbn [bind]. intros H. injection H as <- <- <-.
        cbn [au_data au_sr]. split; [|eauto 10 using v_rows_part].
        apply v_rows_inv in E. apply v_rows_inv in E'. destruct E as (_ & _ & _ & E). destruct E' as (_ & _ & _ & E').
        congruence.
      + cbn [bind]. intros H. injection H as <- <- <-. cbn [au_data au_sr].
        split; [lia|]. auto using part_refl.
  Qed.

  Lemma align_and_truncate_equal pf (ref deg r' d' : audio T) lag :
    au_sr ref = au_sr deg -> Z.of_nat (length (au_data ref)) < two64 ->
    (forall d t, globally_align pf ref deg = Ret (d, t) -> Z.of_nat (length (au_data d)) < two64) ->
    align_and_truncate pf ref deg = Ret (r', d', lag) ->
    exists aligned, globally_align pf ref deg = Ret (aligned, lag) /\
      length (au_data r') = length (au_data d') /\ part (au_data ref) (au_data r') /\
      part (au_data aligned) (au_data d').
  Proof.
    intros Hs Hr Hb H. unfold align_and_truncate in H.
    destruct (globally_align pf ref deg) as [[al t]| | |] eqn:E; try discriminate. cbn [bind] in H.
    destruct (truncate_equal _ _ _ _ _ _ _ Hs (Hb _ _ eq_refl) Hr H) as (A & B & C & _ & _ & ->). exists al. auto.
  Qed.

  (** lengths of the aligned signal *)
  Lemma aligned_by_length ref deg d t : aligned_by ref deg d t ->
    (2 * length (au_data d) <= 2 * length (au_data deg) + length (au_data ref))%nat.
  Proof.
    intros [(-> & _)|[(k & K1 & K2 & K3 & _)|(k & K1 & K2 & K3 & _)]]; [lia| |].
    - rewrite K3, skipn_length. lia.
    - rewrite K3, app_length, repeat_length. lia.
  Qed.

  (** no failure when the degraded signal is at most as long as the reference and more than half as long *)
  Lemma apply_lag_returns (ref deg : audio T) g : half_exact (2 ^ 53) ->
    Z.of_nat (length (au_data ref)) < 2 ^ 31 -> Z.abs g < 2 ^ 53 ->
    (length (au_data ref) < 2 * length (au_data deg))%nat -> Z.of_nat (length (au_data deg)) < 2 ^ 31 ->
    exists d t, apply_lag ref deg g = Ret (d, t).
  Proof.
    intros HX Hr Hg Hd Hd'. unfold apply_lag, nofnat. rewrite HX by lia.
    destruct (Z.eqb_spec g 0) as [->|G0]; cbn [orb]; [eauto|].
    destruct (Z.ltb_spec (Z.of_nat (length (au_data ref))) (2 * Z.abs g)) as [C|C]; cbn [orb]; [eauto|].
    destruct (Z.ltb_spec g 0) as [G1|G1]; [|cbn [bind]; eauto].
    rewrite size_small by (unfold two64; lia). rewrite v_rows_ret by lia. cbn [bind]. eauto.
  Qed.

  Lemma truncate_returns (ref deg aligned : audio T) t :
    half_exact (2 ^ 53) -> lag_back (2 ^ 31) -> zero_back (2 ^ 31) ->
    aligned_by ref deg aligned t ->
    (1 <= length (au_data deg))%nat -> (length (au_data deg) <= length (au_data ref))%nat ->
    Z.of_nat (length (au_data ref)) < 2 ^ 30 -> 1 <= au_sr ref < 2 ^ 31 -> au_sr deg = au_sr ref ->
    exists r' d' t', truncate_aligned ref deg aligned t = Ret (r', d', t').
  Proof.
    intros HX HL HZ HA H1 H2 H3 Hsr Hs. unfold truncate_aligned.
    destruct HA as [(-> & ->)|[(k & K1 & K2 & K3 & K4 & ->)|(k & K1 & K2 & K3 & K4 & ->)]].
    - destruct (Z.ltb_spec (Z.of_nat (length (au_data deg))) (Z.of_nat (length (au_data ref)))).
      + rewrite size_small by (unfold two64; lia). rewrite v_rows_ret by lia. cbn [bind]. eauto.
      + destruct (Z.ltb_spec (Z.of_nat (length (au_data ref))) (Z.of_nat (length (au_data deg)))); [lia|].
        cbn [bind]. eauto.
    - assert (L : length (au_data aligned) = (length (au_data deg) - k)%nat) by (rewrite K3; apply skipn_length).
      rewrite L. destruct (Z.ltb_spec (Z.of_nat (length (au_data deg) - k)) (Z.of_nat (length (au_data ref)))); [|lia].
      rewrite size_small by (unfold two64; lia). rewrite v_rows_ret by lia. cbn [bind]. eauto.
    - assert (L : length (au_data aligned) = (k + length (au_data deg))%nat) by (rewrite K3, app_length, repeat_length; lia).
      destruct (Z.ltb_spec (Z.of_nat (length (au_data aligned))) (Z.of_nat (length (au_data ref)))).
      + rewrite size_small by (unfold two64; lia). rewrite v_rows_ret by lia. cbn [bind]. eauto.
      + destruct (Z.ltb_spec (Z.of_nat (length (au_data ref))) (Z.of_nat (length (au_data aligned)))); [|cbn [bind]; eauto].
        rewrite Hs. destruct (HL (Z.of_nat k) (au_sr ref)) as (a & A1 & A2); [lia|exact Hsr|]. rewrite A2. cbn [bind].
        rewrite !size_small by (unfold two64; lia). rewrite !v_rows_ret by lia. cbn [bind]. eauto.
  Qed.

  Lemma align_and_truncate_returns pf (ref deg : audio T) :
    half_exact (2 ^ 53) -> lag_back (2 ^ 31) -> zero_back (2 ^ 31) -> keeps_length pf ->
    (length (au_data ref) < 2 * length (au_data deg))%nat -> (length (au_data deg) <= length (au_data ref))%nat ->
    Z.of_nat (length (au_data ref)) < 2 ^ 30 -> 1 <= au_sr ref < 2 ^ 31 -> au_sr deg = au_sr ref ->
    exists r' d' t, align_and_truncate pf ref deg = Ret (r', d', t).
  Proof.
    intros HX HL HZ K H1 H2 H3 Hsr Hs. unfold align_and_truncate, globally_align.
    destruct (envelope_returns pf (au_data ref) K ltac:(lia)) as (re & RE & RL).
    destruct (envelope_returns pf (au_data deg) K ltac:(lia)) as (de & DE & DL).
    rewrite RE, DE. cbn [bind].
    destruct (lag_returns pf re de K ltac:(lia) ltac:(lia)) as (g & G & GB). rewrite G. cbn [bind].
    destruct (apply_lag_returns ref deg g HX ltac:(lia) ltac:(lia) ltac:(lia) ltac:(lia)) as (d & t & E). rewrite E. cbn [bind].
    apply (truncate_returns ref deg d t HX HL HZ); try assumption; try lia.
    apply (apply_lag_cases ref deg g d t HX); try assumption; try lia. unfold two64; lia.
  Qed.

  (** *** GloballyAlign *)
  Lemma globally_align_cases pf (ref deg : audio T) d t : half_exact (2 ^ 53) -> keeps_length pf ->
    1 <= Z.of_nat (length (au_data ref)) < 2 ^ 30 -> 1 <= Z.of_nat (length (au_data deg)) < 2 ^ 30 ->
    globally_align pf ref deg = Ret (d, t) -> aligned_by ref deg d t.
  Proof.
    intros HX K H1 H2 H. unfold globally_align in H.
    destruct (envelope_returns pf (au_data ref) K ltac:(lia)) as (re & RE & RL).
    destruct (envelope_returns pf (au_data deg) K ltac:(lia)) as (de & DE & DL).
    rewrite RE, DE in H. cbn [bind] in H.
    destruct (lag_returns pf re de K ltac:(lia) ltac:(lia)) as (g & G & GB). rewrite G in H. cbn [bind] in H.
    apply (apply_lag_cases ref deg g d t HX); try assumption; try lia. unfold two64; lia.
  Qed.

  (** *** Slice: the interval ends before the last sample *)
  Lemma interval_inside (l : list T) i j : 0 <= i <= j -> j <= Z.of_nat (length l) ->
    interval l i j = firstn (Z.to_nat (j - i)) (skipn (Z.to_nat i) l).
  Proof.
    intros H1 H2. apply (list_ext _ _ n0).
    - unfold interval. rewrite map_length, seq_length, firstn_length, skipn_length. lia.
    - unfold interval. rewrite map_length, seq_length. intros m Hm. rewrite nth_map_seq by exact Hm. cbn zeta.
      destruct (Z.ltb_spec (i + Z.of_nat m) 0); [lia|]. rewrite nth_firstn, nth_skipn by lia. f_equal. lia.
  Qed.
  Lemma interval_before (l : list T) i j : i <= 0 <= j ->
    interval l i j = repeat n0 (Z.to_nat (- i)) ++ interval l 0 j.
  Proof.
    intros H. apply (list_ext _ _ n0).
    - unfold interval. rewrite app_length, !map_length, !seq_length, repeat_length. lia.
    - unfold interval at 1. rewrite map_length, seq_length. intros m Hm. unfold interval at 1. rewrite nth_map_seq by exact Hm. cbn zeta.
      destruct (Z.ltb_spec (i + Z.of_nat m) 0).
      + rewrite app_nth1 by (rewrite repeat_length; lia). symmetry. apply nth_repeat.
      + rewrite app_nth2 by (rewrite repeat_length; lia). rewrite repeat_length. unfold interval.
        rewrite nth_map_seq by lia. cbn zeta. destruct (Z.ltb_spec (0 + Z.of_nat (m - Z.to_nat (- i))) 0); [lia|]. f_equal. lia.
  Qed.

  Lemma slice_spec (s : audio T) t1 t2 i j :
    to_int (nmul t1 (nofZ (au_sr s))) = Ret i -> to_int (nmul t2 (nofZ (au_sr s))) = Ret j ->
    i < j -> 0 < j < Z.of_nat (length (au_data s)) -> Z.of_nat (length (au_data s)) <= 2 ^ 31 ->
    nltb t1 n0 = (i <? 0) -> (i < 0 -> to_size (nmul (nmul (nofZ (-1)) t1) (nofZ (au_sr s))) = Ret (- i)) ->
    nltb n0 (nsub (nmul t2 (nofZ (au_sr s))) (nofZ (Z.of_nat (length (au_data s))))) = false ->
    slice s t1 t2 = Ret (MkAudio (interval (au_data s) i j) (au_sr s)).
  Proof.
    intros E1 E2 H0 H1 H3 N1 N1' N2. unfold slice. rewrite E1, E2. cbn [bind].
    rewrite (size_small (Z.of_nat (length (au_data s)) - 1)) by (unfold two64; lia).
    assert (IO : int_of (Z.of_nat (length (au_data s)) - 1) = Z.of_nat (length (au_data s)) - 1).
    { unfold int_of. rewrite Z.mod_small by lia. destruct (Z.ltb_spec (Z.of_nat (length (au_data s)) - 1) (2 ^ 31)); lia. }
    rewrite IO. replace (Z.min (Z.of_nat (length (au_data s)) - 1) j) with j by lia.
    rewrite size_small by (unfold two64; lia). rewrite v_rows_ret by lia. cbn [bind]. rewrite N2, N1. cbn [bind].
    destruct (Z.ltb_spec i 0) as [C|C].
    - rewrite N1' by exact C. cbn [bind]. rewrite interval_before, interval_inside by lia.
      replace (Z.max 0 i) with 0 by lia. replace (j - 1 - 0 + 1) with (j - 0) by lia. reflexivity.
    - cbn [bind]. rewrite interval_inside by lia. replace (Z.max 0 i) with i by lia.
      replace (j - 1 - i + 1) with (j - i) by lia. reflexivity.
  Qed.
End Align.
