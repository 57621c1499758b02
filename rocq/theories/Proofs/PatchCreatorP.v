(** Lemmas about Model/PatchCreator.v and Model/RmsVad.v. *)
From Coq Require Import ZArith List Lia Bool Arith ZifyBool ZifyNat ZifyN.
From Verif Require Import Base.Res Base.Num Base.Lists Base.Mat Model.Amatrix Model.MiscMath
  Model.RmsVad Model.PatchCreator.
Import ListNotations.
Open Scope Z_scope.
Ltac Zify.zify_post_hook ::= Z.div_mod_to_equations.

(** *** image_patch_creator: the index loop in closed form *)
Lemma index_loop_closed p : 0 < p ->
  forall fuel i m, Z.of_nat fuel > Z.max 0 ((m - i + p - 1) / p) ->
  index_loop fuel i m p =
  Some (map (fun k => size_of (i + Z.of_nat k * p - 1))
            (seq 0 (Z.to_nat ((m - i + p - 1) / p)))).
Proof.
  intros Hp. induction fuel as [|f IH]; intros i m Hf; cbn [index_loop]; [lia|].
  destruct (i <? m) eqn:E.
  - apply Z.ltb_lt in E.
    assert (Hn : (m - i + p - 1) / p = (m - (i + p) + p - 1) / p + 1).
    { replace (m - i + p - 1) with ((m - (i + p) + p - 1) + 1 * p) by lia.
      rewrite Z.div_add by lia. reflexivity. }
    assert (H0 : 0 <= (m - (i + p) + p - 1) / p) by (apply Z.div_pos; lia).
    rewrite IH by lia.
    rewrite Hn, Z2Nat.inj_add, Nat.add_comm by lia.
    change (Z.to_nat 1) with 1%nat. cbn [Nat.add seq map].
    f_equal. f_equal.
    + f_equal. lia.
    + rewrite <- seq_shift, map_map. apply map_ext. intros k. f_equal. lia.
  - apply Z.ltb_ge in E.
    assert ((m - i + p - 1) / p <= 0).
    { destruct (Z.le_gt_cases ((m - i + p - 1) / p) 0) as [|G]; [assumption|].
      assert (p * 1 <= p * ((m - i + p - 1) / p)) by (apply Z.mul_le_mono_nonneg_l; lia).
      pose proof (Z.mul_div_le (m - i + p - 1) p Hp). lia. }
    replace (Z.to_nat ((m - i + p - 1) / p)) with 0%nat by lia. reflexivity.
Qed.

Lemma size_of_small z : 0 <= z < two64 -> size_of z = z.
Proof. unfold size_of. apply Z.mod_small. Qed.

(** number of patches for a spectrogram of L frames *)
Definition patch_number (p L : Z) : nat := Z.to_nat (Z.max 1 ((L - p / 2 - 1) / p)).

Lemma create_ref_patch_indices_closed p L :
  2 <= p -> p + p / 2 <= L < two64 ->
  create_ref_patch_indices p L =
  Ret (map (fun k => p / 2 - 1 + Z.of_nat k * p) (seq 0 (patch_number p L))).
Proof.
  intros Hp [HL HL64]. unfold create_ref_patch_indices.
  assert (1 <= p / 2) by (apply Z.div_le_lower_bound; lia).
  destruct (L <? p + p / 2) eqn:E; [lia|].
  set (h := p / 2) in *.
  set (m := if h <? L - p then L - p else h + 1).
  assert (Hm : h < m <= L - p + 1) by (subst m; destruct (h <? L - p) eqn:?; lia).
  assert (Hn : (m - h + p - 1) / p = Z.max 1 ((L - h - 1) / p)).
  { subst m. destruct (h <? L - p) eqn:E2.
    - replace (L - p - h + p - 1) with (L - h - 1) by lia.
      rewrite Z.max_r; [reflexivity|]. apply Z.div_le_lower_bound; lia.
    - assert (L = p + h) by lia. subst L.
      replace (h + 1 - h + p - 1) with (1 * p) by lia. rewrite Z.div_mul by lia.
      replace (p + h - h - 1) with (p - 1) by lia.
      rewrite (Z.div_small (p - 1) p) by lia. reflexivity. }
  rewrite index_loop_closed; try lia.
  - rewrite Hn. f_equal. unfold patch_number. fold h. apply map_ext_in. intros k Hk.
    apply in_seq in Hk.
    assert (Hk' : Z.of_nat k < Z.max 1 ((L - h - 1) / p)) by lia.
    rewrite size_of_small; [lia|].
    rewrite <- Hn in Hk'.
    assert (Hkp : Z.of_nat k * p < m - h + p - 1).
    { assert (Z.of_nat k + 1 <= (m - h + p - 1) / p) by lia.
      pose proof (Z.mul_div_le (m - h + p - 1) p ltac:(lia)).
      assert (p * (Z.of_nat k + 1) <= p * ((m - h + p - 1) / p)) by (apply Z.mul_le_mono_nonneg_l; lia).
      lia. }
    assert (0 <= Z.of_nat k * p) by (apply Z.mul_nonneg_nonneg; lia).
    assert (p <= L) by lia. unfold two64 in *. 
    assert (Z.of_nat k * p <= m - h - 1).
    { assert (Z.of_nat k + 1 <= (m - h + p - 1) / p) by lia.
      pose proof (Z.mul_div_le (m - h + p - 1) p ltac:(lia)).
      assert (p * (Z.of_nat k + 1) <= p * ((m - h + p - 1) / p)) by (apply Z.mul_le_mono_nonneg_l; lia).
      lia. }
    lia.
  - assert ((m - h + p - 1) / p <= m).
    { apply Z.div_le_upper_bound; try lia. nia. }
    lia.
Qed.

Lemma patch_number_fits p L k :
  2 <= p -> p + p / 2 <= L -> (k < patch_number p L)%nat ->
  0 <= p / 2 - 1 + Z.of_nat k * p /\ p / 2 - 1 + Z.of_nat k * p + p <= L.
Proof.
  intros Hp HL Hk. unfold patch_number in Hk.
  assert (1 <= p / 2) by (apply Z.div_le_lower_bound; lia).
  assert (0 <= Z.of_nat k * p) by (apply Z.mul_nonneg_nonneg; lia).
  split; [lia|].
  destruct (Z.le_gt_cases ((L - p / 2 - 1) / p) 1) as [G|G].
  - assert (k = 0)%nat by lia. subst k. lia.
  - assert (Hk' : Z.of_nat k + 1 <= (L - p / 2 - 1) / p) by lia.
    pose proof (Z.mul_div_le (L - p / 2 - 1) p ltac:(lia)).
    assert (p * (Z.of_nat k + 1) <= p * ((L - p / 2 - 1) / p)) by (apply Z.mul_le_mono_nonneg_l; lia).
    lia.
Qed.

Lemma patch_number_pos p L : (1 <= patch_number p L)%nat.
Proof. unfold patch_number. lia. Qed.

(** frames left after the last patch *)
Lemma patch_number_rest p L :
  2 <= p -> p + p / 2 <= L ->
  1 <= L - (p / 2 - 1 + Z.of_nat (patch_number p L) * p) <= p + 1.
Proof.
  intros Hp HL. unfold patch_number.
  rewrite Z2Nat.id by lia.
  pose proof (Z.div_mod (L - p / 2 - 1) p ltac:(lia)) as D.
  pose proof (Z.mod_pos_bound (L - p / 2 - 1) p ltac:(lia)) as M.
  set (q := (L - p / 2 - 1) / p) in *. set (r := (L - p / 2 - 1) mod p) in *.
  set (h := p / 2) in *.
  destruct (Z.le_gt_cases q 0) as [G|G].
  - assert (q = 0) by (destruct (Z.eq_dec q 0); [assumption|]; assert (q <= -1) by lia; nia).
    rewrite Z.max_l by lia. nia.
  - rewrite Z.max_r by lia. nia.
Qed.

Lemma create_ref_patch_indices_short p L :
  L < p + p / 2 -> create_ref_patch_indices p L = Err InvalidArgument.
Proof. intros H. unfold create_ref_patch_indices. destruct (L <? p + p / 2) eqn:E; [reflexivity|lia]. Qed.

(** *** patches are spectrogram columns *)
Section Patches.
  Context {T : Type} {N : Num T}.

  Lemma create_patches_spec p (S : mat T) idx :
    1 <= p ->
    (forall s, In s idx -> 0 <= s /\ s + p <= Z.of_nat (ncols S) /\ s + p < two64) ->
    exists ps, create_patches p S idx = Ret ps /\ length ps = length idx /\
      forall k, (k < length idx)%nat ->
        let P := nth k ps (MkMat 0 0 []) in
        wf P /\ nrows P = nrows S /\ ncols P = Z.to_nat p /\
        forall r c, (r < nrows S)%nat -> (c < Z.to_nat p)%nat ->
          at_ P r c = at_ S r (Z.to_nat (nth k idx 0) + c).
  Proof.
    intros Hp. induction idx as [|i t IH]; intros H.
    - exists []. split; [reflexivity|]. split; [reflexivity|]. intros k Hk. simpl in Hk. lia.
    - destruct IH as (ps & E & Hl & Hs). { intros s Hs. apply H. right; assumption. }
      destruct (H i) as (H0 & H1 & H2). { left; reflexivity. }
      cbn [create_patches]. unfold m_cols. rewrite size_of_small by lia.
      replace ((i <=? i + p - 1) && (i + p - 1 <? Z.of_nat (ncols S)) && (0 <=? i)) with true by lia.
      cbn [bind]. rewrite E. cbn [bind].
      eexists. split; [reflexivity|]. split; [simpl; lia|].
      intros [|k] Hk; cbn [nth].
      + replace (i + p - 1 - i + 1) with p by lia.
        repeat split; try reflexivity; [apply tab_wf|].
        intros r c Hr Hc. unfold at_. rewrite mget_tab by assumption. reflexivity.
      + apply Hs. simpl in Hk. lia.
  Qed.

  (** *** RMS voice activity detector *)

  (** feeding a list of chunks *)
  Lemma process_chunks_results chunks s :
    each_chunk_result (fold_left process_chunk chunks s) =
      each_chunk_result s ++ map (fun c => negb (nltb (calc_rms c) kRmsThreshold)) chunks /\
    vad_results (fold_left process_chunk chunks s) = vad_results s.
  Proof.
    revert s; induction chunks as [|c cs IH]; intros s; cbn [fold_left map].
    - rewrite app_nil_r. split; reflexivity.
    - destruct (IH (process_chunk s c)) as [H1 H2]. rewrite H1, H2.
      unfold process_chunk; cbn [each_chunk_result vad_results].
      rewrite <- app_assoc. split; reflexivity.
  Qed.

  Definition quiet (c : list Z) : bool := nltb (calc_rms c) kRmsThreshold.

  Lemma vad_results_length chunks :
    length (snd (get_vad_results (fold_left process_chunk chunks vad_init))) =
    Nat.max 2 (length chunks).
  Proof.
    destruct (process_chunks_results chunks vad_init) as [H1 H2].
    unfold get_vad_results; cbn [snd]. rewrite H1, H2.
    cbn [each_chunk_result vad_results vad_init kSilentChunkCount repeat Nat.sub app].
    cbn [length]. rewrite map_length, seq_length, map_length. lia.
  Qed.

  Lemma vad_results_nth chunks i d :
    (i < Nat.max 2 (length chunks))%nat ->
    nth i (snd (get_vad_results (fold_left process_chunk chunks vad_init))) d =
    negb (Nat.leb 2 i && quiet (nth i chunks []) && quiet (nth (i - 1) chunks [])
                      && quiet (nth (i - 2) chunks [])).
  Proof.
    intros Hi.
    destruct (process_chunks_results chunks vad_init) as [H1 H2].
    unfold get_vad_results; cbn [snd]. rewrite H1, H2.
    cbn [each_chunk_result vad_results vad_init kSilentChunkCount repeat Nat.sub app].
    destruct i as [|[|i]]; cbn [nth]; try reflexivity.
    rewrite map_length.
    assert (Hlt : (S (S i) < length chunks)%nat) by lia.
    rewrite nth_indep with (d' := true) by (rewrite map_length, seq_length; lia).
    set (g := fun j => negb (negb (nth j (map (fun c => negb (nltb (calc_rms c) kRmsThreshold)) chunks) true) &&
      prev_silent (map (fun c => negb (nltb (calc_rms c) kRmsThreshold)) chunks) j)).
    replace (seq 2 (length chunks - 2)) with (map (fun k => (2 + k)%nat) (seq 0 (length chunks - 2))).
    2:{ rewrite <- seq_shift. rewrite <- (seq_shift _ 0). rewrite map_map. reflexivity. }
    rewrite map_map. rewrite nth_map_seq by lia.
    subst g. cbv beta.
    assert (Q : forall j, (j < length chunks)%nat ->
      nth j (map (fun c => negb (nltb (calc_rms c) kRmsThreshold)) chunks) true = negb (quiet (nth j chunks []))).
    { intros j Hj. rewrite nth_indep with (d' := negb (nltb (calc_rms []) kRmsThreshold)) by (rewrite map_length; assumption).
      rewrite (map_nth (fun c => negb (nltb (calc_rms c) kRmsThreshold))). reflexivity. }
    unfold prev_silent. cbn [kSilentChunkCount Nat.sub seq forallb].
    change (2 + i)%nat with (S (S i)).
    rewrite !Q by lia. rewrite !negb_involutive, andb_true_r.
    replace (S (S i) - 0 - 1)%nat with (S i) by lia.
    f_equal. 
    change (Nat.leb 2 (S (S i))) with true. cbn [andb Nat.sub]. 
    rewrite ?Nat.sub_0_r, ?andb_assoc. reflexivity.
  Qed.
End Patches.

(** *** restatements used by Props/PatchProps.v *)
From Coq Require Import Sorted.
From Verif Require Import Spec.VadSpec.

Lemma patch_number_value p L : Z.of_nat (patch_number p L) = Z.max 1 ((L - p / 2 - 1) / p).
Proof. unfold patch_number. rewrite Z2Nat.id; lia. Qed.

Lemma grid_inside p L : 2 <= p -> p + p / 2 <= L ->
  Forall (fun s => 0 <= s /\ s + p <= L) (grid (p / 2 - 1) p (patch_number p L)).
Proof.
  intros Hp HL. apply Forall_forall. intros s Hs. apply in_map_iff in Hs.
  destruct Hs as (k & <- & Hk). apply in_seq in Hk.
  destruct (patch_number_fits p L k Hp HL) as [A B]; [lia|]. split; [exact A|exact B].
Qed.

Lemma grid_nth first p n i s : nth_error (grid first p n) i = Some s ->
  (i < n)%nat /\ s = first + Z.of_nat i * p.
Proof.
  intros H. assert (Hi : (i < n)%nat).
  { rewrite <- (seq_length n 0). rewrite <- (map_length (fun k => first + Z.of_nat k * p)).
    apply nth_error_Some. unfold grid in H. rewrite H. discriminate. }
  split; [assumption|]. unfold grid in H.
  rewrite (nth_error_nth' _ 0) in H by (rewrite map_length, seq_length; assumption).
  injection H as <-. rewrite nth_map_seq by assumption. reflexivity.
Qed.

Lemma grid_disjoint first p n : 2 <= p ->
  forall i j si sj, nth_error (grid first p n) i = Some si ->
    nth_error (grid first p n) j = Some sj -> (i < j)%nat -> si + p <= sj.
Proof.
  intros Hp i j si sj Hi Hj Hij. apply grid_nth in Hi. apply grid_nth in Hj.
  destruct Hi as [_ ->], Hj as [_ ->]. clear - Hp Hij. nia.
Qed.

Lemma rest_after_last p L : 2 <= p -> p + p / 2 <= L < two64 ->
  exists idx, create_ref_patch_indices p L = Ret idx /\
    1 <= L - (nth (length idx - 1) idx 0 + p) <= p + 1.
Proof.
  intros Hp HL. exists (grid (p / 2 - 1) p (patch_number p L)).
  split; [apply create_ref_patch_indices_closed; assumption|].
  pose proof (patch_number_pos p L). pose proof (patch_number_rest p L Hp (proj1 HL)) as R.
  assert (E : nth (length (grid (p / 2 - 1) p (patch_number p L)) - 1)
                  (grid (p / 2 - 1) p (patch_number p L)) 0 + p =
              p / 2 - 1 + Z.of_nat (patch_number p L) * p).
  { unfold grid. rewrite map_length, seq_length, nth_map_seq by lia.
    replace (Z.of_nat (patch_number p L - 1)) with (Z.of_nat (patch_number p L) - 1) by lia. ring. }
  rewrite E. exact R.
Qed.

Lemma vad_results_rule {T} {N : Num T} (cs : list (list Z)) :
  let results := snd (get_vad_results (fold_left process_chunk cs vad_init)) in
  length results = Nat.max 2 (length cs) /\
  forall i, (i < length results)%nat ->
    (nth i results true = false <->
     inactive (fun k => nltb (calc_rms (nth k cs [])) (nofZ 5000) = true) i).
Proof.
  intros results. split; [apply vad_results_length|]. intros i Hi. subst results.
  rewrite vad_results_length in Hi. rewrite vad_results_nth by assumption.
  unfold inactive, quiet, kRmsThreshold.
  rewrite negb_false_iff, !andb_true_iff, Nat.leb_le. tauto.
Qed.

Lemma full_patch_left :
  exists p L idx last, 2 <= p /\ p + p / 2 <= L /\ create_ref_patch_indices p L = Ret idx /\
    last = nth (length idx - 1) idx 0 /\ p <= L - (last + p).
Proof. exists 30, 75, [14], 14. vm_compute. intuition discriminate. Qed.
