(** Lemmas about speech-mode patch selection (Model/PatchCreator.v, Model/RmsVad.v). *)
From Coq Require Import ZArith List Lia Bool Arith Sorted ZifyBool ZifyNat ZifyN.
From Verif Require Import Base.Res Base.Num Base.Lists Base.Mat Model.Amatrix Model.MiscMath
  Model.RmsVad Model.PatchCreator Spec.VadSpec Proofs.PatchCreatorP.
Import ListNotations.
Open Scope Z_scope.
Ltac Zify.zify_post_hook ::= Z.div_mod_to_equations.

Definition chunks {A} (n : nat) (l : list A) : list (list A) :=
  map (chunk n l) (seq 0 (chunk_count n l)).

Lemma chunks_short {A} n (l : list A) : (length l < n)%nat -> chunks n l = [].
Proof. intros H. unfold chunks, chunk_count. rewrite Nat.div_small by assumption. reflexivity. Qed.

Lemma skipn_skipn' {A} a b (l : list A) : skipn a (skipn b l) = skipn (b + a) l.
Proof.
  revert l; induction b as [|b IH]; intros l; [reflexivity|].
  destruct l as [|x l]; simpl; [apply skipn_nil|apply IH].
Qed.

Lemma chunks_app {A} n (f l : list A) :
  (0 < n)%nat -> length f = n -> chunks n (f ++ l) = f :: chunks n l.
Proof.
  intros Hn Hf. unfold chunks, chunk_count. rewrite app_length, Hf.
  replace ((n + length l) / n)%nat with (S (length l / n)).
  2:{ replace (n + length l)%nat with (length l + 1 * n)%nat by lia.
      rewrite Nat.div_add by lia. lia. }
  cbn [seq map]. f_equal.
  - unfold chunk. cbn [Nat.mul skipn].
    rewrite firstn_app, (firstn_all2 f), Hf, Nat.sub_diag by lia. cbn [firstn]. apply app_nil_r.
  - rewrite <- seq_shift, map_map. apply map_ext. intros k. unfold chunk.
    replace (S k * n)%nat with (n + k * n)%nat by lia.
    rewrite <- skipn_skipn', skipn_app, (skipn_all2 f), Hf, Nat.sub_diag by lia. reflexivity.
Qed.

Section Feed.
  Context {T : Type} {N : Num T}.

  (** conversion of a whole list to 16 bit *)
  Fixpoint to_int16s (l : list T) : res (list Z) :=
    match l with
    | [] => Ret []
    | x :: t => do z <- to_int16 x; do zs <- to_int16s t; Ret (z :: zs)
    end.

  Lemma to_int16s_length l zs : to_int16s l = Ret zs -> length zs = length l.
  Proof.
    revert zs; induction l as [|x t IH]; cbn [to_int16s]; intros zs H.
    - injection H as <-. reflexivity.
    - destruct (to_int16 x) as [z| | |]; try discriminate. cbn [bind] in H.
      destruct (to_int16s t) as [zt| | |]; try discriminate. cbn [bind] in H.
      injection H as <-. simpl. f_equal. apply IH. reflexivity.
  Qed.

  Lemma vad_feed_spec n l : (0 < n)%nat ->
    forall frame s, (length frame < n)%nat ->
    vad_feed n l frame s =
    do zs <- to_int16s l; Ret (fold_left process_chunk (chunks n (frame ++ zs)) s).
  Proof.
    intros Hn. induction l as [|x t IH]; intros frame s Hf; cbn [vad_feed to_int16s].
    - cbn [bind]. rewrite app_nil_r, chunks_short by assumption. reflexivity.
    - destruct (to_int16 x) as [z| | |]; cbn [bind]; try reflexivity.
      destruct (Nat.eqb (length (frame ++ [z])) n) eqn:E.
      + apply Nat.eqb_eq in E. rewrite IH by (simpl; lia).
        destruct (to_int16s t) as [zt| | |]; cbn [bind]; try reflexivity.
        cbn [app]. replace (frame ++ z :: zt) with ((frame ++ [z]) ++ zt)
          by (rewrite <- app_assoc; reflexivity).
        rewrite chunks_app by assumption. reflexivity.
      + apply Nat.eqb_neq in E. rewrite app_length in E. simpl in E.
        rewrite IH by (rewrite app_length; simpl; lia).
        destruct (to_int16s t) as [zt| | |]; cbn [bind]; try reflexivity.
        rewrite <- app_assoc. reflexivity.
  Qed.

  Lemma chunks_length {A} n (l : list A) : length (chunks n l) = chunk_count n l.
  Proof. unfold chunks. rewrite map_length, seq_length. reflexivity. Qed.
  Lemma chunks_nth {A} n (l : list A) k : (k < chunk_count n l)%nat -> nth k (chunks n l) [] = chunk n l k.
  Proof. intros H. unfold chunks. apply nth_map_seq. assumption. Qed.

  Definition quiet_chunk (n : nat) (zs : list Z) (k : nat) : Prop :=
    nltb (calc_rms (chunk n zs k)) (nofZ 5000) = true.

  (** activity results for a list of samples *)
  Lemma get_vad_active n zs j d :
    (0 < n)%nat -> (j < Nat.max 2 (chunk_count n zs))%nat ->
    nth j (snd (get_vad_results (fold_left process_chunk (chunks n zs) vad_init))) d = false <->
    inactive (quiet_chunk n zs) j.
  Proof.
    intros Hn Hj. rewrite vad_results_nth by (rewrite chunks_length; assumption).
    unfold inactive, quiet_chunk.
    rewrite negb_false_iff, !andb_true_iff, Nat.leb_le.
    unfold quiet, kRmsThreshold.
    destruct (Nat.le_gt_cases 2 j) as [G|G]; [|split; intros H; lia].
    rewrite !chunks_nth by lia. tauto.
  Qed.

  (** block selection *)
  Lemma select_blocks_spec p vad : forall is first k0,
    is = seq k0 (length is) ->
    ((k0 + length is) * p <= length vad)%nat ->
    select_blocks p vad first is =
    Ret (map (fun k => first + Z.of_nat k * Z.of_nat p)
             (filter (fun k => existsb (fun b => b) (firstn p (skipn ((k0 + k) * p) vad)))
                     (seq 0 (length is)))).
  Proof.
    induction is as [|i t IH]; intros first k0 Hs Hl; [reflexivity|].
    cbn [length seq] in Hs. injection Hs as Hi Ht.
    cbn [select_blocks length] in *. subst i.
    unfold block_active.
    replace (Nat.leb (k0 * p + p) (length vad)) with true by (symmetry; apply Nat.leb_le; nia).
    cbn [bind].
    rewrite (IH (first + Z.of_nat p) (S k0)) by (auto; nia).
    cbn [bind seq filter map].
    rewrite Nat.add_0_r.
    assert (E : forall l, Nat.leb 1 (count_occ bool_dec l true) = existsb (fun b => b) l).
    { clear. induction l as [|b l IH]; [reflexivity|]. cbn [count_occ existsb].
      destruct (bool_dec b true) as [->|Hb]; [reflexivity|].
      apply not_true_is_false in Hb. subst b. exact IH. }
    rewrite E.
    assert (M : map (fun k => first + Z.of_nat p + Z.of_nat k * Z.of_nat p)
                 (filter (fun k => existsb (fun b => b) (firstn p (skipn ((S k0 + k) * p) vad)))
                         (seq 0 (length t))) =
               map (fun k => first + Z.of_nat k * Z.of_nat p)
                 (filter (fun k => existsb (fun b => b) (firstn p (skipn ((k0 + k) * p) vad)))
                         (seq 1 (length t)))).
    { rewrite <- seq_shift. generalize (seq 0 (length t)) as l. clear.
      induction l as [|a l IH]; [reflexivity|].
      cbn [map filter].
      replace (k0 + S a)%nat with (S k0 + a)%nat by lia.
      destruct (existsb _ _); cbn [map]; rewrite IH; [f_equal; lia|reflexivity]. }
    rewrite M.
    destruct (existsb _ _); cbn [map].
    - f_equal. f_equal. lia.
    - reflexivity.
  Qed.

  Lemma existsb_nth_iff (l : list bool) :
    existsb (fun b => b) l = true <-> exists j, (j < length l)%nat /\ nth j l false = true.
  Proof.
    rewrite existsb_exists. split.
    - intros (b & Hin & ->). destruct (In_nth _ _ false Hin) as (j & Hj & E). eauto.
    - intros (j & Hj & E). exists true. split; [rewrite <- E; apply nth_In; assumption|reflexivity].
  Qed.

  Lemma block_exists p vad k :
    ((k + 1) * p <= length vad)%nat ->
    existsb (fun b => b) (firstn p (skipn (k * p) vad)) = true <->
    exists j, (k * p <= j < k * p + p)%nat /\ nth j vad true = true.
  Proof.
    intros Hl. rewrite existsb_nth_iff. rewrite firstn_length, skipn_length.
    split.
    - intros (j & Hj & E). exists (k * p + j)%nat. split; [lia|].
      rewrite nth_firstn, nth_skipn in E by lia. 
      rewrite nth_indep with (d' := false) by lia. assumption.
    - intros (j & Hj & E). exists (j - k * p)%nat. split; [lia|].
      rewrite nth_firstn, nth_skipn by lia.
      replace (k * p + (j - k * p))%nat with j by lia.
      rewrite nth_indep with (d' := true) by lia. assumption.
  Qed.
End Feed.

Lemma v_rows_ret {T} {N : Num T} (l : list T) a b p :
  v_rows l a b = Ret p ->
  0 <= a <= b /\ b < Z.of_nat (length l) /\
  p = firstn (Z.to_nat (b - a + 1)) (skipn (Z.to_nat a) l) /\ length p = Z.to_nat (b - a + 1).
Proof.
  unfold v_rows. destruct ((a <=? b) && (b <? Z.of_nat (length l)) && (0 <=? a)) eqn:E; [|discriminate].
  intros [= <-]. apply andb_true_iff in E. destruct E as [E E3]. apply andb_true_iff in E. destruct E as [E1 E2].
  repeat split; try lia. rewrite firstn_length, skipn_length. lia.
Qed.

Section Select.
  Context {T : Type} {N : Num T}.

  (** Characterisation of the chosen patches, for any numeric type, once the frame size conversions
      are known. *)
  Lemma vad_indices_char (p : nat) (L : Z) (sig : list T) (w : Z) (idx : list Z) (psl flen : Z) :
    (2 <= p)%nat -> Z.of_nat p / 2 - 1 + Z.of_nat p <= L < two64 -> 0 < flen ->
    Z.of_nat p * flen <= psl ->
    L * psl < two64 ->
    ntrunc (nmul (nofnat p) (nmul (nofZ w) (ndec 25 2))) = Some psl ->
    ntrunc (nmul (nofZ w) (ndec 25 2)) = Some flen ->
    vad_create_ref_patch_indices p L sig w = Ret idx ->
    let first := Z.of_nat p / 2 - 1 in
    let n := Z.to_nat ((L - first) / Z.of_nat p) in
    exists norm zs,
      normalize sig = Ret norm /\
      first + Z.of_nat n * psl <= Z.of_nat (length sig) /\
      to_int16s (firstn (n * Z.to_nat psl) (skipn (Z.to_nat first) norm)) = Ret zs /\
      length zs = (n * Z.to_nat psl)%nat /\
      idx = map (fun k => first + Z.of_nat k * Z.of_nat p)
        (filter (fun k => existsb (fun b => b)
           (firstn p (skipn (k * p)
              (snd (get_vad_results (fold_left process_chunk (chunks (Z.to_nat flen) zs) vad_init))))))
           (seq 0 n)) /\
      (n * p <= Nat.max 2 (chunk_count (Z.to_nat flen) zs))%nat /\ (1 <= n)%nat.
  Proof.
    intros Hp HL Hflen Hpsl Hbig Et1 Et2 H first n.
    unfold vad_create_ref_patch_indices in H.
    destruct (normalize sig) as [norm| | |] eqn:En; try discriminate. cbn [bind] in H.
    rewrite Et1, Et2 in H. cbv beta zeta in H. fold first in H.
    assert (Hfirst : 0 <= first) by (subst first; lia).
    rewrite (size_of_small first) in H by lia.
    rewrite (size_of_small (L - first)) in H by lia.
    assert (Hn : Z.of_nat n = (L - first) / Z.of_nat p).
    { subst n. rewrite Z2Nat.id; [reflexivity|]. apply Z.div_pos; lia. }
    assert (Hn1 : 1 <= Z.of_nat n). { rewrite Hn. apply Z.div_le_lower_bound; lia. }
    assert (HnL : Z.of_nat n <= L).
    { rewrite Hn. apply Z.div_le_upper_bound; [lia|]. nia. }
    fold n in H. rewrite <- Hn in H.
    assert (Htot : 0 <= Z.of_nat n * psl < two64) by nia.
    rewrite (size_of_small (Z.of_nat n * psl)) in H by assumption.
    unfold reserve in H. destruct (Z.of_nat n <? 2 ^ 57); [|discriminate]. cbn [bind] in H.
    unfold get_voice_activity in H.
    destruct (v_rows norm first (size_of (first + Z.of_nat n * psl - 1))) as [patch| | |] eqn:Ev; try discriminate.
    cbn [bind] in H.
    apply v_rows_ret in Ev. destruct Ev as (Ha & Hb & Hpatch & Hlen).
    assert (Hlenn : length norm = length sig).
    { unfold normalize in En. destruct (max_elem sig) as [m| | |]; try discriminate.
      cbn [bind] in En. injection En as <-. rewrite map_length. reflexivity. }
    assert (Hsz : size_of (first + Z.of_nat n * psl - 1) = first + Z.of_nat n * psl - 1).
    { apply size_of_small. unfold size_of in Ha, Hb. 
      assert (first + Z.of_nat n * psl - 1 < two64 \/ two64 <= first + Z.of_nat n * psl - 1) as [|G] by lia; [nia|].
      exfalso.
      assert (first < L) by lia.
      assert (psl < two64) by nia.
      assert ((first + Z.of_nat n * psl - 1) mod two64 = first + Z.of_nat n * psl - 1 - two64).
      { symmetry. apply Z.mod_unique with 1; unfold two64 in *; lia. }
      lia. }
    rewrite Hsz in *.
    replace (first + Z.of_nat n * psl - 1 - first + 1) with (Z.of_nat n * psl) in * by lia.
    assert (Hpsl0 : 0 <= psl) by nia.
    rewrite Z2Nat.inj_mul, Nat2Z.id in Hpatch, Hlen by lia.
    rewrite vad_feed_spec in H by (simpl; lia).
    subst patch.
    destruct (to_int16s (firstn (n * Z.to_nat psl) (skipn (Z.to_nat first) norm))) as [zs| | |] eqn:Ez; try discriminate.
    cbn [bind app] in H.
    pose proof (to_int16s_length _ _ Ez) as Hzs. rewrite Hlen in Hzs.
    assert (Hcc : (n * p <= chunk_count (Z.to_nat flen) zs)%nat).
    { unfold chunk_count. rewrite Hzs. apply Nat.div_le_lower_bound; [lia|].
      apply Nat2Z.inj_le. rewrite !Nat2Z.inj_mul, !Z2Nat.id by lia. nia. }
    rewrite (select_blocks_spec p _ (seq 0 n) first 0) in H.
    - injection H as <-. rewrite seq_length.
      exists norm, zs. repeat split; auto; try lia.
    - rewrite seq_length. reflexivity.
    - rewrite seq_length, vad_results_length, chunks_length. lia.
  Qed.

  (** the same, membership form *)
  Lemma vad_indices_members (p : nat) (L : Z) (sig : list T) (w : Z) (idx : list Z) (psl flen : Z) :
    (2 <= p)%nat -> Z.of_nat p / 2 - 1 + Z.of_nat p <= L < two64 -> 0 < flen ->
    Z.of_nat p * flen <= psl ->
    L * psl < two64 ->
    ntrunc (nmul (nofnat p) (nmul (nofZ w) (ndec 25 2))) = Some psl ->
    ntrunc (nmul (nofZ w) (ndec 25 2)) = Some flen ->
    vad_create_ref_patch_indices p L sig w = Ret idx ->
    let first := Z.of_nat p / 2 - 1 in
    let n := Z.to_nat ((L - first) / Z.of_nat p) in
    exists norm zs,
      normalize sig = Ret norm /\
      to_int16s (firstn (n * Z.to_nat psl) (skipn (Z.to_nat first) norm)) = Ret zs /\
      length zs = (n * Z.to_nat psl)%nat /\
      first + Z.of_nat n * psl <= Z.of_nat (length sig) /\
      StronglySorted Z.lt idx /\
      (forall s, In s idx <->
         exists k, (k < n)%nat /\ s = first + Z.of_nat k * Z.of_nat p /\
           exists j, (k * p <= j < k * p + p)%nat /\ ~ inactive (quiet_chunk (Z.to_nat flen) zs) j) /\
      hd_error idx = Some first.
  Proof.
    intros Hp HL Hflen Hpsl Hbig Et1 Et2 H first n.
    destruct (vad_indices_char p L sig w idx psl flen Hp HL Hflen Hpsl Hbig Et1 Et2 H)
      as (norm & zs & En & Hin & Ez & Hl & Hidx & Hcc & Hn1).
    fold first in Ez, Hidx, Hin, Hl, Hcc, Hn1. fold n in Ez, Hidx, Hl, Hcc, Hn1, Hin.
    exists norm, zs.
    set (vad := snd (get_vad_results (fold_left process_chunk (chunks (Z.to_nat flen) zs) vad_init))) in *.
    assert (Hvl : length vad = Nat.max 2 (chunk_count (Z.to_nat flen) zs)).
    { subst vad. rewrite vad_results_length, chunks_length. reflexivity. }
    assert (Hact : forall j, (j < length vad)%nat ->
      (nth j vad true = true <-> ~ inactive (quiet_chunk (Z.to_nat flen) zs) j)).
    { intros j Hj. rewrite <- not_false_iff_true. subst vad.
      rewrite (get_vad_active (Z.to_nat flen) zs j true); [tauto|lia|lia]. }
    assert (Hblk : forall k, (k < n)%nat ->
      (existsb (fun b => b) (firstn p (skipn (k * p) vad)) = true <->
       exists j, (k * p <= j < k * p + p)%nat /\ ~ inactive (quiet_chunk (Z.to_nat flen) zs) j)).
    { intros k Hk.
      assert (Hkp : ((k + 1) * p <= n * p)%nat) by (apply Nat.mul_le_mono_r; clear - Hk; lia).
      assert (Hkp' : (k * p + p = (k + 1) * p)%nat) by ring.
      assert (Hle : ((k + 1) * p <= length vad)%nat) by (rewrite Hvl; eapply Nat.le_trans; eassumption).
      rewrite block_exists by assumption.
      split; intros (j & Hj & E); exists j; (split; [assumption|]); apply Hact; try assumption;
        rewrite Hkp' in Hj; eapply Nat.lt_le_trans; [apply Hj|assumption|apply Hj|assumption]. }
    split; [exact En|]. split; [exact Ez|]. split; [exact Hl|]. split; [exact Hin|].
    split; [|split].
    - rewrite Hidx. clear - Hp. generalize 0%nat as a. revert n. 
      induction n as [|n IH]; intros a; cbn [seq filter map]; [constructor|].
      destruct (existsb _ _); [|apply IH]. cbn [map]. constructor; [apply IH|].
      apply Forall_forall. intros x Hx. apply in_map_iff in Hx. destruct Hx as (k & <- & Hk).
      apply filter_In in Hk. destruct Hk as [Hk _]. apply in_seq in Hk. nia.
    - intros s. rewrite Hidx, in_map_iff. split.
      + intros (k & <- & Hk). apply filter_In in Hk. destruct Hk as [Hk He].
        apply in_seq in Hk. exists k. split; [lia|]. split; [reflexivity|].
        apply Hblk; [lia|assumption].
      + intros (k & Hk & -> & Hj). exists k. split; [reflexivity|]. apply filter_In.
        split; [apply in_seq; lia|]. apply Hblk; assumption.
    - rewrite Hidx. clear - Hn1 Hblk Hp. clearbody n first vad. destruct n as [|n']; [lia|]. cbn [seq filter].
      assert (E0 : existsb (fun b => b) (firstn p (skipn (0 * p) vad)) = true).
      { apply Hblk; [lia|]. exists 0%nat. split; [lia|]. intros [G _]. lia. }
      rewrite E0. cbn [map hd_error]. f_equal. lia.
  Qed.
End Select.
