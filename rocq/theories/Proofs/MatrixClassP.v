(** The matrix class against its elements (C102, C103). *)
From Coq Require Import Reals ZArith List Bool Lia ZifyBool ZifyNat Psatz.
From Verif Require Import Base.Res Base.Num Base.NumR Base.Lists Base.Mat Model.Amatrix Spec.MatrixSpec.
Import ListNotations.

Section Class.
  Context {T : Type} {N : Num T}.
  Local Open Scope nat_scope.

  Lemma inside nr nc r c : r < nr -> c < nc -> c * nr + r < nr * nc. Proof. nia. Qed.
  Lemma place nr r c r' c' : r < nr -> r' < nr -> c * nr + r = c' * nr + r' -> r = r' /\ c = c'.
  Proof. intros H1 H2 E. assert (c = c') by nia. subst. lia. Qed.
  Lemma holds_of (M : mat T) : wf M -> holds M (nrows M) (ncols M) (at_ M).
  Proof. intros W. repeat split; [exact W|]. intros r c Hr Hc. unfold at_, mget. apply nth_error_nth'. rewrite W. apply inside; assumption. Qed.
  Lemma holds_at (M : mat T) nr nc f : holds M nr nc f -> wf M /\ nrows M = nr /\ ncols M = nc /\ forall r c, r < nr -> c < nc -> at_ M r c = f r c.
  Proof.
    intros (E1 & E2 & E3 & E4). split; [unfold wf; rewrite E1, E2; exact E3|]. split; [exact E1|]. split; [exact E2|]. intros r c Hr Hc. unfold at_, mget. rewrite E1. apply nth_error_nth, E4; assumption.
  Qed.
  Lemma tab_holds nr nc (f : nat -> nat -> T) : holds (tab nr nc f) nr nc f.
  Proof.
    pose proof (holds_of (tab nr nc f) (tab_wf nr nc f)) as (E1 & E2 & E3 & E4). cbn [nrows ncols tab] in *. repeat split; [exact E3|]. intros r c Hr Hc. rewrite E4 by assumption. f_equal. unfold at_. apply mget_tab; assumption.
  Qed.
  Lemma holds_ext (M : mat T) nr nc f g : holds M nr nc f -> (forall r c, r < nr -> c < nc -> f r c = g r c) -> holds M nr nc g.
  Proof. intros (E1 & E2 & E3 & E4) H. repeat split; try assumption. intros r c Hr Hc. rewrite E4 by assumption. f_equal. apply H; assumption. Qed.

  (** *** constructors *)
  Lemma of_col_holds (l : list T) : holds (m_of_col l) (length l) 1 (fun r _ => nth r l n0).
  Proof. repeat split; cbn [elems m_of_col]; [lia|]. intros r c Hr Hc. replace (c * length l + r) with r by nia. apply nth_error_nth'. exact Hr. Qed.
  Lemma concat_len (cs : list (list T)) n : Forall (fun c => length c = n) cs -> length (concat cs) = n * length cs.
  Proof. induction 1; cbn [concat length]; [lia|]. rewrite app_length. lia. Qed.
  Lemma concat_nth (cs : list (list T)) n : Forall (fun c => length c = n) cs -> forall c r, c < length cs -> r < n -> nth_error (concat cs) (c * n + r) = Some (nth r (nth c cs []) n0).
  Proof.
    induction 1 as [|x cs Hx H IH]; intros c r Hc Hr; cbn [length concat nth] in *; [lia|]. destruct c as [|c].
    - rewrite nth_error_app1 by lia. apply nth_error_nth'. lia.
    - rewrite nth_error_app2 by nia. replace (S c * n + r - length x) with (c * n + r) by nia. apply IH; lia.
  Qed.
  Lemma of_cols_cases (cs : list (list T)) :
    match m_of_cols cs with
    | Ret M => cs <> [] /\ (forall c, In c cs -> length c = nrows M) /\ holds M (nrows M) (length cs) (fun r c => nth r (nth c cs []) n0)
    | Throw => exists a b, In a cs /\ In b cs /\ length a <> length b
    | Ub => cs = []
    | Err _ => False
    end.
  Proof.
    destruct cs as [|c0 cs]; [reflexivity|]. cbn [m_of_cols]. destruct (forallb _ _) eqn:E.
    - rewrite forallb_forall in E. assert (A : Forall (fun c => length c = length c0) (c0 :: cs)) by (apply Forall_forall; intros c Hc; apply E in Hc; lia).
      split; [discriminate|]. cbn [nrows]. split; [rewrite Forall_forall in A; exact A|]. repeat split; cbn [elems]; [apply concat_len, A|]. intros r c Hr Hc. apply concat_nth; assumption.
    - exists c0. assert (X : exists b, In b (c0 :: cs) /\ Nat.eqb (length b) (length c0) = false).
      { clear - E. induction (c0 :: cs) as [|b l IH] in E |- *; [discriminate|]. cbn [forallb] in E. destruct (Nat.eqb (length b) (length c0)) eqn:B; [|exists b; split; [left; reflexivity|exact B]].
        destruct (IH E) as (x & X1 & X2). exists x. split; [right; exact X1|exact X2]. }
      destruct X as (b & B1 & B2). exists b. split; [left; reflexivity|]. split; [exact B1|]. lia.
  Qed.
  Lemma nth_error_firstn_ {A} (l : list A) n i : i < n -> nth_error (firstn n l) i = nth_error l i.
  Proof. revert l i. induction n as [|n IH]; intros l i Hi; [lia|]. destruct l as [|x l]; [destruct i; reflexivity|]. destruct i as [|i]; [reflexivity|]. cbn. apply IH. lia. Qed.
  Lemma of_data_cases nr nc (l : list T) :
    (length l < nr * nc -> m_of_data nr nc l = Ub) /\
    (nr * nc <= length l -> exists M, m_of_data nr nc l = Ret M /\ holds M nr nc (fun r c => nth (c * nr + r) l n0)).
  Proof.
    unfold m_of_data. destruct (Nat.leb_spec (nr * nc) (length l)); split; intros H1; try lia; [|reflexivity]. eexists. split; [reflexivity|]. repeat split; cbn [elems].
    - rewrite firstn_length. lia.
    - intros r c Hr Hc. pose proof (inside nr nc r c Hr Hc). rewrite nth_error_firstn_ by assumption. apply nth_error_nth'. lia.
  Qed.

  (** *** reading and writing *)
  Lemma lin_cases (M : mat T) i :
    (i < length (elems M) -> m_lin M i = Ret (nth i (elems M) n0) /\ m_lin_mut M i = Ret (nth i (elems M) n0) /\
       forall v, exists M', m_lin_set M i v = Ret M' /\ nrows M' = nrows M /\ ncols M' = ncols M /\ elems M' = firstn i (elems M) ++ v :: skipn (S i) (elems M)) /\
    (length (elems M) <= i -> m_lin M i = Throw /\ m_lin_mut M i = Ub /\ forall v, m_lin_set M i v = Ub).
  Proof.
    unfold m_lin, m_lin_mut, m_lin_set. split; intros H.
    - rewrite (nth_error_nth' _ n0 H). split; [reflexivity|]. split; [reflexivity|]. intros v. destruct (Nat.ltb_spec i (length (elems M))); [|lia]. eexists. split; [reflexivity|]. cbn [nrows ncols elems]. repeat split.
      assert (HL : length (firstn i (elems M)) = i) by (rewrite firstn_length; lia).
      apply (list_ext _ _ n0); [rewrite upd_length, app_length; cbn [length]; rewrite HL, skipn_length; lia|]. intros j Hj. rewrite upd_length in Hj. destruct (Nat.eq_dec i j) as [<-|NE].
      + rewrite nth_upd_same by assumption. rewrite app_nth2 by lia. rewrite HL, Nat.sub_diag. reflexivity.
      + rewrite nth_upd_other by assumption. rewrite <- (firstn_skipn i (elems M)) at 1. destruct (Nat.lt_ge_cases j i).
        * rewrite !app_nth1 by lia. reflexivity.
        * rewrite !app_nth2 by lia. rewrite HL. destruct (j - i) as [|k] eqn:EK; [lia|]. cbn [nth]. replace (skipn i (elems M)) with (nth i (elems M) n0 :: skipn (S i) (elems M)); [reflexivity|].
          clear - H. revert H. generalize (elems M). induction i as [|i IH]; intros l H; destruct l; cbn [length] in H; try lia; [reflexivity|]. cbn [nth]. rewrite IH by lia. reflexivity.
    - assert (E : nth_error (elems M) i = None) by (apply nth_error_None; exact H). rewrite E. destruct (Nat.ltb_spec i (length (elems M))); [lia|]. auto.
  Qed.
  Lemma rc_set_cases (M : mat T) r c v : wf M ->
    (below r (nrows M) -> below c (ncols M) -> exists M', m_rc_set M r c v = Ret M' /\ holds M' (nrows M) (ncols M) (fun i j => if Nat.eqb i (Z.to_nat r) && Nat.eqb j (Z.to_nat c) then v else at_ M i j)) /\
    (~ (below r (nrows M) /\ below c (ncols M)) -> m_rc_set M r c v = Throw).
  Proof.
    intros W. unfold m_rc_set, below. destruct (_ && _) eqn:E; split; try (intros; lia); try reflexivity. intros H1 H2. eexists. split; [reflexivity|].
    assert (P := inside (nrows M) (ncols M) (Z.to_nat r) (Z.to_nat c) ltac:(lia) ltac:(lia)).
    repeat split; cbn [elems nrows]; [rewrite upd_length; exact W|]. intros i j Hi Hj. pose proof (inside (nrows M) (ncols M) i j Hi Hj).
    rewrite (nth_error_nth' _ n0) by (rewrite upd_length, W; assumption). f_equal. destruct (Nat.eq_dec (Z.to_nat c * nrows M + Z.to_nat r) (j * nrows M + i)) as [EQ|NE].
    - rewrite EQ, nth_upd_same by (rewrite W; assumption). apply place in EQ; [|lia|lia]. replace (_ && _) with true by lia. reflexivity.
    - rewrite nth_upd_other by assumption. replace (Nat.eqb i (Z.to_nat r) && Nat.eqb j (Z.to_nat c)) with false; [reflexivity|]. symmetry. apply andb_false_iff. destruct (Nat.eq_dec i (Z.to_nat r)) as [->|]; [|left; lia]. right. destruct (Nat.eq_dec j (Z.to_nat c)) as [->|]; [|lia]. exfalso. apply NE. reflexivity.
  Qed.

  (** *** parts *)
  Lemma rows_cases (M : mat T) a b :
    ((0 <= a <= b)%Z -> below b (nrows M) -> exists P, m_rows M a b = Ret P /\ holds P (Z.to_nat (b - a + 1)) (ncols M) (fun r c => at_ M (Z.to_nat a + r) c)) /\
    (~ ((0 <= a <= b)%Z /\ below b (nrows M)) -> m_rows M a b = Throw).
  Proof. unfold m_rows, below. destruct (_ && _) eqn:E; split; try (intros; lia); try reflexivity. intros _ _. eexists. split; [reflexivity|apply tab_holds]. Qed.
  Lemma cols_cases (M : mat T) a b :
    ((0 <= a <= b)%Z -> below b (ncols M) -> exists P, m_cols M a b = Ret P /\ holds P (nrows M) (Z.to_nat (b - a + 1)) (fun r c => at_ M r (Z.to_nat a + c))) /\
    (~ ((0 <= a <= b)%Z /\ below b (ncols M)) -> m_cols M a b = Throw).
  Proof. unfold m_cols, below. destruct (_ && _) eqn:E; split; try (intros; lia); try reflexivity. intros _ _. eexists. split; [reflexivity|apply tab_holds]. Qed.
  Lemma get_col_cases (M : mat T) c :
    (below c (ncols M) -> exists P, m_get_col M c = Ret P /\ holds P (nrows M) 1 (fun r _ => at_ M r (Z.to_nat c))) /\ (~ below c (ncols M) -> m_get_col M c = Throw).
  Proof.
    destruct (cols_cases M c c) as [C1 C2]. unfold m_get_col. split; intros H.
    - destruct (C1 ltac:(unfold below in H; lia) H) as (P & E & HP). exists P. split; [exact E|]. replace (Z.to_nat (c - c + 1)) with 1 in HP by lia. apply (holds_ext _ _ _ _ _ HP). intros r k _ Hk. f_equal. lia.
    - apply C2. intros [_ X]. contradiction.
  Qed.
  Lemma span_cases (M : mat T) r0 r1 c0 c1 :
    ((0 <= r0 <= r1)%Z -> below r1 (nrows M) -> (0 <= c0 <= c1)%Z -> below c1 (ncols M) ->
       exists P, m_span M r0 r1 c0 c1 = Ret P /\ holds P (Z.to_nat (r1 - r0 + 1)) (Z.to_nat (c1 - c0 + 1)) (fun r c => at_ M (Z.to_nat r0 + r) (Z.to_nat c0 + c))) /\
    (~ ((0 <= r0 <= r1)%Z /\ below r1 (nrows M) /\ (0 <= c0 <= c1)%Z /\ below c1 (ncols M)) -> m_span M r0 r1 c0 c1 = Throw).
  Proof. unfold m_span, below. destruct (_ && _) eqn:E; split; try (intros; lia); try reflexivity. intros _ _ _ _. eexists. split; [reflexivity|apply tab_holds]. Qed.
  Lemma row_cases (M : mat T) r :
    (below r (nrows M) -> exists l, m_row M r = Ret l /\ length l = ncols M /\ forall c, c < ncols M -> nth_error l c = Some (at_ M (Z.to_nat r) c)) /\
    (~ below r (nrows M) -> m_row M r = Throw).
  Proof.
    unfold m_row, below. destruct (_ && _) eqn:E; split; try (intros; lia); try reflexivity. intros _. eexists. split; [reflexivity|]. unfold row_list. split; [rewrite map_length, seq_length; reflexivity|].
    intros c Hc. rewrite nth_error_map, (nth_error_nth' _ 0) by (rewrite seq_length; exact Hc). rewrite seq_nth by exact Hc. reflexivity.
  Qed.
  Lemma row_subset_cases (M : mat T) r c0 c1 :
    (below r (nrows M) -> (0 <= c0 <= c1)%Z -> below c1 (ncols M) -> exists l, m_row_subset M r c0 c1 = Ret l /\ length l = Z.to_nat (c1 - c0 + 1) /\
       forall k, k < Z.to_nat (c1 - c0 + 1) -> nth_error l k = Some (at_ M (Z.to_nat r) (Z.to_nat c0 + k))) /\
    (~ (below r (nrows M) /\ (0 <= c0 <= c1)%Z /\ below c1 (ncols M)) -> m_row_subset M r c0 c1 = Throw).
  Proof.
    unfold m_row_subset, below. destruct (_ && _) eqn:E; split; try (intros; lia); try reflexivity. intros _ _ _. eexists. split; [reflexivity|]. split; [rewrite map_length, seq_length; reflexivity|].
    intros k Hk. rewrite nth_error_map, (nth_error_nth' _ 0) by (rewrite seq_length; exact Hk). rewrite seq_nth by exact Hk. reflexivity.
  Qed.
  Lemma to_vector_cases (M : mat T) :
    (0 < ncols M -> exists l, m_to_vector M = Ret l /\ length l = nrows M /\ forall r, r < nrows M -> nth_error l r = Some (at_ M r 0)) /\ (ncols M = 0 -> m_to_vector M = Throw).
  Proof.
    unfold m_to_vector. destruct (Nat.ltb_spec 0 (ncols M)); split; intros; try lia; [|reflexivity]. eexists. split; [reflexivity|]. unfold col_list. split; [rewrite map_length, seq_length; reflexivity|].
    intros r Hr. rewrite nth_error_map, (nth_error_nth' _ 0) by (rewrite seq_length; exact Hr). rewrite seq_nth by exact Hr. reflexivity.
  Qed.
  Lemma set_row_cases (M : mat T) r v :
    (below r (nrows M) -> length v = ncols M -> exists P, m_set_row M r v = Ret P /\ holds P (nrows M) (ncols M) (fun i c => if Nat.eqb i (Z.to_nat r) then nth c v n0 else at_ M i c)) /\
    (~ (below r (nrows M) /\ length v = ncols M) -> m_set_row M r v = Throw).
  Proof. unfold m_set_row, below. destruct (_ && _) eqn:E; split; try (intros; lia); try reflexivity. intros _ _. eexists. split; [reflexivity|apply tab_holds]. Qed.
  Lemma set_col_cases (M : mat T) c v :
    (below c (ncols M) -> length v = nrows M -> exists P, m_set_col M c v = Ret P /\ holds P (nrows M) (ncols M) (fun r j => if Nat.eqb j (Z.to_nat c) then nth r v n0 else at_ M r j)) /\
    (~ (below c (ncols M) /\ length v = nrows M) -> m_set_col M c v = Throw).
  Proof. unfold m_set_col, below. destruct (_ && _) eqn:E; split; try (intros; lia); try reflexivity. intros _ _. eexists. split; [reflexivity|apply tab_holds]. Qed.

  (** *** arithmetic *)
  Lemma mmap_holds (f : T -> T) M : wf M -> holds (mmap f M) (nrows M) (ncols M) (fun r c => f (at_ M r c)).
  Proof.
    intros W. repeat split; cbn [elems mmap]; [rewrite map_length; exact W|]. intros r c Hr Hc. rewrite nth_error_map, (nth_error_nth' _ n0) by (rewrite W; apply inside; assumption). reflexivity.
  Qed.
  Lemma scalar_ops (M : mat T) v : wf M ->
    holds (m_adds M v) (nrows M) (ncols M) (fun r c => nadd (at_ M r c) v) /\ holds (m_subs M v) (nrows M) (ncols M) (fun r c => nsub (at_ M r c) v) /\
    holds (m_muls M v) (nrows M) (ncols M) (fun r c => nmul (at_ M r c) v) /\ holds (m_divs M v) (nrows M) (ncols M) (fun r c => ndiv (at_ M r c) v) /\
    holds (m_abs M) (nrows M) (ncols M) (fun r c => nabs (at_ M r c)).
  Proof. intros W. unfold m_adds, m_subs, m_muls, m_divs, m_abs. repeat split; try (apply mmap_holds; exact W); cbn [elems mmap]; rewrite map_length; exact W. Qed.
  Lemma zip_cases f (A B : mat T) :
    (nrows A = nrows B -> ncols A = ncols B -> exists P, m_zip f A B = Ret P /\ holds P (nrows A) (ncols A) (fun r c => f (at_ A r c) (at_ B r c))) /\
    (nrows A <> nrows B \/ ncols A <> ncols B -> m_zip f A B = Throw).
  Proof. unfold m_zip, same_size. destruct (_ && _) eqn:E; split; intros; try lia; [|reflexivity]. eexists. split; [reflexivity|apply tab_holds]. Qed.

  (** *** shape *)
  Lemma join_cases (A B : mat T) : wf A -> wf B ->
    (ncols A = ncols B -> exists P, m_join_vert A B = Ret P /\ holds P (nrows A + nrows B) (ncols A) (fun r c => if Nat.ltb r (nrows A) then at_ A r c else at_ B (r - nrows A) c)) /\
    (ncols A <> ncols B -> nrows A = 0 -> ncols A = 0 -> m_join_vert A B = Ret B) /\ (ncols A <> ncols B -> nrows B = 0 -> ncols B = 0 -> m_join_vert A B = Ret A) /\
    (ncols A <> ncols B -> (nrows A <> 0 \/ ncols A <> 0) -> (nrows B <> 0 \/ ncols B <> 0) -> m_join_vert A B = Throw).
  Proof.
    intros WA WB. unfold m_join_vert. destruct (Nat.eqb_spec (ncols A) (ncols B)) as [E|E].
    - split; [|repeat split; intros; contradiction]. intros _. eexists. split; [reflexivity|apply tab_holds].
    - destruct (Nat.eqb (nrows A) 0 && Nat.eqb (ncols A) 0) eqn:E1; [|destruct (Nat.eqb (nrows B) 0 && Nat.eqb (ncols B) 0) eqn:E2]; repeat split; intros; try lia; try reflexivity.
  Qed.
  Lemma reshape (M : mat T) nr nc : wf M ->
    holds (m_flipud M) (nrows M) (ncols M) (fun r c => at_ M (nrows M - 1 - r) c) /\
    holds (m_resize M nr nc) nr nc (fun r c => if Nat.ltb r (nrows M) && Nat.ltb c (ncols M) then at_ M r c else n0) /\
    m_longest M = Nat.max (nrows M) (ncols M).
  Proof. intros W. split; [apply tab_holds|]. split; [apply tab_holds|]. unfold m_longest. destruct (Nat.ltb_spec (ncols M) (nrows M)); lia. Qed.
  Lemma stat_shapes (M : mat T) :
    nrows (m_mean_rows M) = nrows M /\ ncols (m_mean_rows M) = Nat.min 1 (ncols M) /\ nrows (m_mean_cols M) = Nat.min 1 (nrows M) /\ ncols (m_mean_cols M) = ncols M /\
    nrows (m_stddev_rows M) = nrows M /\ ncols (m_stddev_rows M) = Nat.min 1 (ncols M) /\ nrows (m_stddev_cols M) = Nat.min 1 (nrows M) /\ ncols (m_stddev_cols M) = ncols M /\
    Forall wf [m_mean_rows M; m_mean_cols M; m_stddev_rows M; m_stddev_cols M].
  Proof.
    unfold m_mean_rows, m_mean_cols, m_stddev_rows, m_stddev_cols. cbn [nrows ncols tab].
    assert (X : forall n, (if Nat.eqb n 0 then 0 else 1) = Nat.min 1 n) by (intros n; destruct (Nat.eqb_spec n 0); lia).
    rewrite !X. repeat split. repeat constructor; apply tab_wf.
  Qed.

  (** *** PrintSummary *)
  Local Open Scope Z_scope.
  Lemma summary_in (M : mat T) : forall k i, 0 <= i -> i + Z.of_nat k <= Z.of_nat (length (elems M)) ->
    summary_loop M i k = Ret (map (fun j => (i + Z.of_nat j, nth (Z.to_nat i + j) (elems M) n0)) (seq 0 k)).
  Proof.
    induction k as [|k IH]; intros i Hi HL; [reflexivity|]. cbn [summary_loop]. unfold m_lin. rewrite (nth_error_nth' _ n0) by lia. cbn [bind]. rewrite IH by lia. cbn [bind seq map].
    rewrite Z.add_0_r, Nat.add_0_r. do 2 f_equal. rewrite <- seq_shift, map_map. apply map_ext. intros j. f_equal; [lia|]. f_equal. lia.
  Qed.
  Lemma summary_out (M : mat T) : forall k i, 0 <= i -> Z.of_nat (length (elems M)) < i + Z.of_nat k -> (0 < k)%nat -> summary_loop M i k = Throw.
  Proof.
    induction k as [|k IH]; intros i Hi HL HK; [lia|]. cbn [summary_loop]. unfold m_lin. destruct (nth_error (elems M) (Z.to_nat i)) as [v|] eqn:E; [|reflexivity]. cbn [bind].
    assert (Z.to_nat i < length (elems M))%nat by (apply nth_error_Some; congruence). rewrite IH by lia. reflexivity.
  Qed.
  Lemma part_in (M : mat T) a b : 0 <= a -> b <= Z.of_nat (length (elems M)) -> summary_part M a b = Ret (listed (elems M) a b).
  Proof. intros H1 H2. unfold summary_part, listed. destruct (Z.le_gt_cases b a); [replace (Z.to_nat (b - a)) with 0%nat by lia; reflexivity|]. apply summary_in; lia. Qed.
  Lemma part_out (M : mat T) a b : 0 <= a < b -> Z.of_nat (length (elems M)) < b -> summary_part M a b = Throw.
  Proof. intros H1 H2. unfold summary_part. apply summary_out; lia. Qed.
  Lemma size_small_ z : 0 <= z < two64 -> size_of z = z. Proof. intros H. unfold size_of. apply Z.mod_small. exact H. Qed.
  Lemma size_neg z : - two64 <= z < 0 -> size_of z = z + two64.
  Proof. intros H. unfold size_of. symmetry. apply Z.mod_unique with (-1); [left; lia|]. lia. Qed.
  Lemma listed_none (l : list T) i j : j <= i -> listed l i j = []. Proof. intros H. unfold listed. replace (Z.to_nat (j - i)) with 0%nat by lia. reflexivity. Qed.
  Lemma summary_cases (l : list T) : let n := Z.of_nat (length l) in n < 2 ^ 63 ->
    (11 <= n -> print_summary (m_of_col l) = Ret (listed l 0 5, listed l (n / 2 - 4) (n / 2 + 6), listed l (n - 6) n)) /\
    (8 <= n <= 10 -> print_summary (m_of_col l) = Throw) /\
    (5 <= n <= 7 -> print_summary (m_of_col l) = Ret (listed l 0 5, [], if n =? 5 then [] else listed l (n - 6) n)) /\
    (n < 5 -> print_summary (m_of_col l) = Throw).
  Proof.
    intros n Hn. assert (T64 : 2 ^ 63 + 6 < two64) by reflexivity. unfold print_summary. cbn [nrows m_of_col]. fold n. assert (N0 : 0 <= n) by lia. assert (N2 : 2 * (n / 2) <= n < 2 * (n / 2) + 2) by lia.
    assert (EL : elems (m_of_col l) = l) by reflexivity. rewrite (size_small_ (n / 2 + 6)) by lia.
    split; [|split; [|split]]; intros H.
    - rewrite (part_in _ 0 5) by (rewrite ?EL; lia). cbn [bind]. rewrite !size_small_ by lia. rewrite !part_in by (rewrite ?EL; lia). reflexivity.
    - rewrite (part_in _ 0 5) by (rewrite ?EL; lia). cbn [bind]. rewrite (size_small_ (n / 2 - 4)) by lia. rewrite part_out; [reflexivity|lia|rewrite EL; fold n; lia].
    - rewrite (part_in _ 0 5) by (rewrite ?EL; lia). cbn [bind]. rewrite (size_neg (n / 2 - 4)) by lia.
      assert (P1 : summary_part (m_of_col l) (n / 2 - 4 + two64) (n / 2 + 6) = Ret []) by (unfold summary_part; replace (Z.to_nat _) with 0%nat by lia; reflexivity). rewrite P1. cbn [bind]. rewrite EL. destruct (Z.eqb_spec n 5) as [E5|E5].
      + rewrite size_neg by lia. assert (P2 : summary_part (m_of_col l) (n - 6 + two64) n = Ret []) by (unfold summary_part; replace (Z.to_nat _) with 0%nat by lia; reflexivity). rewrite P2. reflexivity.
      + rewrite size_small_ by lia. rewrite part_in by (rewrite ?EL; lia). reflexivity.
    - rewrite part_out; [reflexivity|lia|rewrite EL; fold n; lia].
  Qed.
End Class.
Open Scope nat_scope.
Lemma elementwise {T} {N : Num T} (A B : mat T) op f : In (op, f) [(m_add, nadd); (m_sub, nsub); (m_pmul, nmul); (m_pdiv, ndiv)] ->
  (nrows A = nrows B -> ncols A = ncols B -> exists P, op A B = Ret P /\ holds P (nrows A) (ncols A) (fun r c => f (at_ A r c) (at_ B r c))) /\
  (nrows A <> nrows B \/ ncols A <> ncols B -> op A B = Throw).
Proof. intros [H|[H|[H|[H|[]]]]]; injection H as <- <-; apply zip_cases. Qed.
Lemma summary_refuted : exists a b l12 : list R, length l12 = 12 /\
  (exists x y z, print_summary (m_of_col l12) = Ret (x, y, z) /\ length z = 6) /\ length a = 9 /\ print_summary (m_of_col a) = Throw /\ length b = 4 /\ print_summary (m_of_col b) = Throw.
Proof.
  exists (repeat 1%R 9), (repeat 1%R 4), (repeat 1%R 12). split; [reflexivity|]. split; [|repeat split].
  exists (listed (repeat 1%R 12) 0 5), (listed (repeat 1%R 12) 2 12), (listed (repeat 1%R 12) 6 12). split; reflexivity.
Qed.
