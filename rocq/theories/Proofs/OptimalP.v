(** The matching tables hold the best total similarity (C25). *)
From Coq Require Import ZArith List Bool Reals Lra Lia ZifyBool ZifyNat.
From Verif Require Import Base.Res Base.Num Base.Lists Base.Mat Model.Amatrix Model.MiscMath Model.Window
  Model.FilterBank Model.Spectrogram Model.Nsim Model.Fft Model.Alignment Model.Selector Spec.MatchSpec
  Proofs.SelectorP Proofs.MatchP.
Import ListNotations.
Open Scope nat_scope.
Ltac Zify.zify_post_hook ::= Z.div_mod_to_equations.

(** what is needed of the number type: a real value for every "good" number, compared correctly, and an
    addition that is monotone and does not overflow below 2^50 *)
Record scores (T : Type) {N : Num T} := MkScores {
  val : T -> R;
  good : T -> Prop;
  sc_lt : forall a b, good a -> good b -> (nltb a b = true <-> (val a < val b)%R);
  sc_zero : good n0 /\ val n0 = 0%R;
  sc_add : forall (k : Z) s x, (0 <= k < 2 ^ 50)%Z -> good s -> (Rabs (val s) <= 2)%R ->
    good x -> (Rabs (val x) <= IZR (2 * k))%R -> good (nadd s x) /\ (Rabs (val (nadd s x)) <= IZR (2 * (k + 1)))%R;
  sc_mono : forall (k : Z) s x y, (0 <= k < 2 ^ 50)%Z -> good s -> (Rabs (val s) <= 2)%R ->
    good x -> (Rabs (val x) <= IZR (2 * k))%R -> good y -> (Rabs (val y) <= IZR (2 * k))%R ->
    (val x <= val y)%R -> (val (nadd s x) <= val (nadd s y))%R;
  sc_pos : forall (k : Z) s x, (0 <= k < 2 ^ 50)%Z -> good s -> (Rabs (val s) <= 2)%R ->
    good x -> (Rabs (val x) <= IZR (2 * k))%R -> (0 < val s)%R -> (0 <= val x)%R -> (0 < val (nadd s x))%R;
  sc_lowest : good nlowest /\ (val nlowest < - IZR (2 ^ 60))%R /\
    forall s, good s -> (Rabs (val s) <= 2)%R -> good (nadd s nlowest) /\ (val (nadd s nlowest) < - IZR (2 ^ 60))%R
}.
Arguments val {T N} _ _.
Arguments good {T N} _ _.

Section Opt.
  Context {T : Type} {N : Num T} (SC : scores T).

  Definition bounded (k : Z) (x : T) : Prop := good SC x /\ (Rabs (val SC x) <= IZR (2 * k))%R.

  Lemma bounded_above k x : (0 <= k < 2 ^ 50)%Z -> bounded k x -> (- IZR (2 ^ 60) < val SC x)%R.
  Proof.
    intros Hk [_ H]. assert (IZR (2 * k) < IZR (2 ^ 60))%R by (apply IZR_lt; lia).
    apply Rabs_def2 with (a := IZR (2 ^ 60)); lra.
  Qed.
  Lemma lt_false a b : good SC a -> good SC b -> nltb a b = false -> (val SC b <= val SC a)%R.
  Proof.
    intros Ga Gb H. apply Rnot_lt_le. intros C. apply (sc_lt _ SC a b Ga Gb) in C. congruence.
  Qed.

  (** first best of a list of positions *)
  Lemma pick_best {B} (g : nat -> B) (row : list T) k (Hk : (0 <= k < 2 ^ 50)%Z) : forall l,
    (forall b, In b l -> bounded k (nth b row n0)) -> forall acc, good SC (fst acc) ->
    let r := fold_left (fun acc b => if nltb (fst acc) (nth b row n0) then (nth b row n0, g b) else acc) l acc in
    (r = acc \/ exists b, In b l /\ r = (nth b row n0, g b)) /\
    (val SC (fst acc) <= val SC (fst r))%R /\
    forall b, In b l -> (val SC (nth b row n0) <= val SC (fst r))%R.
  Proof.
    induction l as [|b l IH]; intros Hl acc Ga; cbn [fold_left].
    - split; [now left|]. split; [lra|]. intros b [].
    - destruct (nltb (fst acc) (nth b row n0)) eqn:E.
      + assert (Gb : good SC (nth b row n0)) by apply (Hl b (or_introl eq_refl)).
        apply (sc_lt _ SC) in E; [|exact Ga|exact Gb].
        destruct (IH (fun x Hx => Hl x (or_intror Hx)) (nth b row n0, g b) Gb) as (H1 & H2 & H3).
        cbn [fst] in *. split; [|split].
        * right. destruct H1 as [H1|(x & Hx & H1)]; [exists b; split; [now left|exact H1]|].
          exists x. split; [now right|exact H1].
        * lra.
        * intros x [<-|Hx]; [exact H2|exact (H3 x Hx)].
      + assert (Gb : good SC (nth b row n0)) by apply (Hl b (or_introl eq_refl)).
        apply lt_false in E; [|exact Ga|exact Gb].
        destruct (IH (fun x Hx => Hl x (or_intror Hx)) acc Ga) as (H1 & H2 & H3).
        split; [|split].
        * destruct H1 as [H1|(x & Hx & H1)]; [now left|right]. exists x. split; [now right|exact H1].
        * exact H2.
        * intros x [<-|Hx]; [lra|exact (H3 x Hx)].
  Qed.
  Lemma pick_lowest {B} (g : nat -> B) (none : B) (row : list T) k l : (0 <= k < 2 ^ 50)%Z -> l <> [] ->
    (forall b, In b l -> bounded k (nth b row n0)) ->
    exists b, In b l /\
      fold_left (fun acc b => if nltb (fst acc) (nth b row n0) then (nth b row n0, g b) else acc) l (nlowest, none)
        = (nth b row n0, g b) /\
      forall b', In b' l -> (val SC (nth b' row n0) <= val SC (nth b row n0))%R.
  Proof.
    intros Hk Hn Hl. destruct (sc_lowest _ SC) as (Gl & Ll & _).
    destruct (pick_best g row k Hk l Hl (nlowest, none) Gl) as (H1 & H2 & H3). cbn [fst] in *.
    destruct H1 as [H1|(b & Hb & H1)].
    - exfalso. destruct l as [|x l]; [congruence|]. specialize (H3 x (or_introl eq_refl)).
      rewrite H1 in H3. cbn [fst] in H3. pose proof (bounded_above k _ Hk (Hl x (or_introl eq_refl))). lra.
    - exists b. split; [exact Hb|]. split; [exact H1|]. rewrite H1 in H3. exact H3.
  Qed.

  (** *** the tables *)
  Variable nc : nat.
  Variable n : nat.
  Variables lo hi : nat -> nat.
  Variable SIM : nat -> nat -> T.
  Variable Rw : nat -> list T.
  Variable Bt : nat -> list Z.
  Hypothesis n_small : (Z.of_nat n < 2 ^ 50 - 1)%Z.
  Hypothesis sim_ok : forall i s, i <= n -> lo i <= s <= hi i -> bounded 1 (SIM i s).
  Hypothesis win : forall i, i <= n -> lo i <= hi i < nc.
  Hypothesis win_mono : forall i, i < n -> lo i <= lo (S i) /\ hi i <= hi (S i).
  Hypothesis cell_in : forall i s, i <= n -> lo i <= s <= hi i ->
    (nth s (Rw i) n0, nth s (Bt i) 0%Z) =
    dp_cell (match i with O => None | S j => Some (Rw j, lo j) end) s (SIM i s).
  Hypothesis cell_out : forall i s, i <= n -> ~ (lo i <= s <= hi i) -> nth s (Rw i) n0 = n0.
  (** either every window is the whole spectrogram, or every similarity is positive *)
  Hypothesis mode : (forall i, i <= n -> lo i = 0 /\ hi i = nc - 1) \/
                    (forall i s, i <= n -> lo i <= s <= hi i -> (0 < val SC (SIM i s))%R).

  Definition extend (off : nat -> nat) (i s : nat) : nat -> nat := fun j => if Nat.leb j i then off j else s.

  Lemma skipped_ext f g j : (forall k, k <= j -> f k = g k) -> skipped f j = skipped g j.
  Proof. intros H. unfold skipped. destruct j as [|j]; [reflexivity|]. now rewrite !H by lia. Qed.
  Lemma score_ext f g : forall m, (forall j, j <= m -> f j = g j) -> score SIM f m = score SIM g m.
  Proof.
    induction m as [|m IH]; intros H; cbn [score].
    - now rewrite H by lia.
    - rewrite (skipped_ext f g (S m) H), (H (S m)) by lia. rewrite IH by (intros j Hj; apply H; lia). reflexivity.
  Qed.
  Lemma assignment_le off m m' : m' <= m -> assignment lo hi m off -> assignment lo hi m' off.
  Proof. intros H [A B]. split; intros i Hi; [apply A|apply B]; lia. Qed.

  Lemma score_bounded off : forall m, m <= n -> assignment lo hi m off -> bounded (Z.of_nat m + 1) (score SIM off m).
  Proof.
    induction m as [|m IH]; intros Hm HA; cbn [score].
    - apply sim_ok; [lia|]. apply (proj1 HA). lia.
    - specialize (IH ltac:(lia) (assignment_le off (S m) m ltac:(lia) HA)). destruct (skipped off (S m)).
      + destruct IH as [G B]. split; [exact G|]. eapply Rle_trans; [exact B|]. apply IZR_le. lia.
      + assert (Hs : bounded 1 (SIM (S m) (off (S m)))) by (apply sim_ok; [lia|apply (proj1 HA); lia]).
        destruct Hs as [Gs Bs]. destruct IH as [G B].
        destruct (sc_add _ SC (Z.of_nat m + 1) (SIM (S m) (off (S m))) (score SIM off m)) as [G' B']; auto; [lia|].
        split; [exact G'|]. eapply Rle_trans; [exact B'|]. apply IZR_le. lia.
  Qed.

  Definition cell i s := nth s (Rw i) n0.

  Definition inv (i : nat) : Prop :=
    (forall s, bounded (Z.of_nat i + 1) (cell i s)) /\
    ((forall j s, j <= n -> lo j <= s <= hi j -> (0 < val SC (SIM j s))%R) ->
       forall s, lo i <= s <= hi i -> (0 < val SC (cell i s))%R) /\
    forall s, lo i <= s <= hi i ->
      (exists off, assignment lo hi i off /\ off i = s /\ score SIM off i = cell i s /\
         forall j, S j <= i -> nth (off (S j)) (Bt (S j)) 0%Z = Z.of_nat (off j)) /\
      (forall off, assignment lo hi i off -> off i = s -> (val SC (score SIM off i) <= val SC (cell i s))%R).

  Lemma zero_bounded k : (0 <= k)%Z -> bounded k n0.
  Proof.
    intros Hk. destruct (sc_zero _ SC) as [G V]. split; [exact G|]. rewrite V, Rabs_R0. apply IZR_le. lia.
  Qed.
  Lemma window_dec i s : {lo i <= s <= hi i} + {~ (lo i <= s <= hi i)}.
  Proof.
    destruct (le_dec (lo i) s); destruct (le_dec s (hi i)); [left; now split|right; intros []; contradiction..].
  Qed.

  Lemma extend_assignment off i s : assignment lo hi i off -> lo (S i) <= s <= hi (S i) -> off i <= s ->
    assignment lo hi (S i) (extend off i s).
  Proof.
    intros [A B] Hs Ho. unfold extend. split; intros j Hj.
    - destruct (Nat.leb j i) eqn:E; [apply A; lia|]. assert (j = S i) by lia. subst. exact Hs.
    - destruct (Nat.leb j i) eqn:E; destruct (Nat.leb (S j) i) eqn:E2; try lia; [apply B; lia|].
      assert (j = i) by lia. subst. exact Ho.
  Qed.
  Lemma extend_old off i s j : j <= i -> extend off i s j = off j.
  Proof. intros H. unfold extend. destruct (Nat.leb j i) eqn:E; [reflexivity|lia]. Qed.
  Lemma extend_new off i s : extend off i s (S i) = s.
  Proof. unfold extend. destruct (Nat.leb (S i) i) eqn:E; [lia|reflexivity]. Qed.
  Lemma extend_score off i s : score SIM (extend off i s) (S i) =
    if Nat.eqb s (off i) then score SIM off i else nadd (SIM (S i) s) (score SIM off i).
  Proof.
    cbn [score skipped]. rewrite extend_new, extend_old by lia.
    rewrite (score_ext (extend off i s) off i) by (intros j Hj; now apply extend_old). reflexivity.
  Qed.

  Lemma inv_holds : forall i, i <= n -> inv i.
  Proof.
    induction i as [|i IH]; intros Hi.
    - assert (Hin : forall s, lo 0 <= s <= hi 0 -> cell 0 s = SIM 0 s).
      { intros s Hs. pose proof (cell_in 0 s Hi Hs) as E. cbn [dp_cell] in E. unfold cell.
        now injection E as -> _. }
      split; [|split].
      + intros s. destruct (window_dec 0 s) as [Hs|Hs].
        * rewrite Hin by exact Hs. now apply sim_ok.
        * unfold cell. rewrite cell_out by assumption. apply zero_bounded. lia.
      + intros Hp s Hs. rewrite Hin by exact Hs. now apply Hp.
      + intros s Hs. split.
        * exists (fun _ => s). split; [|split; [reflexivity|split; [cbn [score]; now rewrite Hin|intros j Hj; lia]]].
          split; intros j Hj; [|lia]. assert (j = 0) by lia. now subst.
        * intros off HA Ho. cbn [score]. rewrite Ho, Hin by exact Hs. lra.
    - destruct (IH ltac:(lia)) as (HB & HP & HW). clear IH.
      assert (Hk : (0 <= Z.of_nat i + 1 < 2 ^ 50)%Z) by lia.
      destruct (win_mono i ltac:(lia)) as [Ml Mh]. pose proof (win i ltac:(lia)) as Wi.
      (* one cell inside the window *)
      assert (step : forall s, lo (S i) <= s <= hi (S i) ->
        bounded (Z.of_nat (S i) + 1) (cell (S i) s) /\
        ((forall j s, j <= n -> lo j <= s <= hi j -> (0 < val SC (SIM j s))%R) -> (0 < val SC (cell (S i) s))%R) /\
        ((exists off, assignment lo hi (S i) off /\ off (S i) = s /\ score SIM off (S i) = cell (S i) s /\
            forall j, S j <= S i -> nth (off (S j)) (Bt (S j)) 0%Z = Z.of_nat (off j)) /\
         (forall off, assignment lo hi (S i) off -> off (S i) = s ->
            (val SC (score SIM off (S i)) <= val SC (cell (S i) s))%R))).
      { intros s Hs. pose proof (cell_in (S i) s Hi Hs) as E. cbn [dp_cell] in E.
        fold (cell (S i) s) in E.
        assert (Bs : bounded 1 (SIM (S i) s)) by (now apply sim_ok). destruct Bs as [Gs Bs].
        change (IZR (2 * 1)) with 2%R in Bs.
        (* the two ways of reaching s *)
        assert (skip : lo i <= s <= hi i -> nth s (Bt (S i)) 0%Z = Z.of_nat s -> cell (S i) s = cell i s ->
          exists off, assignment lo hi (S i) off /\ off (S i) = s /\ score SIM off (S i) = cell (S i) s /\
            forall j, S j <= S i -> nth (off (S j)) (Bt (S j)) 0%Z = Z.of_nat (off j)).
        { intros Hsi Eb Ec. destruct (HW s Hsi) as [(off & A1 & A2 & A3 & A4) _].
          exists (extend off i s). split; [apply extend_assignment; auto; lia|]. split; [apply extend_new|].
          split; [rewrite extend_score, A2, Nat.eqb_refl, A3; congruence|].
          intros j Hj. destruct (Nat.eq_dec j i) as [->|].
          - rewrite extend_new, extend_old by lia. now rewrite A2.
          - rewrite !extend_old by lia. apply A4. lia. }
        assert (match_ : forall b, lo i <= b <= hi i -> b < s -> nth s (Bt (S i)) 0%Z = Z.of_nat b ->
          cell (S i) s = nadd (SIM (S i) s) (cell i b) ->
          exists off, assignment lo hi (S i) off /\ off (S i) = s /\ score SIM off (S i) = cell (S i) s /\
            forall j, S j <= S i -> nth (off (S j)) (Bt (S j)) 0%Z = Z.of_nat (off j)).
        { intros b Hb Hbs Eb Ec. destruct (HW b Hb) as [(off & A1 & A2 & A3 & A4) _].
          exists (extend off i s). split; [apply extend_assignment; auto; lia|]. split; [apply extend_new|].
          split; [rewrite extend_score, A2; destruct (Nat.eqb s b) eqn:Q; [lia|]; rewrite A3; congruence|].
          intros j Hj. destruct (Nat.eq_dec j i) as [->|].
          - rewrite extend_new, extend_old by lia. now rewrite A2.
          - rewrite !extend_old by lia. apply A4. lia. }
        unfold back_search in E.
        destruct (Nat.eq_dec s (lo i)) as [El|Nl].
        - (* nothing before s *)
          replace (s - lo i) with 0 in E by lia. cbn [seq rev fold_left] in E.
          fold (cell i s) in E. destruct (sc_lowest _ SC) as (_ & _ & Lo). destruct (Lo _ Gs Bs) as [Gl Ll].
          assert (Q : nltb (nadd (SIM (S i) s) nlowest) (cell i s) = true).
          { apply (sc_lt _ SC); [exact Gl|apply HB|]. pose proof (bounded_above _ _ Hk (HB s)). lra. }
          rewrite Q in E. injection E as Ec Eb.
          assert (Hsi : lo i <= s <= hi i) by lia.
          split; [|split; [|split]].
          + rewrite Ec. destruct (HB s) as [G B]. split; [exact G|]. eapply Rle_trans; [exact B|]. apply IZR_le; lia.
          + intros Hp. rewrite Ec. now apply HP.
          + now apply skip.
          + intros off HA Ho. pose proof (proj2 HA i ltac:(lia)) as O1. pose proof (proj1 HA i ltac:(lia)) as O2.
            assert (Oi : off i = s) by lia. cbn [score skipped]. rewrite Ho, Oi, Nat.eqb_refl. rewrite Ec.
            apply (proj2 (HW s Hsi) off); [eapply assignment_le; [|exact HA]; lia|exact Oi].
        - assert (Hls : lo i < s) by lia.
          destruct (pick_lowest Z.of_nat (-1)%Z (Rw i) (Z.of_nat i + 1) (rev (seq (lo i) (s - lo i))) Hk)
            as (b & Hb & Eb & Mb).
          { intros C. apply (f_equal (@length nat)) in C. rewrite rev_length, seq_length in C. cbn in C. lia. }
          { intros b _. apply HB. }
          change (fun (acc : T * Z) b => if nltb (fst acc) (nth b (Rw i) n0) then (nth b (Rw i) n0, Z.of_nat b) else acc)
            with (back_step (Rw i)) in Eb.
          rewrite Eb in E. apply in_rev in Hb. apply in_seq in Hb.
          assert (Mb' : forall b', lo i <= b' < s -> (val SC (cell i b') <= val SC (cell i b))%R).
          { intros b' Hb'. apply Mb. apply -> in_rev. apply in_seq. lia. }
          fold (cell i b) in E. fold (cell i s) in E.
          assert (Hbw : lo i <= b <= hi i).
          { destruct (window_dec i b) as [W|W]; [exact W|]. exfalso. destruct mode as [M|M].
            - destruct (M i ltac:(lia)) as [M1 M2]. pose proof (win (S i) Hi). lia.
            - specialize (HP M (lo i) ltac:(lia)). specialize (Mb' (lo i) ltac:(lia)).
              unfold cell at 2 in Mb'. rewrite cell_out in Mb' by (lia || assumption).
              rewrite (proj2 (sc_zero _ SC)) in Mb'. lra. }
          destruct (HB b) as [Gb Bb].
          destruct (sc_add _ SC (Z.of_nat i + 1) (SIM (S i) s) (cell i b) Hk Gs Bs Gb Bb) as [Ga Ba].
          assert (upper : forall off, assignment lo hi (S i) off -> off (S i) = s -> off i <> s ->
            (val SC (score SIM off (S i)) <= val SC (nadd (SIM (S i) s) (cell i b)))%R).
          { intros off HA Ho Hne. pose proof (proj2 HA i ltac:(lia)) as O1. pose proof (proj1 HA i ltac:(lia)) as O2.
            cbn [score skipped]. rewrite Ho. destruct (Nat.eqb s (off i)) eqn:Q; [lia|].
            assert (HA' : assignment lo hi i off) by (eapply assignment_le; [|exact HA]; lia).
            destruct (score_bounded off i ltac:(lia) HA') as [Gsc Bsc].
            apply (sc_mono _ SC (Z.of_nat i + 1)); auto.
            eapply Rle_trans; [apply (proj2 (HW (off i) O2) off HA' eq_refl)|apply Mb'; lia]. }
          destruct (nltb (nadd (SIM (S i) s) (cell i b)) (cell i s)) eqn:Q.
          + injection E as Ec Et.
            apply (sc_lt _ SC) in Q; [|exact Ga|apply HB].
            assert (Hsi : lo i <= s <= hi i).
            { destruct (window_dec i s) as [W|W]; [exact W|]. exfalso. destruct mode as [M|M].
              - destruct (M i ltac:(lia)) as [M1 M2]. pose proof (win (S i) Hi). lia.
              - pose proof (HP M b Hbw). unfold cell at 2 in Q. rewrite cell_out in Q by (lia || assumption).
                rewrite (proj2 (sc_zero _ SC)) in Q.
                pose proof (sc_pos _ SC (Z.of_nat i + 1) (SIM (S i) s) (cell i b) Hk Gs Bs Gb Bb (M _ _ Hi Hs) ltac:(lra)). lra. }
            split; [|split; [|split]].
            * rewrite Ec. destruct (HB s) as [G B]. split; [exact G|]. eapply Rle_trans; [exact B|]. apply IZR_le; lia.
            * intros Hp. rewrite Ec. now apply HP.
            * now apply skip.
            * intros off HA Ho. rewrite Ec. destruct (Nat.eq_dec (off i) s) as [Oi|Oi].
              -- cbn [score skipped]. rewrite Ho, Oi, Nat.eqb_refl.
                 apply (proj2 (HW s Hsi) off); [eapply assignment_le; [|exact HA]; lia|exact Oi].
              -- specialize (upper off HA Ho Oi). lra.
          + injection E as Ec Et. apply lt_false in Q; [|exact Ga|apply HB].
            split; [|split; [|split]].
            * rewrite Ec. split; [exact Ga|]. eapply Rle_trans; [exact Ba|]. apply IZR_le; lia.
            * intros Hp. rewrite Ec. pose proof (HP Hp b Hbw).
              apply (sc_pos _ SC (Z.of_nat i + 1)); auto. lra.
            * apply (match_ b); auto. lia.
            * intros off HA Ho. rewrite Ec. destruct (Nat.eq_dec (off i) s) as [Oi|Oi].
              -- cbn [score skipped]. rewrite Ho, Oi, Nat.eqb_refl.
                 pose proof (proj1 HA i ltac:(lia)) as O2. rewrite Oi in O2.
                 assert (V : (val SC (score SIM off i) <= val SC (cell i s))%R)
                   by (apply (proj2 (HW s O2) off); [eapply assignment_le; [|exact HA]; lia|exact Oi]). lra.
              -- apply upper; auto. }
      split; [|split].
      + intros s. destruct (window_dec (S i) s) as [Hs|Hs]; [apply step; exact Hs|].
        unfold cell. rewrite cell_out by assumption. apply zero_bounded. lia.
      + intros Hp s Hs. apply step; assumption.
      + intros s Hs. apply step; exact Hs.
  Qed.

  (** the best cell of the last row gives a best assignment, and back-tracking follows it *)
  Lemma best_assignment last : lo n <= last <= hi n ->
    (forall s, lo n <= s <= hi n -> (val SC (cell n s) <= val SC (cell n last))%R) ->
    exists off, assignment lo hi n off /\ off n = last /\
      (forall i, i <= n -> tr Bt n (Z.of_nat last) i = Z.of_nat (off i)) /\
      forall off', assignment lo hi n off' -> (val SC (score SIM off' n) <= val SC (score SIM off n))%R.
  Proof.
    intros Hl Hb. destruct (inv_holds n (le_n n)) as (_ & _ & HW).
    destruct (HW last Hl) as [(off & A1 & A2 & A3 & A4) _]. exists off. split; [exact A1|]. split; [exact A2|].
    split.
    - assert (G : forall d, d <= n -> tr Bt n (Z.of_nat last) (n - d) = Z.of_nat (off (n - d))).
      { induction d as [|d IH]; intros Hd.
        - rewrite Nat.sub_0_r, tr_same. now rewrite A2.
        - assert (E : forall m last i, i < m -> tr Bt m last i = nth (Z.to_nat (tr Bt m last (S i))) (Bt (S i)) 0%Z).
          { clear. induction m as [|m IH]; intros last i Hi; [lia|]. cbn [tr].
            destruct (Nat.eqb i (S m)) eqn:E1; [lia|]. destruct (Nat.eqb (S i) (S m)) eqn:E2.
            - apply Nat.eqb_eq in E2. injection E2 as ->. now rewrite tr_same.
            - apply IH. lia. }
          rewrite E by lia. replace (S (n - S d)) with (n - d) by lia. rewrite IH by lia.
          rewrite Nat2Z.id. replace (n - d) with (S (n - S d)) by lia. apply A4. lia. }
      intros i Hi. specialize (G (n - i) ltac:(lia)). now replace (n - (n - i)) with i in G by lia.
    - intros off' HA. rewrite A3.
      eapply Rle_trans; [apply (proj2 (HW (off' n) (proj1 HA n (le_n n))) off' HA eq_refl)|].
      apply Hb. apply (proj1 HA). lia.
  Qed.
End Opt.
