(** Undefined samples in the filter bank: every entry of the spectrogram is undefined or what it is with silence in their place. *)
From Coq Require Import ZArith List Bool Reals Lra Lia Floats ZifyBool ZifyNat.
From Flocq Require Import Core.Core IEEE754.BinarySingleNaN IEEE754.PrimFloat.
From Verif Require Import Base.Res Base.Num Base.NumF Base.Lists Base.Mat Model.Amatrix Model.MiscMath Model.Window Model.Erb Model.SignalFilter
  Model.FilterBank Model.Spectrogram Spec.UndefinedSpec Spec.StableSpec Proofs.B64P Proofs.FinitePrepP.
Import ListNotations.
Open Scope Z_scope.
Notation F := PrimFloat.float.

(** undefined, or the same *)
Definition ur (x y : F) : Prop := undefined x \/ x = y.
Lemma ur_refl x : ur x x. Proof. right. reflexivity. Qed.
Lemma und_op2 (op : F -> F -> F) (bop : binary_float prec emax -> binary_float prec emax -> binary_float prec emax) :
  (forall x y, Prim2B (op x y) = bop (Prim2B x) (Prim2B y)) -> (forall y, bop B754_nan y = B754_nan) -> (forall x, bop x B754_nan = B754_nan) ->
  forall x x' y y', ur x x' -> ur y y' -> ur (op x y) (op x' y').
Proof.
  intros E N1 N2 x x' y y' [H|<-]; [intros _; left; apply undefined_B; rewrite E, (proj1 (undefined_B x) H); apply N1|].
  intros [H|<-]; [left; apply undefined_B; rewrite E, (proj1 (undefined_B y) H); apply N2|right; reflexivity].
Qed.
Lemma ur_add x x' y y' : ur x x' -> ur y y' -> ur (nadd x y) (nadd x' y').
Proof. apply (und_op2 PrimFloat.add _ add_equiv); [reflexivity|intros []; reflexivity]. Qed.
Lemma ur_sub x x' y y' : ur x x' -> ur y y' -> ur (nsub x y) (nsub x' y').
Proof. apply (und_op2 PrimFloat.sub _ sub_equiv); [reflexivity|intros []; reflexivity]. Qed.
Lemma ur_mul x x' y y' : ur x x' -> ur y y' -> ur (nmul x y) (nmul x' y').
Proof. apply (und_op2 PrimFloat.mul _ mul_equiv); [reflexivity|intros []; reflexivity]. Qed.
Lemma ur_div x x' y y' : ur x x' -> ur y y' -> ur (ndiv x y) (ndiv x' y').
Proof. apply (und_op2 PrimFloat.div _ div_equiv); [reflexivity|intros []; reflexivity]. Qed.
Lemma ur_sqrt x x' : ur x x' -> ur (nsqrt x) (nsqrt x').
Proof. intros [H|<-]; [left|right; reflexivity]. apply undefined_B. change (nsqrt x) with (PrimFloat.sqrt x). rewrite sqrt_equiv, (proj1 (undefined_B x) H). reflexivity. Qed.

Definition urs := Forall2 ur.
Lemma urs_refl l : urs l l. Proof. induction l; constructor; [apply ur_refl|assumption]. Qed.
Lemma urs_len l l' : urs l l' -> length l = length l'. Proof. induction 1; cbn; congruence. Qed.
Lemma urs_nth l l' i : urs l l' -> ur (nth i l n0) (nth i l' n0).
Proof. intros H. revert i. induction H; intros [|i]; cbn [nth]; auto using ur_refl. Qed.
Lemma urs_map {A} (f g : A -> F) l : (forall a, In a l -> ur (f a) (g a)) -> urs (map f l) (map g l).
Proof. induction l; intros H; constructor; [apply H; left; reflexivity|apply IHl; intros; apply H; right; assumption]. Qed.
Lemma urs_map2 (f : F -> F) l l' : (forall a b, ur a b -> ur (f a) (f b)) -> urs l l' -> urs (map f l) (map f l').
Proof. intros H H2. induction H2; constructor; auto. Qed.
Lemma urs_app a a' b b' : urs a a' -> urs b b' -> urs (a ++ b) (a' ++ b'). Proof. apply Forall2_app. Qed.
Lemma urs_firstn n l l' : urs l l' -> urs (firstn n l) (firstn n l').
Proof. intros H. revert n. induction H; intros [|n]; cbn [firstn]; constructor; auto; apply IHForall2. Qed.
Lemma urs_skipn n l l' : urs l l' -> urs (skipn n l) (skipn n l').
Proof. intros H. revert n. induction H; intros [|n]; cbn [skipn]; try constructor; auto; apply IHForall2. Qed.
Lemma urs_sum l l' : urs l l' -> ur (nsum l) (nsum l').
Proof. unfold nsum. generalize (ur_refl n0). generalize (@n0 F NumF) at 1 3. generalize (@n0 F NumF). intros b a H H2. revert a b H. induction H2; intros u v Huv; cbn [fold_left]; auto using ur_add. Qed.

(** *** the filter *)
Lemma cond_ur b a x x' y y' f f' : ur x x' -> ur y y' -> urs f f' -> urs (filter_cond b a x y f) (filter_cond b a x' y' f').
Proof.
  intros X Y H. unfold filter_cond. rewrite (urs_len _ _ H). apply urs_map. intros i _. destruct (Nat.ltb _ _); [|apply urs_nth, H].
  apply ur_sub; [apply ur_add; [apply ur_mul; [apply ur_refl|exact X]|apply urs_nth, H]|apply ur_mul; [apply ur_refl|exact Y]].
Qed.
Lemma loop_ur b a sig sig' : urs sig sig' -> forall f f', urs f f' -> urs (fst (filter_loop b a sig f)) (fst (filter_loop b a sig' f')) /\ urs (snd (filter_loop b a sig f)) (snd (filter_loop b a sig' f')).
Proof.
  intros H. induction H as [|x x' t t' X H IH]; intros f f' HF; [split; [constructor|exact HF]|]. cbn [filter_loop].
  assert (Y : ur (nadd (nmul (nth 0 b n0) x) (nth 0 f n0)) (nadd (nmul (nth 0 b n0) x') (nth 0 f' n0))) by (apply ur_add; [apply ur_mul; [apply ur_refl|exact X]|apply urs_nth, HF]).
  specialize (IH _ _ (cond_ur b a x x' _ _ f f' X Y HF)).
  destruct (filter_loop b a t _) as [ys g]. destruct (filter_loop b a t' _) as [ys' g']. cbn [fst snd] in *. split; [constructor; [exact Y|apply IH]|apply IH].
Qed.
Lemma filter_ur b a sig sig' ic ic' y f : urs sig sig' -> urs ic ic' -> signal_filter b a sig ic = Ret (y, f) ->
  exists y' f', signal_filter b a sig' ic' = Ret (y', f') /\ urs y y' /\ urs f f'.
Proof.
  intros H HI. unfold signal_filter. rewrite (urs_len _ _ HI). destruct (_ || _); [discriminate|].
  pose proof (loop_ur b a sig sig' H _ _ (urs_app _ _ _ _ HI (urs_refl (repeat n0 (length a - length ic'))))) as X.
  destruct (filter_loop b a sig _) as [ys g]. destruct (filter_loop b a sig' _) as [ys' g']. cbn [fst snd] in X. intros E. injection E as <- <-.
  eexists _, _. split; [reflexivity|]. split; [apply X|apply urs_firstn, X].
Qed.
Definition cur (c c' : list F * list F * list F * list F) : Prop :=
  let '(a, b, d, e) := c in let '(a', b', d', e') := c' in urs a a' /\ urs b b' /\ urs d d' /\ urs e e'.
Lemma cur_refl c : cur c c. Proof. destruct c as [[[a b] d] e]. repeat split; apply urs_refl. Qed.
Lemma band_ur c cond cond' sig sig' y f : cur cond cond' -> urs sig sig' -> band_filter c cond sig = Ret (y, f) ->
  exists y' f', band_filter c cond' sig' = Ret (y', f') /\ urs y y' /\ cur f f'.
Proof.
  destruct cond as [[[f1 f2] f3] f4]. destruct cond' as [[[f1' f2'] f3'] f4']. intros (C1 & C2 & C3 & C4) H. unfold band_filter.
  destruct (signal_filter _ _ sig f1) as [[y1 g1]| | |] eqn:E1; try discriminate. cbn [bind]. destruct (filter_ur _ _ _ _ _ _ _ _ H C1 E1) as (y1' & g1' & E1' & Y1 & G1). rewrite E1'. cbn [bind].
  destruct (signal_filter _ _ y1 f2) as [[y2 g2]| | |] eqn:E2; try discriminate. cbn [bind]. destruct (filter_ur _ _ _ _ _ _ _ _ Y1 C2 E2) as (y2' & g2' & E2' & Y2 & G2). rewrite E2'. cbn [bind].
  destruct (signal_filter _ _ y2 f3) as [[y3 g3]| | |] eqn:E3; try discriminate. cbn [bind]. destruct (filter_ur _ _ _ _ _ _ _ _ Y2 C3 E3) as (y3' & g3' & E3' & Y3 & G3). rewrite E3'. cbn [bind].
  destruct (signal_filter _ _ y3 f4) as [[y4 g4]| | |] eqn:E4; try discriminate. cbn [bind]. destruct (filter_ur _ _ _ _ _ _ _ _ Y3 C4 E4) as (y4' & g4' & E4' & Y4 & G4). rewrite E4'. cbn [bind].
  intros E. injection E as <- <-. eexists _, _. split; [reflexivity|]. split; [exact Y4|]. repeat split; assumption.
Qed.
Lemma bands_ur n : forall cs conds conds' sig sig' ys fs, Forall2 cur conds conds' -> urs sig sig' -> bands_filter cs conds n sig = Ret (ys, fs) ->
  exists ys' fs', bands_filter cs conds' n sig' = Ret (ys', fs') /\ Forall2 urs ys ys' /\ Forall2 cur fs fs'.
Proof.
  induction n as [|n IH]; intros cs conds conds' sig sig' ys fs HC HS E.
  - assert (X : bands_filter cs conds 0 sig = Ret ([], conds)) by (destruct cs, conds; reflexivity). rewrite X in E. injection E as <- <-. exists [], conds'. split; [destruct cs, conds'; reflexivity|]. split; [constructor|exact HC].
  - destruct cs as [|c cs]; [discriminate|]. destruct HC as [|f f' conds conds' Hf HC]; [discriminate|]. cbn [bands_filter] in *.
    destruct (band_filter c f sig) as [[y g]| | |] eqn:E1; try discriminate. cbn [bind] in E. destruct (band_ur _ _ _ _ _ _ _ Hf HS E1) as (y' & g' & E1' & Y & G). rewrite E1'. cbn [bind].
    destruct (bands_filter cs conds n sig) as [[ys1 fs1]| | |] eqn:E2; try discriminate. cbn [bind] in E. destruct (IH _ _ _ _ _ _ _ HC HS E2) as (ys' & fs' & E2' & YS & FS). rewrite E2'. cbn [bind].
    injection E as <- <-. eexists _, _. split; [reflexivity|]. split; constructor; assumption.
Qed.
Definition bur (k k' : bank F) : Prop := bk_bands k = bk_bands k' /\ bk_min k = bk_min k' /\ bk_coef k = bk_coef k' /\ Forall2 cur (bk_cond k) (bk_cond k').
Lemma apply_ur k k' sig sig' ys k1 : bur k k' -> urs sig sig' -> apply_filter k sig = Ret (ys, k1) -> exists ys' k1', apply_filter k' sig' = Ret (ys', k1') /\ Forall2 urs ys ys' /\ bur k1 k1'.
Proof.
  intros (B1 & B2 & B3 & B4) H. unfold apply_filter. rewrite <- B1, <- B3. destruct (bands_filter _ _ _ sig) as [[y f]| | |] eqn:E; try discriminate. cbn [bind].
  destruct (bands_ur _ _ _ _ _ _ _ _ B4 H E) as (ys' & fs' & E' & Y & FS). rewrite E'. cbn [bind]. intros X. injection X as <- <-. eexists _, _. split; [reflexivity|]. split; [exact Y|]. repeat split; cbn; assumption.
Qed.
Lemma rms_ur y y' : urs y y' -> ur (row_rms y) (row_rms y').
Proof.
  intros H. unfold row_rms, vmean. apply ur_sqrt. rewrite !map_length, (urs_len _ _ H). apply ur_div; [|apply ur_refl]. apply urs_sum, urs_map2; [|exact H]. intros a b X. apply ur_mul; exact X.
Qed.
Lemma cur_repeat n c : Forall2 cur (repeat c n) (repeat c n). Proof. induction n; constructor; [apply cur_refl|assumption]. Qed.
Section Frames.
  Context {L : Libm F}.
  Lemma hann_ur (w : window F) s s' f : urs s s' -> apply_hann w s = Ret f -> exists f', apply_hann w s' = Ret f' /\ urs f f'.
  Proof.
    intros H. unfold apply_hann. rewrite (urs_len _ _ H). destruct (Nat.ltb _ _); [discriminate|]. intros E. injection E as <-. eexists. split; [reflexivity|].
    apply urs_map. intros i _. destruct (Nat.ltb _ _); [apply ur_mul; [apply ur_refl|apply urs_nth, H]|apply ur_refl].
  Qed.
  Lemma frames_ur (w : window F) hop sig sig' : urs sig sig' -> forall is k k' cols k1, bur k k' -> build_frames w hop sig is k = Ret (cols, k1) ->
    exists cols' k1', build_frames w hop sig' is k' = Ret (cols', k1') /\ Forall2 urs cols cols' /\ bur k1 k1'.
  Proof.
    intros H. induction is as [|i is IH]; intros k k' cols k1 HB; cbn [build_frames].
    - intros E. injection E as <- <-. eexists _, _. split; [reflexivity|]. split; [constructor|exact HB].
    - rewrite (urs_len _ _ H). destruct (Nat.ltb _ _); [discriminate|].
      destruct (apply_hann w (firstn (w_size w) (skipn (i * hop) sig))) as [wf| | |] eqn:E1; try discriminate. cbn [bind].
      destruct (hann_ur w _ (firstn (w_size w) (skipn (i * hop) sig')) wf (urs_firstn _ _ _ (urs_skipn _ _ _ H)) E1) as (wf' & E1' & WF). rewrite E1'. cbn [bind].
      destruct (apply_filter (reset_conditions k) wf) as [[ys k2]| | |] eqn:E2; try discriminate. cbn [bind].
      assert (RB : bur (reset_conditions k) (reset_conditions k')). { destruct HB as (B1 & B2 & B3 & B4). unfold reset_conditions. repeat split; cbn; try assumption. rewrite B1. apply cur_repeat. }
      destruct (apply_ur _ _ _ _ _ _ RB WF E2) as (ys' & k2' & E2' & YS & K2). rewrite E2'. cbn [bind].
      destruct (build_frames w hop sig is k2) as [[cs k3]| | |] eqn:E3; try discriminate. cbn [bind]. destruct (IH _ _ _ _ K2 E3) as (cs' & k3' & E3' & CS & K3). rewrite E3'. cbn [bind].
      intros E. injection E as <- <-. eexists _, _. split; [reflexivity|]. split; [|exact K3]. constructor; [|exact CS].
      clear - YS. induction YS; constructor; [apply rms_ur; assumption|assumption].
  Qed.
End Frames.

(** *** the spectrogram *)
Definition silent_sample (x : F) : F := if PrimFloat.eqb x x then x else 0%float.
Lemma silent_ur l : urs l (map silent_sample l).
Proof. induction l as [|x l IH]; constructor; [|exact IH]. unfold silent_sample. destruct (PrimFloat.eqb x x) eqn:E; [right; reflexivity|left; exact E]. Qed.
Lemma concat_ur cols cols' : Forall2 urs cols cols' -> urs (concat cols) (concat cols').
Proof. induction 1; cbn [concat]; [constructor|apply urs_app; assumption]. Qed.
Lemma build_ur {L : Libm F} speech (k : bank F) s w sp : snd (build speech k s w) = Ret sp ->
  exists sp', snd (build speech k (MkAudio (map silent_sample (au_data s)) (au_sr s)) w) = Ret sp' /\ urs (elems (sp_data sp)) (elems (sp_data sp')).
Proof.
  unfold build. cbn [au_sr au_data]. destruct (prepared_bank speech k (au_sr s)) as [k1 cfb]. destruct (hop_size w) as [hop|]; [|discriminate]. rewrite map_length.
  destruct (Nat.leb _ _); [discriminate|]. destruct (Z.leb _ _); [discriminate|].
  destruct (build_frames w (Z.to_nat hop) (au_data s) _ k1) as [[cols k2]| | |] eqn:E; try discriminate. cbn [snd]. intros X. injection X as <-.
  assert (BK : bur k1 k1) by (repeat split; clear; induction (bk_cond k1); constructor; [apply cur_refl|assumption]).
  destruct (frames_ur w _ _ _ (silent_ur (au_data s)) _ _ _ _ _ BK E) as (cols' & k2' & E' & CS & _). rewrite E'. cbn [snd]. eexists. split; [reflexivity|]. cbn [sp_data elems]. apply concat_ur, CS.
Qed.
