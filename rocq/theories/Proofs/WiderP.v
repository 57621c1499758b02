(** C92: a wider search. *)
From Coq Require Import ZArith List Bool Reals Lra Lia.
From Coq Require Import ZifyBool ZifyNat.
From Verif Require Import Base.Res Base.Num Base.NumR Base.Lists Base.Mat Model.Amatrix Model.MiscMath Model.Fft Model.Window
  Model.FilterBank Model.Spectrogram Model.Nsim Model.Alignment Model.Selector Model.PatchCreator Model.MiscAudio Model.Mappers
  Model.Visqol Model.Manager Spec.FftSpec Spec.StatSpec Spec.AudioSpec Spec.AggSpec Spec.SmoothSpec Spec.MatchSpec Spec.ManagerSpec Spec.TotalSpec Spec.IdentitySpec Spec.WiderSpec
  Proofs.RealP Proofs.ShapeP Proofs.AggregateP Proofs.AggregateRP Proofs.BankP Proofs.ConvP Proofs.PatchCreatorP Proofs.SelectorP Proofs.MatchP Proofs.MatchAllP Proofs.MatchCasesP
  Proofs.NsimP Proofs.NsimSpecP Proofs.MapperCasesP Proofs.ApiP Proofs.FineRunP Proofs.TotalP Proofs.IdentityP Proofs.IdentityRunP Proofs.LevelRunP Proofs.OneRunP.
Import ListNotations.
Open Scope R_scope.

(** *** sums *)
Lemma total_plus {A} (f g : A -> R) l : total (map (fun x => f x + g x) l) = total (map f l) + total (map g l).
Proof. induction l as [|x l IH]; cbn; [lra|]. unfold total in IH. rewrite IH. lra. Qed.
Lemma total_scale {A} (f : A -> R) k l : total (map (fun x => f x * k) l) = total (map f l) * k.
Proof. induction l as [|x l IH]; cbn; [lra|]. unfold total in IH. rewrite IH. lra. Qed.
Lemma total_zero {A} (l : list A) : total (map (fun _ => 0) l) = 0.
Proof. induction l as [|x l IH]; cbn; [reflexivity|]. unfold total in IH. rewrite IH. lra. Qed.
Lemma total_swap {A B} (f : A -> B -> R) la lb :
  total (map (fun a => total (map (f a) lb)) la) = total (map (fun b => total (map (fun a => f a b) la)) lb).
Proof.
  induction la as [|a la IH]; cbn [map].
  - cbn [total fold_right]. symmetry. apply total_zero.
  - change (total (total (map (f a) lb) :: map (fun a0 => total (map (f a0) lb)) la)) with (total (map (f a) lb) + total (map (fun a0 => total (map (f a0) lb)) la)).
    rewrite IH, <- total_plus. reflexivity.
Qed.
Lemma mean_swap {A B} (f : A -> B -> R) la lb :
  mean (map (fun a => mean (map (f a) lb)) la) = mean (map (fun b => mean (map (fun a => f a b) la)) lb).
Proof.
  unfold mean. rewrite !map_length. unfold Rdiv.
  rewrite (map_ext (fun a => total (map (f a) lb) * / INR (length (map (f a) lb))) (fun a => total (map (f a) lb) * / INR (length lb))) by (intros; now rewrite map_length).
  rewrite (map_ext (fun b => total (map (fun a => f a b) la) * / INR (length (map (fun a => f a b) la))) (fun b => total (map (fun a => f a b) la) * / INR (length la))) by (intros; now rewrite map_length).
  rewrite !total_scale, total_swap. ring.
Qed.

(** *** the similarity of a patch is the mean over its bands *)
Lemma with_times_mean nb (r : psr R) lost o i fd pd : column nb (ps_means r) -> ps_sim r = mean (elems (ps_means r)) ->
  let x := with_times r lost o i fd pd in ps_sim x = mean (elems (ps_means x)).
Proof.
  intros _ E. unfold with_times. destruct lost; cbn [ps_sim ps_means]; [|exact E].
  unfold m_filled, tab, mean, total. cbn [elems]. symmetry.
  match goal with |- fold_right _ _ ?l / _ = _ => assert (Z : forall x, In x l -> x = 0) end.
  { intros x Hx. apply in_flat_map in Hx || idtac. rewrite ?in_map_iff in Hx. destruct Hx as (y & Hy). first [destruct Hy as [<- _]; reflexivity| destruct Hy as [_ Hy]; apply in_map_iff in Hy; destruct Hy as (z & <- & _); reflexivity]. }
  revert Z. match goal with |- context [fold_right _ _ ?l] => generalize l end. intros l Z.
  assert (fold_right Rplus 0 l = 0) as ->; [|change (@n0 R NumR) with 0; unfold Rdiv; ring].
  induction l as [|x l IH]; [reflexivity|]. cbn. rewrite IH by (intros; apply Z; now right). rewrite (Z x (or_introl eq_refl)). lra.
Qed.
Lemma measure_mean (A B : mat R) r : (0 < nrows A)%nat -> (0 < ncols A)%nat -> nrows A = nrows B -> ncols A = ncols B ->
  measure_patch_similarity A B = Ret r -> shaped (nrows A) r -> ps_sim r = mean (elems (ps_means r)).
Proof.
  intros HR HC ER EC E (SH & _). destruct (measure_formula A B HR HC ER EC) as (q & E' & (N1 & N2 & _) & V & S). rewrite E in E'. injection E' as <-.
  rewrite S. f_equal. pose proof (column_elems _ _ SH) as LE. destruct SH as (W & R1 & C1). apply (list_ext _ _ 0); [rewrite map_length, seq_length; lia|].
  intros i Hi. rewrite map_length, seq_length in Hi. rewrite nth_map_seq by exact Hi. destruct (V i Hi) as (V1 & _). rewrite <- V1.
  unfold at_, mget. change (@n0 R NumR) with 0. f_equal.
Qed.
Lemma matched_mean refs idx (B : mat R) p fd radius l : (0 < nrows B)%nat -> (0 < p)%nat -> shapes refs B p ->
  find_most_optimal_deg_patches measure_patch_similarity refs idx B fd radius = Ret l ->
  Forall (fun x => ps_sim x = mean (elems (ps_means x))) l.
Proof.
  intros HN HP Sh H. destruct (matched_results measure_patch_similarity _ _ _ _ _ _ _ Sh H) as (off & lost & Q1 & Q2 & Q3 & Q4 & _).
  apply Forall_forall. intros x Hx. apply In_nth_error in Hx. destruct Hx as (i & Ei).
  assert (Hi : (i < length l)%nat) by (apply nth_error_Some; congruence).
  destruct (Q4 i Hi) as (Ho & r & Er & Ex). rewrite Ex in Ei. injection Ei as <-. change (@n0 R NumR) with 0 in Er.
  assert (IR : In (ref_at refs i) refs) by (apply nth_In; lia). destruct (sh_ref _ _ _ Sh _ IR) as [S1 S2].
  assert (F1 : nrows (frames_at 0 B (Z.of_nat (off i)) p) = nrows B) by (unfold frames_at; apply tab_nrows).
  assert (F2 : ncols (frames_at 0 B (Z.of_nat (off i)) p) = p) by (unfold frames_at; apply tab_ncols).
  assert (SR : shaped (nrows (ref_at refs i)) r) by (apply (measure_shaped _ _ r) in Er; [apply Er|lia ..]).
  apply (with_times_mean (nrows (ref_at refs i))); [apply SR|]. eapply measure_mean; [| | | |exact Er|exact SR]; lia.
Qed.

(** vnsim is the mean of the patch similarities *)
Lemma summary_mean nb f32 mp fd cfb (ps : list (psr R)) r : ps <> [] -> Forall (shaped nb) ps ->
  Forall (fun x => ps_sim x = mean (elems (ps_means x))) ps -> summarise f32 mp fd cfb ps = Ret r -> sr_vnsim r = mean (map ps_sim ps).
Proof.
  intros H1 H2 H3 H. destruct (summarise_inv nb _ _ _ _ _ _ H1 H2 H) as (_ & _ & E & _ & _ & _ & _ & _ & EV & _).
  rewrite EV, average_mean, E.
  rewrite (map_ext (fun b => average (map (fun p => band_of b (ps_means p)) ps)) (fun b => mean (map (fun p => band_of b (ps_means p)) ps))) by (intros; apply average_mean).
  rewrite mean_swap. f_equal. apply map_ext_in. intros x Hx. rewrite Forall_forall in H2, H3. destruct (H2 x Hx) as (SH & _). pose proof (column_elems _ _ SH) as LE.
  rewrite (H3 x Hx). f_equal. apply (list_ext _ _ 0); [rewrite map_length, seq_length; congruence|]. intros i Hi. rewrite map_length, seq_length in Hi.
  rewrite nth_map_seq by exact Hi. reflexivity.
Qed.

Lemma find_count refs idx (B : mat R) p fd radius l : shapes refs B p ->
  find_most_optimal_deg_patches measure_patch_similarity refs idx B fd radius = Ret l ->
  calc_max_num_patches (T:=R) idx (Z.of_nat (ncols B)) (Z.of_nat p) = Ret (length l).
Proof.
  intros Sh H. destruct (find_inv measure_patch_similarity _ _ _ _ _ _ _ Sh H) as (n & rows & last & Hn & Hr & Hi & Hd & Hl & Hf & Hb).
  cbv zeta in *. destruct (backtrack_inv _ _ _ _ _ _ _ _ _ _ _ Hb) as (rs & E & Lr & _). rewrite app_nil_r in E. subst l. now rewrite Lr.
Qed.

(** the sums over the patches *)
Lemma matching_wider sw sw' nc idx n off : (sw <= sw')%Z -> matching sw nc idx n off -> matching sw' nc idx n off.
Proof. intros H [M1 M2]. split; [|exact M2]. intros i Hi. destruct (M1 i Hi). split; lia. Qed.

Lemma wider_total p (A B : mat R) idx refs fd r r' l l' : (2 <= p)%nat -> (1 <= nrows A)%nat -> (Z.of_nat (ncols A) < 2 ^ 31)%Z ->
  (1 <= Z.of_nat (ncols B) < 2 ^ 31)%Z -> nrows A = nrows B -> patch_starts p (Z.of_nat (ncols A)) idx -> create_patches (Z.of_nat p) A idx = Ret refs ->
  shapes refs B p -> (1 <= r <= r')%Z -> (Z.of_nat (ncols A) + r' * Z.of_nat p <= 2 ^ 31)%Z ->
  (forall i s, (i < length idx)%nat -> (s < ncols B)%nat ->
     0 < ps_sim (result_of (measure_patch_similarity (nth i refs (MkMat 0 0 [])) (frames_at 0%R B (Z.of_nat s) p)))) ->
  find_most_optimal_deg_patches measure_patch_similarity refs idx B fd r = Ret l ->
  find_most_optimal_deg_patches measure_patch_similarity refs idx B fd r' = Ret l' ->
  length l = length l' /\ total (map ps_sim l) <= total (map ps_sim l').
Proof.
  intros Hp Hn HA HB HR HS HC Sh Hr Hb Hpos F F'.
  assert (EL : length l = length l').
  { pose proof (find_count _ _ _ _ _ _ _ Sh F) as C1. pose proof (find_count _ _ _ _ _ _ _ Sh F') as C2. congruence. }
  split; [exact EL|].
  assert (Hb1 : (Z.of_nat (ncols A) + r * Z.of_nat p <= 2 ^ 31)%Z) by nia.
  destruct (optimal_R p A B idx refs fd r Hp Hn HA HB HR HS HC ltac:(lia) Hb1 (or_intror Hpos)) as (l1 & off & E1 & _ & M & _ & T1 & _).
  rewrite F in E1. injection E1 as <-.
  destruct (optimal_R p A B idx refs fd r' Hp Hn HA HB HR HS HC ltac:(lia) Hb (or_intror Hpos)) as (l2 & off' & E2 & _ & _ & _ & _ & T2).
  rewrite F' in E2. injection E2 as <-. rewrite <- EL in T2. unfold total. rewrite T1. apply T2.
  refine (matching_wider _ _ _ _ _ _ _ M). nia.
Qed.

Lemma mos_mono (s : bool) (l l' : list R) : mean l <= mean l' ->
  alter_for_extremes (mean l) (speech_predict s l) <= alter_for_extremes (mean l') (speech_predict s l').
Proof.
  intros H. unfold alter_for_extremes. destruct (speech_mapping s) as (_ & M & B & _).
  destruct (nltb (mean l) (ndec 15 2)) eqn:E1; destruct (nltb (mean l') (ndec 15 2)) eqn:E2.
  - apply Rle_refl.
  - apply B.
  - exfalso. cbn [nltb NumR] in E1, E2. apply Rltb_false in E1. apply Rltb_true in E2. lra.
  - apply M, H.
Qed.

Lemma run_degraded (w : world R) (m m' : manager R) ref deg msg msg' : same_but_radius m m' ->
  snd (run w m ref deg) = Ret msg -> snd (run w m' ref deg) = Ret msg' -> snd (fst (run w m ref deg)) = snd (fst (run w m' ref deg)).
Proof.
  intros (S1 & S2 & S3 & S4) H H'. destruct (run_parts w m ref deg msg H) as (d & lag & win & k & r & _ & _ & _ & _ & E & _ & G).
  destruct (run_parts w m' ref deg msg' H') as (d2 & lag2 & win2 & k2 & r2 & _ & _ & _ & _ & E' & _ & G'). rewrite S4 in G. rewrite G in G'. injection G' as <- _.
  congruence.
Qed.

Lemma run_wider (w : world R) (m m' : manager R) (ref deg : audio R) msg msg' win R1 D1 A B :
  reachable m -> reachable m' -> same_but_radius m m' -> st_no_realign (mg_settings m) = true ->
  long_enough (mg_settings m) ref -> long_enough (mg_settings m') ref -> (st_radius (mg_settings m) <= st_radius (mg_settings m'))%Z ->
  let st := mg_settings m in let sr := au_sr ref in let d' := snd (fst (run w m ref deg)) in let p := patch_size (st_speech st) in
  (window_samples sr < Z.of_nat (length (au_data d')))%Z -> (frames_in sr (length (au_data d')) < 2 ^ 31)%Z ->
  make_window sr = Ret win -> snd (build (st_speech st) (mg_bank m) ref win) = Ret R1 -> snd (build (st_speech st) (mg_bank m) d' win) = Ret D1 ->
  prepare_spectrograms (sp_data R1) (sp_data D1) = Ret (A, B) -> always_positive p A B ->
  snd (run w m ref deg) = Ret msg -> snd (run w m' ref deg) = Ret msg' ->
  length (ms_patches msg) = length (ms_patches msg') /\ ms_vnsim msg <= ms_vnsim msg' /\
  (forall s, st_mapper st = MSpeech s -> ms_moslqo msg <= ms_moslqo msg').
Proof.
  intros HR HR' SB NR HL HL' HRad st sr d' p WD FD EW EB1 EB2 EP AP HM HM'.
  pose proof (run_degraded w m m' ref deg msg msg' SB HM HM') as ED. fold d' in ED.
  destruct SB as (S1 & S2 & S3 & S4). fold st in S1, S2, S3, HL, HRad, NR. assert (NR' : st_no_realign (mg_settings m') = true) by congruence.
  destruct (run_matched w m ref deg msg HR NR HL WD FD HM) as (win1 & R2 & D2 & A2 & B2 & idx & fd & refs & sims & lag & r & E3 & B1 & BD & EP0 & EI & EFD & ER & ES & E4 & E6 & PS & Sh & NA & NB & (X1 & X2 & X3) & PF).
  destruct (run_matched w m' ref deg msg' HR' NR' HL') as (win2 & R3 & D3 & A3 & B3 & idx' & fd' & refs' & sims' & lag' & r' & E3' & B1' & BD' & EP0' & EI' & EFD' & ER' & ES' & E4' & E6' & PS' & Sh' & _).
  { rewrite <- ED. exact WD. } { rewrite <- ED. exact FD. } { exact HM'. }
  rewrite <- ED in BD'. rewrite <- S1 in B1', BD', EI', ER', Sh', PS'. rewrite <- S2 in E4'. fold st sr d' p in E3, B1, BD, EI, EFD, ER, ES, E4, PS, Sh, X1, X2, PF, NB. fold sr d' p in E3', B1', BD', EI', EFD', ER', PS', Sh'.
  rewrite EW in E3, E3'. injection E3 as <-. injection E3' as <-.
  rewrite EB1 in B1. injection B1 as <-. rewrite EB2 in BD. injection BD as <-. rewrite EP in EP0. injection EP0 as <- <-.
  pose proof (bank_invariant m HR) as [K1 K2]. pose proof (bank_invariant m' HR') as [K1' K2']. fold st in K1. rewrite <- S1 in K1'.
  rewrite <- (proj1 (build_depends (st_speech st) (mg_bank m) (mg_bank m') ref win ltac:(congruence) ltac:(congruence))) in B1'. rewrite EB1 in B1'. injection B1' as <-.
  rewrite <- (proj1 (build_depends (st_speech st) (mg_bank m) (mg_bank m') d' win ltac:(congruence) ltac:(congruence))) in BD'. rewrite EB2 in BD'. injection BD' as <-.
  rewrite EP in EP0'. injection EP0' as <- <-. rewrite EI in EI'. injection EI' as <-. rewrite EFD in EFD'. injection EFD' as <-. rewrite ER in ER'. injection ER' as <-.
  clear Sh' PS'.
  destruct (patch_size_facts (st_speech st)) as (P1 & P2 & P3). fold p in P1, P2, P3. pose proof (num_bands_pos (st_speech st)) as NP.
  destruct HL as (_ & _ & _ & _ & Rad & RB). destruct HL' as (_ & _ & _ & _ & Rad' & RB').
  assert (RBp : (frames_in sr (length (au_data ref)) + st_radius (mg_settings m') * Z.of_nat p <= 2 ^ 31)%Z).
  { rewrite <- S1 in RB'. fold sr in RB'. unfold p, patch_size. destruct (st_speech st); exact RB'. }
  destruct (wider_total p A B idx refs fd (st_radius st) (st_radius (mg_settings m')) sims sims') as (L & T); try assumption; try lia.
  { intros i s Hi Hs. change (nth i refs (MkMat 0 0 [])) with (ref_at refs i). rewrite (PF i Hi). destruct PS as (_ & _ & PSI).
    destruct (PSI (nth i idx 0%Z) (nth_In _ _ Hi)) as [J1 J2]. apply AP; assumption. }
  assert (NRP : (0 < nrows B)%nat) by lia.
  destruct (find_shaped refs idx B p _ _ sims NRP Sh ES) as [F0 F1]. destruct (find_shaped refs idx B p _ _ sims' NRP Sh ES') as [F0' F1'].
  pose proof (matched_mean refs idx B p _ _ sims NRP ltac:(lia) Sh ES) as G. pose proof (matched_mean refs idx B p _ _ sims' NRP ltac:(lia) Sh ES') as G'.
  pose proof (summary_mean _ _ _ _ _ _ _ F0 F1 G E4) as V. pose proof (summary_mean _ _ _ _ _ _ _ F0' F1' G' E4') as V'.
  destruct (summarise_inv _ _ _ _ _ _ _ F0 F1 E4) as (Y1 & _ & _ & _ & _ & _ & _ & _ & Y9 & mos & Y10 & Y11).
  destruct (summarise_inv _ _ _ _ _ _ _ F0' F1' E4') as (Y1' & _ & _ & _ & _ & _ & _ & _ & Y9' & mos' & Y10' & Y11').
  pose proof (populate_inv (nrows B) r lag msg) as P. rewrite Y1 in P. specialize (P F1 E6). pose proof (populate_inv (nrows B) r' lag' msg') as P'. rewrite Y1' in P'. specialize (P' F1' E6').
  destruct P as (Q1 & Q2 & _ & _ & _ & _ & _ & _ & _ & _ & Q11). destruct P' as (Q1' & Q2' & _ & _ & _ & _ & _ & _ & _ & _ & Q11').
  assert (VL : sr_vnsim r <= sr_vnsim r').
  { rewrite V, V'. unfold mean. rewrite !map_length, L. unfold Rdiv. apply Rmult_le_compat_r; [|exact T]. destruct (length sims') as [|n]; [cbn; rewrite Rinv_0; lra|].
    left. apply Rinv_0_lt_compat, lt_0_INR. lia. }
  split; [rewrite Q11, Q11', !map_length; exact L|]. split; [rewrite Q2, Q2'; exact VL|].
  intros s HS. rewrite Q1, Q1', Y11, Y11'. rewrite HS in Y10, Y10'. injection Y10 as <-. injection Y10' as <-.
  rewrite Y9, Y9' in *. rewrite !average_mean in *. apply mos_mono, VL.
Qed.
