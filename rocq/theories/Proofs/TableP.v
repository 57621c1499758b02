(** The tables that are printed (C104). *)
From Coq Require Import ZArith List Bool Ascii String DecimalString DecimalNat DecimalFacts Lia ZifyNat.
From Coq Require Decimal.
From Coq Require Rdefinitions.
Notation R := Rdefinitions.R.
From Verif Require Import Base.Res Base.Num Base.NumR Base.Lists Model.Mappers Model.Nsim Model.Manager Model.Cli Spec.CliSpec Spec.TableSpec Proofs.MapperP Proofs.CliFileP.
Import ListNotations.
Open Scope nat_scope.
Open Scope string_scope.

Lemma len_app a b : String.length (a ++ b) = String.length a + String.length b.
Proof. induction a as [|x a IH]; [reflexivity|]. cbn. rewrite IH. reflexivity. Qed.
Lemma str_assoc (a b c : string) : (a ++ b) ++ c = a ++ b ++ c.
Proof. induction a as [|x a IH]; [reflexivity|]. cbn. rewrite IH. reflexivity. Qed.
Lemma free_app c a b : free_of c a -> free_of c b -> free_of c (a ++ b).
Proof. unfold free_of. induction a as [|x a IH]; [auto|]. cbn. intros H1 H2 [E|E]; [apply H1; left; exact E|]. revert E. apply IH; [|exact H2]. intros X. apply H1. right. exact X. Qed.
Lemma bars_app a b : forall k, bars k (a ++ b) = (bars k a ++ bars (k + String.length a) b)%list.
Proof.
  induction a as [|x a IH]; intros k; cbn [append bars String.length]; [rewrite Nat.add_0_r; reflexivity|]. rewrite IH. replace (k + S (String.length a)) with (S k + String.length a) by lia. destruct (Ascii.eqb x "|"); reflexivity.
Qed.
Lemma bars_free a : free_of "|" a -> forall k, bars k a = [].
Proof.
  unfold free_of. induction a as [|x a IH]; intros H k; [reflexivity|]. cbn in *. destruct (Ascii.eqb_spec x "|") as [E|E]; [exfalso; apply H; left; exact E|]. apply IH. intros X. apply H. right. exact X.
Qed.
Lemma spaces_len n : String.length (spaces n) = n. Proof. induction n; cbn; congruence. Qed.
Lemma spaces_free c n : c <> " "%char -> free_of c (spaces n).
Proof. intros H. unfold free_of. induction n as [|n IH]; cbn; [tauto|]. intros [E|E]; [congruence|contradiction]. Qed.
Lemma pad_fits w s : fits w s -> String.length (pad w s) = w /\ free_of char_nl (pad w s) /\ free_of "|" (pad w s).
Proof.
  intros (H1 & H2 & H3). unfold pad. rewrite len_app, spaces_len. split; [lia|]. split; apply free_app; try assumption; apply spaces_free; discriminate.
Qed.
Lemma sub_0 b c : String.substring 0 (String.length b) (b ++ c) = b.
Proof. induction b as [|x b IH]; cbn; [destruct c; reflexivity|]. rewrite IH. reflexivity. Qed.
Lemma sub_skip a s n : forall p, String.substring (String.length a + p) n (a ++ s) = String.substring p n s.
Proof. induction a as [|x a IH]; intros p; cbn; [reflexivity|]. apply IH. Qed.
Lemma spaces_all n : Forall (fun a => a = " "%char) (list_ascii_of_string (spaces n)). Proof. induction n; cbn; constructor; auto. Qed.
Lemma shows_pad a w s c p : String.length a = p -> String.length s <= w -> shows (a ++ pad w s ++ c) p w s.
Proof.
  intros <- H. split; [exact H|]. unfold pad. rewrite str_assoc. split.
  - replace (String.length a + w - String.length s) with (String.length a + (w - String.length s)) by lia. rewrite sub_skip.
    pose proof (sub_skip (spaces (w - String.length s)) (s ++ c) (String.length s) 0) as E. rewrite Nat.add_0_r, spaces_len in E. rewrite E. apply sub_0.
  - pose proof (sub_skip a (spaces (w - String.length s) ++ s ++ c) (w - String.length s) 0) as E. rewrite Nat.add_0_r in E. rewrite E.
    pose proof (sub_0 (spaces (w - String.length s)) (s ++ c)) as E2. rewrite spaces_len in E2. rewrite E2. apply spaces_all.
Qed.
(** *** decimal numbers *)
Lemma uint_free c (u : Decimal.uint) : ~ In c (list_ascii_of_string "0123456789") -> free_of c (NilEmpty.string_of_uint u).
Proof.
  intros H. unfold free_of. induction u as [|u IH|u IH|u IH|u IH|u IH|u IH|u IH|u IH|u IH|u IH]; cbn; [tauto|..]; (intros [E|E]; [apply H; rewrite <- E; cbn; tauto|contradiction]).
Qed.
Lemma uint_len (u : Decimal.uint) : String.length (NilEmpty.string_of_uint u) = Decimal.nb_digits u.
Proof. induction u; cbn; congruence. Qed.
Lemma acc_large : forall (u : Decimal.uint) a, (Z.of_nat a * 10 ^ Z.of_nat (Decimal.nb_digits u) <= Z.of_nat (Nat.of_uint_acc u a))%Z.
Proof.
  induction u as [|u IH|u IH|u IH|u IH|u IH|u IH|u IH|u IH|u IH|u IH]; intros a; cbn [Decimal.nb_digits Nat.of_uint_acc]; [lia|..];
    (eapply Z.le_trans; [|apply IH]; rewrite Nat2Z.inj_succ, Z.pow_succ_r by lia; rewrite Z.mul_assoc; apply Z.mul_le_mono_nonneg_r; [apply Z.pow_nonneg; lia|]; rewrite Nat.tail_mul_spec; lia).
Qed.
Lemma first_digit u a n k : Nat.of_uint_acc u a = n -> 1 <= a -> (Z.of_nat n < 10 ^ Z.of_nat k)%Z -> S (Decimal.nb_digits u) <= k.
Proof.
  intros OT Ha H. pose proof (acc_large u a) as L. rewrite OT in L. destruct (Nat.le_gt_cases (S (Decimal.nb_digits u)) k) as [|C]; [assumption|]. exfalso.
  assert (M : (10 ^ Z.of_nat k <= 10 ^ Z.of_nat (Decimal.nb_digits u))%Z) by (apply Z.pow_le_mono_r; lia).
  assert (P : (0 < 10 ^ Z.of_nat (Decimal.nb_digits u))%Z) by (apply Z.pow_pos_nonneg; lia). nia.
Qed.
Lemma dec_len n k : (Z.of_nat n < 10 ^ Z.of_nat k)%Z -> 1 <= k -> String.length (dec_string n) <= k.
Proof.
  intros H Hk. unfold dec_string. pose proof (Unsigned.of_to n) as OT. assert (UN : Nat.to_uint n = Decimal.unorm (Nat.to_uint n)) by (rewrite <- Unsigned.to_of, OT; reflexivity).
  assert (X : Decimal.nb_digits (Nat.to_uint n) <= k /\ Nat.to_uint n <> Decimal.Nil).
  { split; [|apply to_uint_nonnil]. destruct (Nat.to_uint n) as [|u|u|u|u|u|u|u|u|u|u] eqn:E; cbn [Decimal.nb_digits] in *; [lia| |..].
    - unfold Decimal.unorm in UN. destruct (Decimal.nzhead (Decimal.D0 u)) eqn:EN; try discriminate; [injection UN as ->; cbn; lia|]. exfalso. exact (nzhead_nonzero _ _ EN).
    all: unfold Nat.of_uint in OT; cbn [Nat.of_uint_acc] in OT; match type of OT with Nat.of_uint_acc ?v ?a = _ => apply (first_digit v a n k OT); [cbn; lia|exact H] end. }
  destruct X as [X1 X2]. unfold NilZero.string_of_uint. destruct (Nat.to_uint n) eqn:E; [contradiction|..]; rewrite uint_len; exact X1.
Qed.
Lemma dec_free c n : ~ In c (list_ascii_of_string "0123456789") -> free_of c (dec_string n).
Proof. intros H. unfold dec_string, NilZero.string_of_uint. pose proof (to_uint_nonnil n). destruct (Nat.to_uint n) eqn:E; [contradiction|..]; apply uint_free; exact H. Qed.
Lemma dec_fits n k : (Z.of_nat n < 10 ^ Z.of_nat k)%Z -> 1 <= k -> fits k (dec_string n).
Proof.
  intros H Hk. split; [|split; [|apply dec_len; assumption]]; apply dec_free; cbn; intros X; repeat destruct X as [X|X]; try discriminate X; exact X.
Qed.

(** *** lines *)
Lemma concat_cons x l : String.concat "" (x :: l) = x ++ String.concat "" l.
Proof. destruct l; [cbn; induction x as [|a x IH]; cbn; [reflexivity|f_equal; exact IH]|reflexivity]. Qed.
Lemma concat_app l l' : String.concat "" (l ++ l')%list = String.concat "" l ++ String.concat "" l'.
Proof. induction l as [|x l IH]; [reflexivity|]. cbn [List.app]. rewrite !concat_cons, IH. symmetry. apply str_assoc. Qed.
Definition ended (l : string) : string := l ++ String char_nl "".
Lemma cut ls s : Forall (free_of char_nl) ls -> s = String.concat "" (map ended ls) -> text_lines s = ls.
Proof. intros H ->. apply lines_join. exact H. Qed.

Definition head76 : string := "| Patch Idx | Similarity | Ref Patch: Start - End | Deg Patch: Start - End |".
Definition head39 : string := "|  FVNSIM  |  FVNSIM10  |  Freq Band  |".
Ltac clear_free := let X := fresh in unfold free_of; cbn; intros X; repeat destruct X as [X|X]; try discriminate X; exact X.
Lemma nl_ended : nl = String char_nl "". Proof. reflexivity. Qed.

Section Tables.
  Context {T : Type} {N : Num T}.
  Variable F : formats T.
  Definition row_text (i : nat) (p : patch_msg T) : string :=
    "| " ++ pad 9 (dec_string i) ++ " | " ++ pad 10 (fm_fixed F 6 (pm_sim p))
         ++ " | " ++ pad 11 (fm_fixed F 3 (pm_ref_start p)) ++ "  - " ++ pad 7 (fm_fixed F 3 (pm_ref_end p))
         ++ " | " ++ pad 11 (fm_fixed F 3 (pm_deg_start p)) ++ "  - " ++ pad 7 (fm_fixed F 3 (pm_deg_end p)) ++ " |".
  Fixpoint row_texts (i : nat) (l : list (patch_msg T)) : list string := match l with [] => [] | p :: t => row_text i p :: row_texts (S i) t end.
  Lemma patch_line_ended i p : patch_line F i p = ended (row_text i p).
  Proof. unfold patch_line, ended, row_text. rewrite !str_assoc. rewrite nl_ended. reflexivity. Qed.
  Lemma patch_lines_ended : forall l i, patch_lines F i l = String.concat "" (map ended (row_texts i l)).
  Proof. induction l as [|p l IH]; intros i; [reflexivity|]. cbn [patch_lines row_texts map]. rewrite concat_cons, IH, patch_line_ended. reflexivity. Qed.
  Lemma patches_ended m : format_patches F m = String.concat "" (map ended ([rule76; head76; rule76] ++ row_texts 0 (ms_patches m) ++ [rule76; ""])%list).
  Proof.
    unfold format_patches. rewrite patch_lines_ended, !map_app, !concat_app. cbn [map]. rewrite !concat_cons. unfold ended. rewrite nl_ended. rewrite !str_assoc. cbn [String.concat]. try rewrite !str_assoc. reflexivity.
  Qed.
  Lemma row_ok i p : (Z.of_nat i < 10 ^ 9)%Z -> patch_fits F p -> barred 76 [0; 12; 25; 50; 75] (row_text i p) /\ free_of char_nl (row_text i p).
  Proof.
    intros Hi (P1 & P2 & P3 & P4 & P5). pose proof (dec_fits i 9 Hi ltac:(lia)) as P0.
    destruct (pad_fits _ _ P0) as (L0 & N0 & B0). destruct (pad_fits _ _ P1) as (L1 & N1 & B1). destruct (pad_fits _ _ P2) as (L2 & N2 & B2). destruct (pad_fits _ _ P3) as (L3 & N3 & B3).
    destruct (pad_fits _ _ P4) as (L4 & N4 & B4). destruct (pad_fits _ _ P5) as (L5 & N5 & B5). unfold row_text. split; [split|].
    - rewrite !len_app, L0, L1, L2, L3, L4, L5. reflexivity.
    - rewrite !bars_app, L0, L1, L2, L3, L4, L5. rewrite !(bars_free (pad _ _)) by assumption. reflexivity.
    - repeat (first [assumption|apply free_app]); clear_free.
  Qed.
  Lemma row_shows i p : (Z.of_nat i < 10 ^ 9)%Z -> patch_fits F p -> shows_patch F i p (row_text i p).
  Proof.
    intros Hi (P1 & P2 & P3 & P4 & P5). pose proof (dec_fits i 9 Hi ltac:(lia)) as P0.
    destruct (pad_fits _ _ P0) as (L0 & _ & _). destruct (pad_fits _ _ P1) as (L1 & _ & _). destruct (pad_fits _ _ P2) as (L2 & _ & _). destruct (pad_fits _ _ P3) as (L3 & _ & _). destruct (pad_fits _ _ P4) as (L4 & _ & _). destruct (pad_fits _ _ P5) as (L5 & _ & _).
    destruct P0 as (_ & _ & P0). destruct P1 as (_ & _ & P1). destruct P2 as (_ & _ & P2). destruct P3 as (_ & _ & P3). destruct P4 as (_ & _ & P4). destruct P5 as (_ & _ & P5).
    unfold shows_patch, row_text. split; [exact (shows_pad "| " _ _ _ _ eq_refl P0)|].
    split; [rewrite <- !(str_assoc _ _ (pad 10 _ ++ _)); apply shows_pad; [rewrite !len_app, L0; reflexivity|exact P1]|].
    split; [rewrite <- !(str_assoc _ _ (pad 11 (fm_fixed F 3 (pm_ref_start p)) ++ _)); apply shows_pad; [rewrite !len_app, L0, L1; reflexivity|exact P2]|].
    split; [rewrite <- !(str_assoc _ _ (pad 7 (fm_fixed F 3 (pm_ref_end p)) ++ _)); apply shows_pad; [rewrite !len_app, L0, L1, L2; reflexivity|exact P3]|].
    split; [rewrite <- !(str_assoc _ _ (pad 11 (fm_fixed F 3 (pm_deg_start p)) ++ _)); apply shows_pad; [rewrite !len_app, L0, L1, L2, L3; reflexivity|exact P4]|].
    rewrite <- !(str_assoc _ _ (pad 7 (fm_fixed F 3 (pm_deg_end p)) ++ _)); apply shows_pad; [rewrite !len_app, L0, L1, L2, L3, L4; reflexivity|exact P5].
  Qed.
  Lemma rows_ok : forall l i, (Z.of_nat (i + List.length l) <= 10 ^ 9)%Z -> Forall (patch_fits F) l ->
    List.length (row_texts i l) = List.length l /\ Forall (fun x => barred 76 [0; 12; 25; 50; 75] x /\ free_of char_nl x) (row_texts i l).
  Proof.
    induction l as [|p l IH]; intros i H HF; [split; [reflexivity|constructor]|]. inversion HF as [|? ? F1 F2]; subst. cbn [List.length row_texts] in *.
    destruct (IH (S i) ltac:(lia) F2) as [E1 E2]. split; [congruence|]. constructor; [apply row_ok; [lia|exact F1]|exact E2].
  Qed.
  Lemma rule76_ok : ruled 76 rule76. Proof. split; [reflexivity|]. repeat constructor. Qed.
  Lemma rule39_ok : ruled 39 rule39. Proof. split; [reflexivity|]. repeat constructor. Qed.
  Lemma rule76_free : free_of char_nl rule76. Proof. clear_free. Qed.
  Lemma rule39_free : free_of char_nl rule39. Proof. clear_free. Qed.
  Lemma rows_show : forall l j, (Z.of_nat (j + List.length l) <= 10 ^ 9)%Z -> Forall (patch_fits F) l ->
    forall i p, nth_error l i = Some p -> exists x, nth_error (row_texts j l) i = Some x /\ shows_patch F (j + i) p x.
  Proof.
    induction l as [|q l IH]; intros j H HF i p E; [destruct i; discriminate|]. inversion HF as [|? ? F1 F2]; subst. cbn [List.length row_texts] in *.
    destruct i as [|i]; cbn in E |- *.
    - injection E as ->. eexists. split; [reflexivity|]. rewrite Nat.add_0_r. apply row_shows; [lia|exact F1].
    - replace (j + S i) with (S j + i) by lia. apply (IH (S j)); [lia|exact F2|exact E].
  Qed.
  Lemma patches_table m : Forall (patch_fits F) (ms_patches m) -> (Z.of_nat (List.length (ms_patches m)) <= 10 ^ 9)%Z ->
    exists r1 h r2 rows r3, text_lines (format_patches F m) = ([r1; h; r2] ++ rows ++ [r3; ""])%list /\ Forall (ruled 76) [r1; r2; r3] /\
      Forall (barred 76 [0; 12; 25; 50; 75]) (h :: rows) /\ List.length rows = List.length (ms_patches m) /\
      forall i p, nth_error (ms_patches m) i = Some p -> exists x, nth_error rows i = Some x /\ shows_patch F i p x.
  Proof.
    intros HF HL. destruct (rows_ok (ms_patches m) 0 HL HF) as [E1 E2]. exists rule76, head76, rule76, (row_texts 0 (ms_patches m)), rule76. split; [|split; [|split; [|split]]].
    - apply cut; [|apply patches_ended]. pose proof rule76_free as RF. apply Forall_app. split; [repeat constructor; try assumption; clear_free|]. apply Forall_app. split; [eapply Forall_impl; [|exact E2]; intros x Hx; apply Hx|].
      repeat constructor; try assumption; clear_free.
    - pose proof rule76_ok. repeat constructor; assumption.
    - constructor; [split; reflexivity|]. eapply Forall_impl; [|exact E2]. intros x Hx. apply Hx.
    - exact E1.
    - exact (rows_show (ms_patches m) 0 HL HF).
  Qed.

  Definition band_text (a b c : T) : string := "| " ++ pad 8 (fm_fixed F 6 a) ++ " | " ++ pad 10 (fm_fixed F 6 b) ++ " | " ++ pad 9 (fm_fixed F 1 c) ++ "Hz" ++ " |".
  Lemma band_ok a b c : fits 8 (fm_fixed F 6 a) -> fits 10 (fm_fixed F 6 b) -> fits 9 (fm_fixed F 1 c) -> barred 39 [0; 11; 24; 38] (band_text a b c) /\ free_of char_nl (band_text a b c).
  Proof.
    intros P1 P2 P3. destruct (pad_fits _ _ P1) as (L1 & N1 & B1). destruct (pad_fits _ _ P2) as (L2 & N2 & B2). destruct (pad_fits _ _ P3) as (L3 & N3 & B3). unfold band_text. split; [split|].
    - rewrite !len_app, L1, L2, L3. reflexivity.
    - rewrite !bars_app, L1, L2, L3. rewrite !(bars_free (pad _ _)) by assumption. reflexivity.
    - repeat (first [assumption|apply free_app]); clear_free.
  Qed.
  Lemma band_shows a b c : fits 8 (fm_fixed F 6 a) -> fits 10 (fm_fixed F 6 b) -> fits 9 (fm_fixed F 1 c) -> shows_band F a b c (band_text a b c).
  Proof.
    intros P1 P2 P3. destruct (pad_fits _ _ P1) as (L1 & _ & _). destruct (pad_fits _ _ P2) as (L2 & _ & _). destruct P1 as (_ & _ & P1). destruct P2 as (_ & _ & P2). destruct P3 as (_ & _ & P3).
    unfold shows_band, band_text. split; [exact (shows_pad "| " _ _ _ _ eq_refl P1)|].
    split; [rewrite <- !(str_assoc _ _ (pad 10 _ ++ _)); apply shows_pad; [rewrite !len_app, L1; reflexivity|exact P2]|].
    rewrite <- !(str_assoc _ _ (pad 9 _ ++ _)); apply shows_pad; [rewrite !len_app, L1, L2; reflexivity|exact P3].
  Qed.
  Lemma band_lines m n : bands_fit F m -> (forall i, i < n -> i < List.length (ms_fvnsim m)) -> List.length (ms_fvnsim10 m) = List.length (ms_fvnsim m) -> List.length (ms_cfb m) = List.length (ms_fvnsim m) ->
    forall l, (forall i, In i l -> i < n) -> exists rows, sequence (map (fvnsim_line F m) l) = Ret (map ended rows) /\ List.length rows = List.length l /\ Forall (fun x => barred 39 [0; 11; 24; 38] x /\ free_of char_nl x) rows /\
      forall k i, nth_error l k = Some i -> exists x, nth_error rows k = Some x /\ shows_band F (nth i (ms_fvnsim m) n0) (nth i (ms_fvnsim10 m) n0) (nth i (ms_cfb m) n0) x.
  Proof.
    intros (B1 & B2 & B3) HN E1 E2. induction l as [|i l IH]; intros HI; [exists []; split; [reflexivity|split; [reflexivity|split; [constructor|intros [|k] i E; discriminate]]]|].
    destruct IH as (rows & R1 & R2 & R3 & R4); [intros j Hj; apply HI; right; exact Hj|]. assert (Hi : i < List.length (ms_fvnsim m)) by (apply HN, HI; left; reflexivity).
    exists (band_text (nth i (ms_fvnsim m) n0) (nth i (ms_fvnsim10 m) n0) (nth i (ms_cfb m) n0) :: rows). rewrite Forall_forall in B1, B2, B3. split; [|split; [|split]].
    - cbn [map sequence]. unfold fvnsim_line at 1. rewrite (nth_error_nth' (ms_fvnsim m) n0) by lia. rewrite (nth_error_nth' (ms_fvnsim10 m) n0) by lia. rewrite (nth_error_nth' (ms_cfb m) n0) by lia. cbn [bind].
      rewrite R1. cbn [bind]. do 2 f_equal. unfold ended, band_text. rewrite !str_assoc, nl_ended. reflexivity.
    - cbn [List.length]. congruence.
    - constructor; [|exact R3]. apply band_ok; [apply B1|apply B2|apply B3]; apply nth_In; lia.
    - intros [|k] j E; cbn in E |- *; [|exact (R4 k j E)]. injection E as <-. eexists. split; [reflexivity|]. apply band_shows; [apply B1|apply B2|apply B3]; apply nth_In; lia.
  Qed.
  Lemma pad_free w s : free_of char_nl s -> free_of char_nl (pad w s).
  Proof. intros H. unfold pad. apply free_app; [apply spaces_free; discriminate|exact H]. Qed.
  Lemma patches_lines m : unbroken F m -> exists ls, format_patches F m = String.concat "" (map ended ls) /\ Forall (free_of char_nl) ls.
  Proof.
    intros (_ & _ & _ & H). eexists. split; [apply patches_ended|]. pose proof rule76_free as RF. apply Forall_app. split; [repeat constructor; try assumption; clear_free|]. apply Forall_app.
    split; [|repeat constructor; try assumption; clear_free].
    assert (Q : forall l i, Forall (fun p => Forall (free_of char_nl) [fm_fixed F 6 (pm_sim p); fm_fixed F 3 (pm_ref_start p); fm_fixed F 3 (pm_ref_end p); fm_fixed F 3 (pm_deg_start p); fm_fixed F 3 (pm_deg_end p)]) l -> Forall (free_of char_nl) (row_texts i l)).
    { induction l as [|p l IH]; intros i HX; [constructor|]. inversion HX as [|? ? H1 H2]; subst. cbn [row_texts]. constructor; [|apply IH; exact H2].
      rewrite Forall_forall in H1. unfold row_text. pose proof (dec_free char_nl i) as D.
      repeat (first [apply pad_free; first [apply D; clear_free|apply H1; cbn; tauto]|apply free_app]); clear_free. }
    apply Q, H.
  Qed.
  Lemma bands_lines m s : unbroken F m -> format_fvnsim F m = Ret s -> exists ls, s = String.concat "" (map ended ls) /\ Forall (free_of char_nl) ls.
  Proof.
    intros (H1 & H2 & H3 & _). rewrite Forall_forall in H1, H2, H3. unfold format_fvnsim.
    assert (Q : forall l ls, sequence (map (fvnsim_line F m) l) = Ret ls -> exists rows, ls = map ended rows /\ Forall (free_of char_nl) rows).
    { induction l as [|i l IH]; intros ls E; cbn [map sequence] in E; [injection E as <-; exists []; split; [reflexivity|constructor]|].
      unfold fvnsim_line at 1 in E. destruct (nth_error (ms_fvnsim m) i) as [a|] eqn:Ea; [|discriminate E]. destruct (nth_error (ms_fvnsim10 m) i) as [b|] eqn:Eb; [|discriminate E]. destruct (nth_error (ms_cfb m) i) as [c|] eqn:Ec; [|discriminate E].
      cbn [bind] in E. destruct (sequence (map (fvnsim_line F m) l)) as [t| | |] eqn:Et; cbn [bind] in E; try discriminate E. injection E as <-. destruct (IH t eq_refl) as (rows & -> & HR).
      exists (band_text a b c :: rows). split; [cbn [map]; f_equal; unfold ended, band_text; rewrite !str_assoc, nl_ended; reflexivity|]. constructor; [|exact HR]. apply nth_error_In in Ea, Eb, Ec.
      unfold band_text. repeat (first [apply pad_free; first [apply H1; assumption|apply H2; assumption|apply H3; assumption]|apply free_app]); clear_free. }
    destruct (sequence _) as [ls| | |] eqn:E; cbn [bind]; intros X; try discriminate X. injection X as <-. destruct (Q _ _ E) as (rows & -> & HR).
    exists ([rule39; head39; rule39] ++ rows ++ [rule39; ""])%list. split.
    - rewrite !map_app, !concat_app. cbn [map]. rewrite !concat_cons. unfold ended. rewrite nl_ended. rewrite !str_assoc. cbn [String.concat]. try rewrite !str_assoc. reflexivity.
    - pose proof rule39_free as RF. apply Forall_app. split; [repeat constructor; try assumption; clear_free|]. apply Forall_app. split; [exact HR|]. repeat constructor; try assumption; clear_free.
  Qed.
  Lemma verbose_lines speech lattice m s : unbroken F m -> format_fvnsim F m = Ret s -> Forall (free_of char_nl) [ms_ref_path m; ms_deg_path m; fm_general F 6 (ms_moslqo m)] ->
    exists out, console F true speech lattice m = Ret out /\
      text_lines out = (["ViSQOL conformance version: 333";
        if speech then (if lattice then "Speech mode, lattice model" else "Speech mode, exponential model") else "Audio mode, support vector regression model";
        ""; ("Reference Filepath:" ++ tab_ ++ ms_ref_path m)%string; ("Degraded Filepath:" ++ tab_ ++ ms_deg_path m)%string; ("MOS-LQO:" ++ tab_ ++ tab_ ++ fm_general F 6 (ms_moslqo m))%string; ""]
        ++ text_lines s ++ [""] ++ text_lines (format_patches F m) ++ [""])%list.
  Proof.
    intros U ES HF. destruct (patches_lines m U) as (lp & EP & FP). destruct (bands_lines m s U ES) as (lb & EB & FB).
    inversion HF as [|? ? H1 HF2]; subst. inversion HF2 as [|? ? H2 HF3]; subst. inversion HF3 as [|? ? H3 _]; subst. clear HF HF2 HF3.
    unfold console. rewrite ES. cbn [bind]. eexists. split; [reflexivity|]. apply cut.
    - apply Forall_app. split; [|apply Forall_app; split; [rewrite (cut lb _ FB eq_refl); exact FB|apply Forall_app; split; [repeat constructor; clear_free|apply Forall_app; split; [rewrite (cut lp _ FP EP); exact FP|repeat constructor; clear_free]]]].
      repeat constructor; try (repeat apply free_app; try assumption; clear_free). destruct speech, lattice; clear_free.
    - rewrite (cut lb _ FB eq_refl), (cut lp _ FP EP), EP. rewrite !map_app, !concat_app. cbn [map]. rewrite !concat_cons. unfold ended. rewrite nl_ended. rewrite !str_assoc. cbn [String.concat].
      destruct speech, lattice; rewrite ?str_assoc; reflexivity.
  Qed.
  Lemma bands_table m : bands_fit F m -> List.length (ms_fvnsim10 m) = List.length (ms_fvnsim m) -> List.length (ms_cfb m) = List.length (ms_fvnsim m) ->
    exists s r1 h r2 rows r3, format_fvnsim F m = Ret s /\ text_lines s = ([r1; h; r2] ++ rows ++ [r3; ""])%list /\ Forall (ruled 39) [r1; r2; r3] /\
      Forall (barred 39 [0; 11; 24; 38]) (h :: rows) /\ List.length rows = List.length (ms_fvnsim m) /\
      forall i, i < List.length (ms_fvnsim m) -> exists x, nth_error rows i = Some x /\ shows_band F (nth i (ms_fvnsim m) n0) (nth i (ms_fvnsim10 m) n0) (nth i (ms_cfb m) n0) x.
  Proof.
    intros HB E1 E2. destruct (band_lines m (List.length (ms_fvnsim m)) HB ltac:(auto) E1 E2 (seq 0 (List.length (ms_fvnsim m)))) as (rows & R1 & R2 & R3 & R4); [intros i Hi; apply in_seq in Hi; lia|].
    eexists _, rule39, head39, rule39, rows, rule39. unfold format_fvnsim. rewrite R1. cbn [bind]. split; [reflexivity|]. rewrite seq_length in R2. split; [|split; [|split; [|split]]].
    - apply cut.
      + pose proof rule39_free as RF. apply Forall_app. split; [repeat constructor; try assumption; clear_free|]. apply Forall_app. split; [eapply Forall_impl; [|exact R3]; intros x Hx; apply Hx|]. repeat constructor; try assumption; clear_free.
      + rewrite !map_app, !concat_app. cbn [map]. rewrite !concat_cons. unfold ended. rewrite nl_ended. rewrite !str_assoc. cbn [String.concat]. try rewrite !str_assoc. reflexivity.
    - pose proof rule39_ok. repeat constructor; assumption.
    - constructor; [split; reflexivity|]. eapply Forall_impl; [|exact R3]. intros x Hx. apply Hx.
    - exact R2.
    - intros i Hi. apply (R4 i i). rewrite (nth_error_nth' _ 0) by (rewrite seq_length; exact Hi). rewrite seq_nth by exact Hi. reflexivity.
  Qed.
End Tables.

(** *** a patch that ends after 1000 seconds *)
Definition wide_formats : formats R := MkFormats (fun _ _ => "1.5") (fun k _ => match k with 3 => "1000.640" | _ => "0.900000" end) (fun _ => None) (fun _ => true).
Definition narrow_formats : formats R := MkFormats (fun _ _ => "1.5") (fun k _ => match k with 3 => "999.640" | 1 => "50.0" | _ => "0.900000" end) (fun _ => None) (fun _ => true).
Definition one_patch : sim_msg R := MkMsg n0 n0 [n0; n0] [n0; n0] [n0; n0] [n0; n0] [n0; n0] [MkPatchMsg n0 n0 n0 n0 n0 []; MkPatchMsg n0 n0 n0 n0 n0 []] "a" "b" n0.
Lemma wide_refuted : exists (F : formats R) m l, In l (text_lines (format_patches F m)) /\ String.length l = 78 /\ (forall p, In p (ms_patches m) -> fm_fixed F 3 (pm_ref_end p) = "1000.640").
Proof.
  exists wide_formats, one_patch, (row_text wide_formats 0 (MkPatchMsg n0 n0 n0 n0 n0 [])). split; [|split; [reflexivity|]].
  - cbn. right. right. right. left. reflexivity.
  - intros p [<-|[<-|[]]]; reflexivity.
Qed.
Lemma narrow_fits : Forall (patch_fits narrow_formats) (ms_patches one_patch) /\ bands_fit narrow_formats one_patch /\ List.length (ms_patches one_patch) = 2 /\
  nth_error (text_lines (format_patches narrow_formats one_patch)) 4 = Some "|         1 |   0.900000 |     999.640  - 999.640 |     999.640  - 999.640 |".
Proof.
  assert (E : forall w s, Nat.leb (String.length s) w = true -> existsb (Ascii.eqb char_nl) (list_ascii_of_string s) = false -> existsb (Ascii.eqb "|") (list_ascii_of_string s) = false -> fits w s).
  { intros w s H1 H2 H3. assert (X : forall c, existsb (Ascii.eqb c) (list_ascii_of_string s) = false -> free_of c s).
    { intros c Hc Hi. apply Bool.not_true_iff_false in Hc. apply Hc, existsb_exists. exists c. split; [exact Hi|apply Ascii.eqb_refl]. }
    split; [exact (X _ H2)|split; [exact (X _ H3)|apply Nat.leb_le, H1]]. }
  split; [|split; [|split; reflexivity]].
  - assert (P : patch_fits narrow_formats (MkPatchMsg n0 n0 n0 n0 n0 [])) by (refine (conj _ (conj _ (conj _ (conj _ _)))); apply E; reflexivity).
    exact (Forall_cons _ P (Forall_cons _ P (Forall_nil _))).
  - refine (conj (Forall_cons _ _ (Forall_cons _ _ (Forall_nil _))) (conj (Forall_cons _ _ (Forall_cons _ _ (Forall_nil _))) (Forall_cons _ _ (Forall_cons _ _ (Forall_nil _))))); apply E; reflexivity.
Qed.
Lemma narrow_unbroken : unbroken narrow_formats one_patch /\ (exists s, format_fvnsim narrow_formats one_patch = Ret s) /\ Forall (free_of char_nl) [ms_ref_path one_patch; ms_deg_path one_patch; fm_general narrow_formats 6 (ms_moslqo one_patch)].
Proof.
  assert (E : forall s, existsb (Ascii.eqb char_nl) (list_ascii_of_string s) = false -> free_of char_nl s).
  { intros s Hc Hi. apply Bool.not_true_iff_false in Hc. apply Hc, existsb_exists. exists char_nl. split; [exact Hi|apply Ascii.eqb_refl]. }
  split; [|split; [eexists; reflexivity|]].
  - unfold unbroken. cbn [one_patch ms_fvnsim ms_fvnsim10 ms_cfb ms_patches]. split; [|split; [|split]]; repeat (apply Forall_cons || apply Forall_nil); apply E; reflexivity.
  - repeat (apply Forall_cons || apply Forall_nil); apply E; reflexivity.
Qed.
