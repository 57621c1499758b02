(** Property C88: the filters of the gammatone bank. *)
From Coq Require Import ZArith List Bool Reals Lra Lia.
From Verif Require Import Base.Res Base.Num Base.NumR Base.Lists Model.Erb Model.FilterBank Spec.ToneSpec Proofs.GammatoneP.
Import ListNotations.
Open Scope R_scope.

(** C88: every filter made by MakeFilters is stable: whatever the signal and however long it is, no
    sample of the output exceeds a constant of the filter times the largest sample of the input. *)
Theorem C88_stable sr n (low high : R) c cf : (0 < sr)%Z -> 0 <= low -> 0 <= high ->
  let m := make_filters (L := LibmR) sr n low high in In (c, cf) (combine (fst m) (snd m)) ->
  exists K, forall X sig, (forall x, In x sig -> Rabs x <= X) -> 0 <= X ->
    exists y f, band_filter c zero_cond sig = Ret (y, f) /\ length y = length sig /\ forall v, In v y -> Rabs v <= K * X.
Proof. exact (bank_stable sr n low high c cf). Qed.
Print Assumptions C88_stable.
(** A tone at the centre frequency comes out, once the filter has settled, as a tone of the same
    frequency and the same amplitude. *)
Theorem C88_unit_gain sr n (low high : R) c cf p q : (0 < sr)%Z -> 0 <= low -> 0 <= high ->
  let m := make_filters (L := LibmR) sr n low high in In (c, cf) (combine (fst m) (snd m)) ->
  exists P Q, P * P + Q * Q = p * p + q * q /\
    forall eps, 0 < eps -> exists m, forall n, exists y f,
      band_filter c zero_cond (tone_signal (tone_angle sr cf) p q n) = Ret (y, f) /\ length y = n /\
      forall k, (m <= k < n)%nat -> Rabs (nth k y 0 - tone (tone_angle sr cf) P Q k) < eps.
Proof. exact (bank_tone sr n low high c cf p q). Qed.
Print Assumptions C88_unit_gain.
Example C88_example :
  let m := make_filters (L := LibmR) 48000 32 50 24000 in
  (0 < 48000)%Z /\ In (nth 31 (fst m) (erb_channel (L := LibmR) 48000 0), nth 31 (snd m) 0) (combine (fst m) (snd m)) /\
  tone (tone_angle 48000 12000) 1 0 0 = 1 /\ tone (tone_angle 48000 12000) 1 0 2 = -1.
Proof.
  cbv zeta. split; [lia|]. split; [exact (bank_member 48000 32 50 24000 31 ltac:(lia))|]. unfold tone, tone_angle.
  split; [cbn [INR]; rewrite Rmult_0_r, cos_0; ring|].
  replace (2 * PI * 12000 / 48000 * INR 2) with PI by (cbn [INR]; field). rewrite cos_PI. ring.
Qed.
