(** Property C87: what the upper envelope is. *)
From Coq Require Import ZArith List Bool Reals Lra Lia.
From Verif Require Import Base.Res Base.Num Base.NumR Base.Lists Base.Cplx Model.Fft
  Spec.FftSpec Spec.EnvelopeSpec Proofs.FftP Proofs.DftP Proofs.EnvelopeP.
Import ListNotations.
Open Scope R_scope.

(** C87: the envelope is not the magnitude of the analytic signal: the inverse transform used gives
    only real parts. *)
Theorem C87_hilbert_envelope_refuted :
  ~ (forall s, (1 <= Z.of_nat (length s) <= 2 ^ 31)%Z -> calc_upper_env ideal_fft s = Ret (hilbert_envelope s)).
Proof. exact not_hilbert. Qed.
Print Assumptions C87_hilbert_envelope_refuted.
(** ... nor does it lie above the signal. *)
Theorem C87_above_the_signal_refuted :
  ~ (forall s e j, (1 <= Z.of_nat (length s) <= 2 ^ 31)%Z -> calc_upper_env ideal_fft s = Ret e -> (j < length s)%nat -> nth j s 0 <= nth j e 0).
Proof. exact not_above. Qed.
Print Assumptions C87_above_the_signal_refuted.
(** What it is, for every signal: twice the absolute deviation from the mean, but for an alternating
    error, plus the mean. *)
Theorem C87_rectified_signal s : (1 <= Z.of_nat (length s) <= 2 ^ 31)%Z -> calc_upper_env ideal_fft s = Ret (rectified s).
Proof. exact (envelope_rectified s). Qed.
Print Assumptions C87_rectified_signal.
(** It lies above the signal if that has no content at half the sample rate, and above the mean always. *)
Theorem C87_above_partial s e j : (1 <= Z.of_nat (length s) <= 2 ^ 31)%Z -> calc_upper_env ideal_fft s = Ret e -> alternating s = 0 ->
  (j < length s)%nat -> nth j s 0 <= nth j e 0.
Proof. exact (envelope_above s e j). Qed.
Print Assumptions C87_above_partial.
Theorem C87_above_mean s e j : (1 <= Z.of_nat (length s) <= 2 ^ 31)%Z -> calc_upper_env ideal_fft s = Ret e -> (j < length s)%nat -> average s <= nth j e 0.
Proof. exact (envelope_mean s e j). Qed.
Print Assumptions C87_above_mean.
Example C87_example : calc_upper_env ideal_fft [1; 0; -1] = Ret [2; 0; 2] /\ alternating [1; 0; -1] = 0 /\ 0 < nth 1 (hilbert_envelope [1; 0; -1]) 0.
Proof. repeat split; [rewrite <- three_rectified; apply envelope_rectified; cbn; lia|exact three_alternating|exact three_hilbert]. Qed.
