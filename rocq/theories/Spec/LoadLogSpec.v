(** Spec: which files hold all the samples they announce (C113). *)
From Coq Require Import ZArith List.
From Verif Require Import Model.Wav Model.LoadLog.

(** the header is accepted and all the announced samples follow *)
Definition complete (all : bytes) : Prop := exists w, parse_header all = Some w /\ (wv_offset w + 2 * Z.to_nat (wv_total w) <= length all)%nat.
(** an error, not only a warning, is among the messages *)
Definition reports_error (l : list load_message) : Prop := In FileMissing l \/ In NoData l \/ In BadHeader l.
