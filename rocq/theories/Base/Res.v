(** Outcomes of modelled C++ calls.

    [Ret a]   the call returned [a] (for [absl::StatusOr]: an OK value)
    [Err c]   the call returned a non-OK [absl::Status] with code [c]
    [Throw]   a C++ exception escapes (Armadillo bounds checks, std::length_error, ...)
    [Ub]      undefined behaviour was reached; nothing can be said afterwards *)

(** absl/status/status.h: the status codes that occur in /repo/src
    (visqol_api.cc:37-87, visqol_manager.cc:233,255, comparison_patches_selector.cc:149,
    image_patch_creator.cc:57, tflite_quality_mapper.cc:37-74,
    support_vector_regression_model.cc:104, gammatone_spectrogram_builder.cc:60). *)
Inductive code : Type :=
| Aborted | InvalidArgument | Cancelled | Unknown | ResourceExhausted.

Inductive res (A : Type) : Type :=
| Ret (a : A)
| Err (c : code)
| Throw
| Ub.
Arguments Ret {A} a.
Arguments Err {A} c.
Arguments Throw {A}.
Arguments Ub {A}.

(** Sequencing: a non-OK outcome stops the computation.  For [Err] this is what the macros
    VISQOL_RETURN_IF_ERROR / VISQOL_ASSIGN_OR_RETURN do (src/include/status_macros.h:22-44). *)
Definition bind {A B : Type} (x : res A) (f : A -> res B) : res B :=
  match x with
  | Ret a => f a
  | Err c => Err c
  | Throw => Throw
  | Ub => Ub
  end.

Declare Scope res_scope.
Delimit Scope res_scope with res.
Notation "'do' x <- e ; f" := (bind e (fun x => f))
  (at level 200, x name, e at level 100, f at level 200, right associativity) : res_scope.
Notation "'do' ' p <- e ; f" := (bind e (fun p => f))
  (at level 200, p strict pattern, e at level 100, f at level 200, right associativity) : res_scope.
Open Scope res_scope.

(** [ok x]: the outcome is a value or an error status, i.e. the call returns normally. *)
Definition returns {A} (x : res A) : Prop :=
  match x with Ret _ | Err _ => True | Throw | Ub => False end.

Definition is_err {A} (x : res A) : bool := match x with Err _ => true | _ => false end.

Definition guard (b : bool) {A} (bad : res A) (k : res A) : res A := if b then k else bad.
