(** Model of src/tflite_quality_mapper.cc:27-78 (construction and Init) and of the destruction of its members
    (src/include/tflite_quality_mapper.h:45-51).  TensorFlow Lite is external: the answers of its calls are arguments. *)
From Coq Require Import List Bool.
From Verif Require Import Base.Res Base.Num.
Import ListNotations.

(** TfLiteStatus of ModifyGraphWithDelegate: kTfLiteOk, kTfLiteDelegateError, anything else *)
Inductive delegate_status := DOk | DDelegateError | DOther.

(** what the library answers: BuildFromFile gives a model; SetNumThreads(1) is 0; the builder gives an interpreter;
    AllocateTensors succeeds; ModifyGraphWithDelegate *)
Record tfl_answers := MkAnswers {
  ta_model : bool; ta_threads : bool; ta_interpreter : bool; ta_tensors : bool; ta_delegate : delegate_status }.

(** what the pointer members refer to after Init, and whether the interpreter's graph runs on the delegate *)
Record tfl_object := MkTfl { to_model : bool; to_interpreter : bool; to_delegate : bool; to_delegated : bool }.
Definition tfl_new : tfl_object := MkTfl false false false false.

(** tflite_quality_mapper.cc:31-78 Init *)
Definition tfl_init (a : tfl_answers) : tfl_object * option code :=
  if negb (ta_model a) then (tfl_new, Some InvalidArgument)
  else if negb (ta_threads a) then (MkTfl true false false false, Some Unknown)
  else if negb (ta_interpreter a) then (MkTfl true false false false, Some Unknown)
  else if negb (ta_tensors a) then (MkTfl true true false false, Some ResourceExhausted)
  else match ta_delegate a with
       | DOk => (MkTfl true true true true, None)
       | DDelegateError => (MkTfl true true true false, None)
       | DOther => (MkTfl true true true false, Some Unknown)
       end.

(** tflite_quality_mapper.h:47-50: the members model_, interpreter_, delegate_ are destroyed in the reverse of the order
    of their declaration; a null pointer destroys nothing *)
Inductive tfl_part := PModel | PInterpreter | PDelegate.
Definition tfl_destroy (o : tfl_object) : list tfl_part :=
  (if to_delegate o then [PDelegate] else []) ++ (if to_interpreter o then [PInterpreter] else []) ++ (if to_model o then [PModel] else []).
