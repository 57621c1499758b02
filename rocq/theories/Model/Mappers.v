(** Model of the similarity-to-quality mappers: src/speech_similarity_to_quality_mapper.cc,
    src/svr_similarity_to_quality_mapper.cc, src/support_vector_regression_model.cc,
    src/libsvm_target_observation_convertor.cc, src/tflite_quality_mapper.cc.

    libsvm and TensorFlow Lite are external: loading a model file is an oracle, and a loaded model is
    a function of the inputs handed to it. *)
From Coq Require Import ZArith List Bool String DecimalString.
From Verif Require Import Base.Res Base.Num Base.Lists Model.MiscMath.
Import ListNotations.
Open Scope Z_scope.

Section Mappers.
  Context {T : Type} {N : Num T} {L : Libm T}.

  (** speech_similarity_to_quality_mapper.cc:43-46, 54: kFitScale is stored in a float, whose value is
      10444345 / 2^23 (Proofs/MapperP.v checks that this is the nearest one) *)
  Definition kFitA : T := ndec (-262847869) 6.
  Definition kFitB : T := ndec 154302525 10.
  Definition kFitX0 : T := ndec (-361063949) 6.
  Definition kFitScale32 : T := ndiv (nofZ 10444345) (nofZ (2 ^ 23)).

  (** speech_similarity_to_quality_mapper.cc:32-58 PredictQuality *)
  Definition speech_predict (scale_to_max : bool) (fvnsim : list T) : T :=
    let nsim_mean := ndiv (nsum fvnsim) (nofnat (List.length fvnsim)) in
    let mos := exponential_from_fit nsim_mean kFitA kFitB kFitX0 in
    let scale := if scale_to_max then kFitScale32 else n1 in
    nmin (nmax (nmul mos scale) n1) (nofZ 5).

  (** libsvm_target_observation_convertor.cc:41-57: index/value nodes, 1-based, ended by index -1 (the
      value of the last node is never set) *)
  Definition convert_observation (obs : list T) : list (Z * option T) :=
    map (fun i => (Z.of_nat i + 1, Some (nth i obs n0))) (seq 0 (List.length obs)) ++ [(-1, None)].

  (** svr_similarity_to_quality_mapper.cc:31-37, support_vector_regression_model.cc:89-97 *)
  Definition svr_model := list (Z * option T) -> T.
  Definition svr_predict (model : svr_model) (fvnsim : list T) : T :=
    nmax (nofZ 1) (nmin (nofZ 5) (model (convert_observation fvnsim))).

  (** decimal digits, absl::StrCat of an int *)
  Definition dec_string (n : nat) : string := NilZero.string_of_uint (Nat.to_uint n).

  (** tflite_quality_mapper.cc:90-91 *)
  Definition base_names : list string :=
    ["fvnsim"; "fvnsim10_"; "fstdnsim"; "fvdegenergy"]%string.

  (** a loaded lattice model: the names of its input tensors, and the result as a function of the last
      value stored in each *)
  Record lattice := MkLattice { lt_inputs : list string; lt_run : (string -> option T) -> T }.

  (** storing a value in a named tensor; an unknown name yields a null tensor *)
  Definition store (m : lattice) (env : string -> option T) (name : string) (v : T)
    : res (string -> option T) :=
    if existsb (String.eqb name) (lt_inputs m)
    then Ret (fun s => if String.eqb s name then Some v else env s)
    else Ub.

  (** tflite_quality_mapper.cc:95-101: the (name, value) pairs in loop order; [None] where a feature
      vector is too short *)
  Definition lattice_inputs (nbands : nat) (features : list (list T)) : list (string * option T) :=
    flat_map (fun b => map (fun p => (append (fst p) (dec_string b), nth_error (snd p) b))
                           (combine base_names features))
             (seq 0 nbands).

  Fixpoint store_all (m : lattice) (env : string -> option T) (f32 : T -> T)
           (l : list (string * option T)) : res (string -> option T) :=
    match l with
    | [] => Ret env
    | (name, Some v) :: t => do env' <- store m env name (f32 v); store_all m env' f32 t
    | (_, None) :: _ => Ub
    end.

  (** tflite_quality_mapper.cc:80-110 PredictQuality; [f32] is the conversion to float *)
  Definition lattice_predict (m : lattice) (f32 : T -> T) (nbands : nat)
             (fvnsim fvnsim10 fstdnsim fvdegenergy : list T) : res T :=
    do env <- store_all m (fun _ => None) f32
                (lattice_inputs nbands [fvnsim; fvnsim10; fstdnsim; fvdegenergy]);
    do env <- store m env "tau" (ndec 5 1);
    Ret (lt_run m env).

  (** the mapper object held by the manager.  A failed load leaves a mapper whose model pointer is
      null; using it is undefined. *)
  Inductive mapper :=
  | MSpeech (scale_to_max : bool)
  | MSvr (m : option svr_model)
  | MLattice (nbands : nat) (m : option lattice).

  (** SimilarityToQualityMapper::PredictQuality (virtual) *)
  Definition predict_quality (f32 : T -> T) (m : mapper) (fvnsim fvnsim10 fstdnsim fvdegenergy : list T)
    : res T :=
    match m with
    | MSpeech s => Ret (speech_predict s fvnsim)
    | MSvr (Some model) => Ret (svr_predict model fvnsim)
    | MSvr None => Ub
    | MLattice n (Some l) => lattice_predict l f32 n fvnsim fvnsim10 fstdnsim fvdegenergy
    | MLattice _ None => Ub
    end.
End Mappers.
Arguments lattice : clear implicits.
Arguments mapper : clear implicits.
Arguments svr_model : clear implicits.
