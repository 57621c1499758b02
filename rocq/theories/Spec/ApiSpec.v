(** Spec: histories of calls on one manager or one API object, and what a configuration asks for. *)
From Coq Require Import ZArith List Bool String.
From Verif Require Import Base.Res Base.Num Model.FilterBank Model.Mappers Model.Visqol Model.Manager.
Import ListNotations.
Open Scope Z_scope.

Section Histories.
  Context {T : Type} {N : Num T} {L : Libm T}.

  (** managers after any sequence of calls; the flag says whether some Init has succeeded *)
  Inductive history : bool -> manager T -> Prop :=
  | h_new : history false manager_new
  | h_init_ok b w m a m' : history b m -> init w m a = (m', None) -> history true m'
  | h_init_fail b w m a m' c : history b m -> init w m a = (m', Some c) -> history b m'
  | h_run b w m ref deg m' deg' r : history b m -> run w m ref deg = (m', deg', r) -> history b m'
  | h_files b w m rp dp m' r : history b m -> run_files w m rp dp = (m', r) -> history b m'.

  (** API objects after any sequence of calls; first flag: some Create succeeded, second flag: some Create was given a
      config with an audio section *)
  Inductive api_history : bool -> bool -> api T -> Prop :=
  | a_new : api_history false false api_new
  | a_create_ok b s w p c p' : api_history b s p -> create w p c = (p', None) -> api_history true true p'
  | a_create_fail b s w p c p' e : api_history b s p -> create w p c = (p', Some e) ->
      api_history b (s || match cf_audio c with Some _ => true | None => false end) p'
  | a_measure b s w p ref deg p' r : api_history b s p -> measure w p ref deg = (p', r) -> api_history b s p'.

  (** [m'] is [m] after any number of comparisons and no Init *)
  Inductive measured : manager T -> manager T -> Prop :=
  | me_none m : measured m m
  | me_run w m m1 ref deg m' deg' r : measured m m1 -> run w m1 ref deg = (m', deg', r) -> measured m m'
  | me_files w m m1 rp dp m' r : measured m m1 -> run_files w m1 rp dp = (m', r) -> measured m m'.
  Inductive api_measured : api T -> api T -> Prop :=
  | am_none p : api_measured p p
  | am_measure w p p1 ref deg p' r : api_measured p p1 -> measure w p1 ref deg = (p', r) -> api_measured p p'.

  (** visqol_config.proto: what a config asks for *)
  Definition asks_speech (c : config) : bool := match cf_options c with Some o => op_speech o | None => false end.
  Definition asks_override (c : config) : bool := match cf_options c with Some o => op_override o | None => false end.
  Definition asks_unscaled (c : config) : bool := match cf_options c with Some o => op_unscaled o | None => false end.
  Definition asks_lattice (c : config) : bool := match cf_options c with Some o => op_lattice o | None => true end.
  Definition radius_used (c : config) : Z :=
    match cf_options c with Some o => if op_radius o =? 0 then 60 else op_radius o | None => 60 end.
  Definition named_model (c : config) : string := match cf_options c with Some o => op_model o | None => EmptyString end.
  Definition default_model (speech : bool) : string :=
    if speech then "/model/lattice_tcditugenmeetpackhref_ls2_nl60_lr12_bs2048_learn.005_ep2400_train1_7_raw.tflite"
    else "/model/libsvm_nu_svr_model.txt".
  Definition model_used (cwd : string) (c : config) : string :=
    if String.eqb (named_model c) EmptyString then append cwd (default_model (asks_speech c)) else named_model c.

  (** the rate is unusable, or unusual without permission *)
  Definition rate_rejected (c : config) (sr : Z) : Prop :=
    sr = 0 \/ (sr <> 48000 /\ asks_speech c = false /\ asks_override c = false).

  (** the status of loading the quality model of a config *)
  Definition load_status (w : world T) (c : config) : option code :=
    match asks_speech c, asks_lattice c with
    | false, _ => match w_svr w (model_used (w_cwd w) c) with Some _ => None | None => Some InvalidArgument end
    | true, true => match w_tfl w (model_used (w_cwd w) c) with inr _ => None | inl e => Some e end
    | true, false => None
    end.
  (** the mapper in use when loading succeeded *)
  Definition loaded_mapper (w : world T) (c : config) : option (mapper T) :=
    match asks_speech c, asks_lattice c with
    | false, _ => match w_svr w (model_used (w_cwd w) c) with Some m => Some (MSvr (Some m)) | None => None end
    | true, true => match w_tfl w (model_used (w_cwd w) c) with inr l => Some (MLattice 21 (Some l)) | inl _ => None end
    | true, false => Some (MSpeech (negb (asks_unscaled c)))
    end.
End Histories.
