(** Model of src/visqol_manager.cc and src/visqol_api.cc. *)
From Coq Require Import ZArith List Bool Ascii String.
From Verif Require Import Base.Res Base.Num Base.Lists Base.Mat Model.Amatrix Model.MiscMath
  Model.Window Model.FilterBank Model.Spectrogram Model.Nsim Model.Fft Model.Alignment
  Model.Selector Model.MiscAudio Model.Mappers Model.Wav Model.Visqol.
Import ListNotations.
Open Scope Z_scope.

Section Manager.
  Context {T : Type} {N : Num T} {L : Libm T}.

  (** the outside world: the FFT library, the model loaders, the files *)
  Record world := MkWorld {
    w_fft : pffft T;
    w_svr : string -> option (svr_model T);        (* svm_load_model *)
    w_tfl : string -> code + lattice T;            (* TFLiteQualityMapper::Init *)
    w_file : string -> option bytes;               (* content of a file, None if it cannot be opened *)
    w_cwd : string }.

  (** visqol_manager.h:160-223: the members, with their initial values *)
  Record manager := MkManager {
    mg_init : bool;
    mg_settings : settings T;
    mg_no_global : bool;
    mg_bank : bank T }.

  (** visqol_manager.cc:48 kMinimumFreq *)
  Definition kMinimumFreq : T := nofZ 50.
  Definition fresh_bank (speech : bool) : bank T := bank_init (num_bands speech) kMinimumFreq.

  (** the members that are null before the first Init are represented by an unusable mapper and a bank
      that nobody reads (Run checks is_initialized_ first) *)
  Definition manager_new : manager :=
    MkManager false (MkSettings false 60 false (MSvr None)) false (fresh_bank false).

  (** visqol_manager.cc:52-76 Init arguments *)
  Record init_args := MkInit {
    ia_model : string; ia_speech : bool; ia_unscaled : bool; ia_radius : Z; ia_lattice : bool;
    ia_no_global : bool; ia_no_realign : bool }.

  (** visqol_manager.cc:113-135 InitSimilarityToQualityMapper: the new mapper and its status *)
  Definition init_mapper (w : world) (a : init_args) : mapper T * option code :=
    if ia_speech a then
      if ia_lattice a then
        match w_tfl w (ia_model a) with
        | inl c => (MLattice 21 None, Some c)
        | inr l => (MLattice 21 (Some l), None)
        end
      else (MSpeech (negb (ia_unscaled a)), None)
    else
      match w_svr w (ia_model a) with
      | None => (MSvr None, Some InvalidArgument)
      | Some m => (MSvr (Some m), None)
      end.

  (** visqol_manager.cc:52-76 Init: every member is replaced before the model is loaded;
      is_initialized_ is set on success and never reset *)
  Definition init (w : world) (m : manager) (a : init_args) : manager * option code :=
    let '(mapper, status) := init_mapper w a in
    let ok := match status with None => true | Some _ => mg_init m end in
    (MkManager ok (MkSettings (ia_speech a) (ia_radius a) (ia_no_realign a) mapper) (ia_no_global a)
               (fresh_bank (ia_speech a)), status).

  (** similarity_result.proto, visqol_manager.cc:189-229 PopulateSimResultMsg, 150-151, 185 *)
  Record patch_msg := MkPatchMsg {
    pm_sim : T; pm_ref_start : T; pm_ref_end : T; pm_deg_start : T; pm_deg_end : T;
    pm_means : list T }.
  Record sim_msg := MkMsg {
    ms_moslqo : T; ms_vnsim : T;
    ms_fvnsim : list T; ms_fvnsim10 : list T; ms_fstdnsim : list T; ms_cfb : list T;
    ms_fvdegenergy : list T; ms_patches : list patch_msg;
    ms_ref_path : string; ms_deg_path : string; ms_lag : T }.

  Definition populate_patch (p : psr T) : res patch_msg :=
    do v <- m_to_vector (ps_means p);
    Ret (MkPatchMsg (ps_sim p) (ps_ref_start p) (ps_ref_end p) (ps_deg_start p) (ps_deg_end p) v).
  Definition populate (r : sim_result T) (lag : T) : res sim_msg :=
    do ps <- sequence (map populate_patch (sr_patches r));
    Ret (MkMsg (sr_moslqo r) (sr_vnsim r) (sr_fvnsim r) (sr_fvnsim10 r) (sr_fstdnsim r) (sr_cfb r)
               (sr_fvdegenergy r) ps "" "" lag).

  (** visqol_manager.cc:240-281 ValidateInputAudio: durations and unusual rates only cause warnings *)
  Definition validate (ref deg : audio T) : option code :=
    if au_sr ref =? au_sr deg then None else Some InvalidArgument.

  (** visqol_manager.cc:155-187 Run(ref_signal, deg_signal): the manager, the degraded signal (in/out
      argument) and the outcome *)
  Definition run (w : world) (m : manager) (ref deg : audio T) : manager * audio T * res sim_msg :=
    if negb (mg_init m) then (m, deg, Err Aborted)
    else
      match validate ref deg with
      | Some c => (m, deg, Err c)
      | None =>
          match (if mg_no_global m then Ret (deg, n0) else globally_align (w_fft w) ref deg) with
          | Ret (deg, lag) =>
              match make_window (au_sr ref) with
              | Ret win =>
                  let '(k, deg, r) :=
                    calculate_similarity measure_patch_similarity (w_fft w) (mg_settings m) win
                                         ref deg (mg_bank m) in
                  (MkManager (mg_init m) (mg_settings m) (mg_no_global m) k, deg,
                   do x <- r; populate x lag)
              | Err c => (m, deg, Err c)
              | Throw => (m, deg, Throw)
              | Ub => (m, deg, Ub)
              end
          | Err c => (m, deg, Err c)
          | Throw => (m, deg, Throw)
          | Ub => (m, deg, Ub)
          end
      end.

  (** an AudioSignal read from a file: using a sample rate that was never set is undefined; more than
      one column is impossible after ToMono *)
  Definition audio_of (l : loaded T) : res (audio T) :=
    match ld_sr l with Some sr => Ret (MkAudio (elems (ld_data l)) sr) | None => Ub end.

  Definition with_paths (x : sim_msg) (r d : string) : sim_msg :=
    MkMsg (ms_moslqo x) (ms_vnsim x) (ms_fvnsim x) (ms_fvnsim10 x) (ms_fstdnsim x) (ms_cfb x)
          (ms_fvdegenergy x) (ms_patches x) r d (ms_lag x).

  (** visqol_manager.cc:137-153 Run(ref_path, deg_path) *)
  Definition run_files (w : world) (m : manager) (rp dp : string) : manager * res sim_msg :=
    if negb (mg_init m) then (m, Err Aborted)
    else
      match (do rl <- load_file (w_file w rp);
             do dl <- load_file (w_file w dp);
             do ref <- audio_of rl;
             do deg <- audio_of dl;
             Ret (ref, deg)) with
      | Ret (ref, deg) =>
          let '(m', _, r) := run w m ref deg in
          (m', do x <- r; Ret (with_paths x rp dp))
      | Err c => (m, Err c)
      | Throw => (m, Throw)
      | Ub => (m, Ub)
      end.

  (** *** visqol_api.cc *)

  (** visqol_api.h:68-75: sample_rate_ has no initialiser *)
  Record api := MkApi { ap_manager : manager; ap_sr : option Z }.
  Definition api_new : api := MkApi manager_new None.

  (** visqol_config.proto *)
  Record options := MkOptions {
    op_model : string; op_speech : bool; op_override : bool; op_unscaled : bool; op_radius : Z;
    op_lattice : bool }.
  Record config := MkConfig { cf_audio : option Z; cf_options : option options }.

  (** commandline_parser.cc:93-98 *)
  Definition kDefaultAudioModelFile : string := "/model/libsvm_nu_svr_model.txt".
  Definition kDefaultSpeechModelFile : string :=
    "/model/lattice_tcditugenmeetpackhref_ls2_nl60_lr12_bs2048_learn.005_ep2400_train1_7_raw.tflite".

  (** visqol_api.cc:52-75: the Init arguments a config stands for *)
  Definition config_args (w : world) (o : option options) : init_args * bool :=
    let '(speech, unscaled, override, radius, lattice_, model) :=
      match o with
      | None => (false, false, false, 60, true, EmptyString)
      | Some o => (op_speech o, op_unscaled o, op_override o,
                   if op_radius o =? 0 then 60 else op_radius o, op_lattice o, op_model o)
      end in
    let model :=
      match model with
      | EmptyString =>
          append (w_cwd w) (if speech then kDefaultSpeechModelFile else kDefaultAudioModelFile)
      | _ => model
      end in
    (MkInit model speech unscaled radius lattice_ false false, override).

  (** visqol_api.cc:34-99 Create; sample_rate is an int32 converted to size_t *)
  Definition create (w : world) (p : api) (c : config) : api * option code :=
    match cf_audio c with
    | None => (p, Some InvalidArgument)
    | Some sr32 =>
        let sr := size_of sr32 in
        let p := MkApi (ap_manager p) (Some sr) in
        if sr =? 0 then (p, Some InvalidArgument)
        else
          let '(a, override) := config_args w (cf_options c) in
          if negb (sr =? 48000) && negb (ia_speech a) && negb override then (p, Some InvalidArgument)
          else
            let '(m, status) := init w (ap_manager p) a in
            (MkApi m (Some sr), status)
    end.

  (** visqol_api.cc:101-110 Measure: the spans are copied into matrices (amatrix.cc:42-44), so the
      caller's buffers are not reachable afterwards *)
  Definition measure (w : world) (p : api) (ref deg : list T) : api * res sim_msg :=
    match ap_sr p with
    | None => (p, Ub)
    | Some sr =>
        let '(m, _, r) := run w (ap_manager p) (MkAudio ref sr) (MkAudio deg sr) in
        (MkApi m (ap_sr p), r)
    end.
End Manager.
Arguments world : clear implicits.
Arguments manager : clear implicits.
Arguments sim_msg : clear implicits.
Arguments patch_msg : clear implicits.
Arguments api : clear implicits.
