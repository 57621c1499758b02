(** Model of src/visqol.cc. *)
From Coq Require Import ZArith List Bool.
From Verif Require Import Base.Res Base.Num Base.Lists Base.Mat Model.Amatrix Model.MiscMath
  Model.PatchCreator Model.Window Model.FilterBank Model.Spectrogram Model.Nsim Model.Fft Model.Alignment
  Model.Selector Model.MiscAudio Model.Mappers.
Import ListNotations.
Open Scope Z_scope.

Section Visqol.
  Context {T : Type} {N : Num T} {L : Libm T}.

  (** visqol.cc:176-180, 191-195, 207-211: add one patch's per-band values to the accumulator (loop over
      the patch's own number of rows; the accumulator is indexed without a check, the patch with one) *)
  Definition acc_bands (acc : list T) (m : mat T) : res (list T) :=
    if Nat.ltb (length acc) (nrows m) then Ub
    else if Nat.ltb (length (elems m)) (nrows m) then Throw
    else Ret (map (fun b => if Nat.ltb b (nrows m)
                            then nadd (nth b acc n0) (nth b (elems m) n0) else nth b acc n0)
                  (seq 0 (length acc))).
  Fixpoint acc_patches (acc : list T) (ms : list (mat T)) : res (list T) :=
    match ms with
    | [] => Ret acc
    | m :: t => do acc' <- acc_bands acc m; acc_patches acc' t
    end.
  Definition mean_of_patches (ms : list (mat T)) : res (list T) :=
    match ms with
    | [] => Ub
    | m0 :: _ =>
        do s <- acc_patches (repeat n0 (nrows m0)) ms;
        Ret (map (fun x => ndiv x (nofnat (length ms))) s)
    end.

  (** visqol.cc:172-182 CalcPerPatchMeanFreqBandMeans, 184-197 CalcPerPatchMeanFreqBandDegradedEnergy *)
  Definition calc_means (ps : list (psr T)) : res (list T) := mean_of_patches (map ps_means ps).
  Definition calc_energy (ps : list (psr T)) : res (list T) := mean_of_patches (map ps_energy ps).

  (** std::sort on doubles.  With a NaN the comparison is not a strict weak order and the behaviour is
      undefined; otherwise the result is the ordered permutation (unique except for the order of -0.0
      and 0.0), here computed by insertion. *)
  Fixpoint insert (x : T) (l : list T) : list T :=
    match l with
    | [] => [x]
    | y :: t => if nltb y x then y :: insert x t else x :: l
    end.
  Definition isort (l : list T) : list T := fold_right insert [] l.
  Definition has_nan (l : list T) : bool := existsb (fun x => negb (neqb x x)) l.
  Definition std_sort (l : list T) : res (list T) := if has_nan l then Ub else Ret (isort l).

  (** visqol.cc:154-167: one band *)
  Definition quantile_band (ms : list (mat T)) (q : T) (b : nat) : res T :=
    do vs <- sequence (map (fun m => m_lin m b) ms);
    do s <- std_sort vs;
    do k <- to_int (nmul (nofnat (length s)) q);
    let n := Z.max 1 k in
    if Z.of_nat (length s) <? n then Ub
    else Ret (ndiv (nsum (firstn (Z.to_nat n) s)) (nofZ n)).
  (** visqol.cc:148-170 CalcPerPatchFreqBandQuantile *)
  Definition calc_quantile (ps : list (psr T)) (q : T) : res (list T) :=
    match ps with
    | [] => Ub
    | p0 :: _ => sequence (map (quantile_band (map ps_means ps) q) (seq 0 (nrows (ps_means p0))))
    end.

  (** visqol.cc:218-221: number of frames of a patch, from its duration *)
  Definition frame_count (fd : T) (p : psr T) : res Z :=
    match nceil (ndiv (nsub (ps_ref_end p) (ps_ref_start p)) fd) with
    | Some z => if fits_int z then Ret z else Ub
    | None => Ub
    end.

  (** visqol.cc:223-230: one patch's contribution *)
  Definition contribute (fc : Z) (p : psr T) (acc : list T) : res (list T) :=
    let n := nrows (ps_means p) in
    if Nat.ltb (length acc) n then Ub
    else if Nat.ltb (length (elems (ps_stddevs p))) n || Nat.ltb (length (elems (ps_means p))) n then Throw
    else Ret (map (fun b =>
                     if Nat.ltb b n then
                       let sd := nth b (elems (ps_stddevs p)) n0 in
                       let mean := nth b (elems (ps_means p)) n0 in
                       let c := nadd (nth b acc n0) (nmul (nmul (nofZ (fc - 1)) sd) sd) in
                       nadd c (nmul (nmul (nofZ fc) mean) mean)
                     else nth b acc n0)
                  (seq 0 (length acc))).
  Fixpoint contribute_all (fd : T) (ps : list (psr T)) (total : Z) (acc : list T) : res (Z * list T) :=
    match ps with
    | [] => Ret (total, acc)
    | p :: t =>
        do fc <- frame_count fd p;
        if fits_int (total + fc) && fits_int (fc - 1) then
          do acc' <- contribute fc p acc;
          contribute_all fd t (total + fc) acc'
        else Ub
    end.

  (** visqol.cc:233-245 *)
  Definition pooled (total : Z) (c mean : T) : T :=
    let d := ndiv (nsub c (nmul (nmul mean mean) (nofZ total))) (nofZ (total - 1)) in
    if nltb d n0 then n0 else nsqrt d.

  (** visqol.cc:199-247 CalcPerPatchMeanFreqBandStdDevs *)
  Definition calc_stddevs (ps : list (psr T)) (fd : T) : res (list T) :=
    match ps with
    | [] => Ub
    | p0 :: _ =>
        do means <- calc_means ps;
        do '(total, c) <- contribute_all fd ps 0 (repeat n0 (nrows (ps_means p0)));
        if fits_int (total - 1) then
          Ret (map (fun b => pooled total (nth b c n0) (nth b means n0)) (seq 0 (length c)))
        else Ub
    end.

  (** visqol.cc:249-274 AlterForSimilarityExtremes *)
  Definition alter_for_extremes (vnsim moslqo : T) : T :=
    if nltb vnsim (ndec 15 2) then n1 else moslqo.

  (** visqol.cc:276-279 CalcFrameDuration with the argument of line 78 *)
  Definition calc_frame_duration (w : window T) (sr : Z) : res T :=
    match hop_size w with
    | Some h => if 0 <=? h then Ret (ndiv (nofZ h) (nofZ sr)) else Ub
    | None => Ub
    end.

  (** similarity_result.h:26-76 *)
  Record sim_result := MkSim {
    sr_moslqo : T; sr_vnsim : T;
    sr_fvnsim : list T; sr_fvnsim10 : list T; sr_fstdnsim : list T; sr_fvdegenergy : list T;
    sr_patches : list (psr T); sr_cfb : list T }.

  (** visqol.cc:106-136: from the patch results to the reported result *)
  Definition summarise (f32 : T -> T) (m : mapper T) (fd : T) (cfb : list T) (ps : list (psr T))
    : res sim_result :=
    do fvnsim <- calc_means ps;
    do fvnsim10 <- calc_quantile ps (ndec 10 2);
    do fstdnsim <- calc_stddevs ps fd;
    do fvdegenergy <- calc_energy ps;
    do mos <- predict_quality f32 m fvnsim fvnsim10 fstdnsim fvdegenergy;
    let vnsim := ndiv (nsum fvnsim) (nofnat (length fvnsim)) in
    Ret (MkSim (alter_for_extremes vnsim mos) vnsim fvnsim fvnsim10 fstdnsim fvdegenergy ps cfb).

  (** what CalculateSimilarity is given besides the signals: the mode (visqol_manager.cc:89-111), the
      search radius, the flag, the mapper, and the external FFT and comparator *)
  Record settings := MkSettings {
    st_speech : bool; st_radius : Z; st_no_realign : bool; st_mapper : mapper T }.

  (** visqol_manager.cc:44-47 *)
  Definition patch_size (speech : bool) : nat := if speech then 20 else 30.
  Definition num_bands (speech : bool) : nat := if speech then 21 else 32.

  (** patch_creator->CreateRefPatchIndices, virtual: visqol.cc:69-70 *)
  Definition ref_patch_indices (speech : bool) (ncols_ : nat) (ref : audio T) (w : window T)
    : res (list Z) :=
    if speech
    then vad_create_ref_patch_indices (patch_size true) (Z.of_nat ncols_) (au_data ref)
                                      (Z.of_nat (w_size w))
    else create_ref_patch_indices (Z.of_nat (patch_size false)) (Z.of_nat ncols_).

  (** visqol.cc:66-137, once both spectrograms have been built *)
  Definition compare_spectrograms (measure : mat T -> mat T -> res (psr T)) (pf : pffft T)
             (st : settings) (w : window T) (ref deg : audio T) (k : bank T)
             (rs ds : spectrogram T) : bank T * res sim_result :=
    match (do '(A, B) <- prepare_spectrograms (sp_data rs) (sp_data ds);
           do idx <- ref_patch_indices (st_speech st) (ncols A) ref w;
           do fd <- calc_frame_duration w (au_sr ref);
           do patches <- create_patches (Z.of_nat (patch_size (st_speech st))) A idx;
           do sims <- find_most_optimal_deg_patches measure patches idx B fd (st_radius st);
           Ret (fd, sims)) with
    | Ret (fd, sims) =>
        let '(k', aligned) :=
          if st_no_realign st then (k, Ret sims)
          else finely_align measure pf (st_speech st) w ref deg k sims in
        (k', do ps <- aligned; summarise (pf_f32 pf) (st_mapper st) fd (sp_cfb rs) ps)
    | Err c => (k, Err c)
    | Throw => (k, Throw)
    | Ub => (k, Ub)
    end.

  (** visqol.cc:36-137 CalculateSimilarity: the builder's bank, the degraded signal (an in/out
      argument) and the outcome *)
  Definition calculate_similarity (measure : mat T -> mat T -> res (psr T)) (pf : pffft T)
             (st : settings) (w : window T) (ref deg : audio T) (k : bank T)
    : bank T * audio T * res sim_result :=
    let deg := scale_to_match_spl ref deg in
    let '(k1, rs) := build (st_speech st) k ref w in
    match rs with
    | Ret rspec =>
        let '(k2, ds) := build (st_speech st) k1 deg w in
        match ds with
        | Ret dspec =>
            let '(k3, r) := compare_spectrograms measure pf st w ref deg k2 rspec dspec in
            (k3, deg, r)
        | Err c => (k2, deg, Err c)
        | Throw => (k2, deg, Throw)
        | Ub => (k2, deg, Ub)
        end
    | Err c => (k1, deg, Err c)
    | Throw => (k1, deg, Throw)
    | Ub => (k1, deg, Ub)
    end.
End Visqol.
Arguments sim_result : clear implicits.
Arguments settings : clear implicits.
