(** Model of src/comparison_patches_selector.cc.

    The comparator (PatchSimilarityComparator::MeasurePatchSimilarity, a virtual call) is the argument
    [measure]; visqol_manager.cc:97-101 always passes the NSIM comparator of Model/Nsim.v. *)
From Coq Require Import ZArith List Bool.
From Verif Require Import Base.Res Base.Num Base.Lists Base.Mat Model.Amatrix Model.MiscMath Model.Window
  Model.FilterBank Model.Spectrogram Model.Nsim Model.Fft Model.Alignment.
Import ListNotations.
Open Scope Z_scope.

(** comparison_patches_selector.cc:58-69 (and 193-200): the offsets at which the loop body runs.
    A negative offset jumps to 0, an offset past the spectrogram ends the loop.  [None]: not enough
    fuel. *)
Fixpoint slide_loop (fuel : nat) (s hi nc : Z) : option (list nat) :=
  match fuel with
  | O => None
  | S f =>
      if s <=? hi then
        if s <? 0 then slide_loop f 0 hi nc
        else if nc <=? s then Some []
        else option_map (cons (Z.to_nat s)) (slide_loop f (s + 1) hi nc)
      else Some []
  end.

(** does a value fit into an int? *)
Definition fits_int (z : Z) : bool := (- 2 ^ 31 <=? z) && (z <? 2 ^ 31).

Section Selector.
  Context {T : Type} {N : Num T}.

  (** *** comparison_patches_selector.cc:243-271 BuildDegradedPatch *)

  (** 252-266: one row of the degraded patch; [wb] is an int, [we] a size_t *)
  Definition degraded_row (S : mat T) (r : nat) (wb we : Z) : res (list T) :=
    let last_col := size_of (Z.of_nat (ncols S) - 1) in
    let first_real := Z.max 0 wb in
    let last_real := int_of (Z.min we last_col) in
    do row <- m_row_subset S (Z.of_nat r) first_real (size_of last_real);
    let row := if wb <? 0 then repeat n0 (Z.to_nat (0 - wb)) ++ row else row in
    Ret (if last_col <? we then row ++ repeat n0 (Z.to_nat (we - last_col)) else row).

  (** 255-269: the rows are stored one after the other *)
  Fixpoint degraded_rows (S P : mat T) (wb we : Z) (rs : list nat) : res (mat T) :=
    match rs with
    | [] => Ret P
    | r :: t =>
        do row <- degraded_row S r wb we;
        do P' <- m_set_row P (Z.of_nat r) row;
        degraded_rows S P' wb we t
    end.

  Definition build_degraded_patch (S : mat T) (wb we : Z) (height width : nat) : res (mat T) :=
    degraded_rows S (m_new height width) wb we (seq 0 (nrows S)).

  (** 171-173, 211-213: the degraded patch for a reference patch at an offset *)
  Definition degraded_at (S ref : mat T) (offset : Z) : res (mat T) :=
    build_degraded_patch S offset (size_of (offset + Z.of_nat (ncols ref) - 1)) (nrows ref) (ncols ref).

  (** *** comparison_patches_selector.cc:117-132 CalcMaxNumPatches; the indices are given last first.
      The loop has no lower bound: when every patch is dropped it reads element -1. *)
  Fixpoint max_num_patches_loop (rev_idx : list Z) (num_frames p : Z) : res nat :=
    match rev_idx with
    | [] => Ub
    | i :: t =>
        if ngtb (nsub (nofZ i) (nofZ (p / 2) : T)) (nofZ num_frames)
        then max_num_patches_loop t num_frames p
        else Ret (length rev_idx)
    end.
  Definition calc_max_num_patches (idx : list Z) (num_frames p : Z) : res nat :=
    match idx with
    | [] => Ret 0%nat
    | _ => max_num_patches_loop (rev idx) num_frames p
    end.

  (** *** comparison_patches_selector.cc:39-115 FindMostOptimalDegPatch *)
  Section WithMeasure.
  Variable measure : mat T -> mat T -> res (psr T).

  (** 83-99: best cumulative score among the offsets slide-1, slide-2, ..., lower of the previous
      patch's row (first one met wins), and its offset (-1 if none exceeds lowest()) *)
  Definition back_step (prev : list T) (acc : T * Z) (b : nat) : T * Z :=
    let v := nth b prev n0 in
    if nltb (fst acc) v then (v, Z.of_nat b) else acc.
  Definition back_search (prev : list T) (lower slide : nat) : T * Z :=
    fold_left (back_step prev) (rev (seq lower (slide - lower))) (nlowest, -1).

  (** 73-111: the value and the back pointer of one cell; [prev] is the previous patch's row together
      with its lower limit *)
  Definition dp_cell (prev : option (list T * nat)) (slide : nat) (sim : T) : T * Z :=
    match prev with
    | None => (sim, -1)
    | Some (row, lower) =>
        let '(highest, past) := back_search row lower slide in
        let sim' := nadd sim highest in
        let v := nth slide row n0 in
        if nltb sim' v then (v, Z.of_nat slide) else (sim', past)
    end.

  (** 58-114: the loop over the offsets of one patch *)
  Fixpoint dp_row (ref : mat T) (degs : list (mat T)) (prev : option (list T * nat))
           (slides : list nat) (row : list T) (bt : list Z) : res (list T * list Z) :=
    match slides with
    | [] => Ret (row, bt)
    | s :: t =>
        match nth_error degs s with
        | None => Ub
        | Some deg =>
            do r <- measure ref deg;
            let '(v, past) := dp_cell prev s (ps_sim r) in
            dp_row ref degs prev t (upd row s v) (upd bt s past)
        end
    end.

  (** 48, 58-59, 83-84: the offsets for a patch at reference index [ref_idx] *)
  Definition row_slides (ref_idx sw nc : Z) : res (list nat) :=
    let i := int_of ref_idx in
    if fits_int (i - sw) && fits_int (i + sw) then
      match slide_loop (S (S (S (Z.to_nat nc)))) (i - sw) (i + sw) nc with
      | Some l => Ret l
      | None => Ub
      end
    else Ub.
  Definition lower_limit (ref_idx sw : Z) : nat :=
    Z.to_nat (Z.max (int_of (size_of (ref_idx - sw))) 0).

  (** 176-182: all patches; each item is (reference patch, reference index); the result is the list of
      (cumulative similarities, back pointers).  Rows start as zeros (162-166). *)
  Fixpoint dp_rows (degs : list (mat T)) (nc : nat) (sw : Z) (prev : option (list T * nat))
           (items : list (mat T * Z)) : res (list (list T * list Z)) :=
    match items with
    | [] => Ret []
    | (ref, idx) :: t =>
        do slides <- row_slides idx sw (Z.of_nat nc);
        do '(row, bt) <- dp_row ref degs prev slides (repeat n0 nc) (repeat 0 nc);
        do rest <- dp_rows degs nc sw (Some (row, lower_limit idx sw)) t;
        Ret ((row, bt) :: rest)
    end.

  (** 183-206: the first offset whose cumulative score is largest; [None] if none exceeds lowest(), in
      which case last_offset stays uninitialised *)
  Definition scan_step (row : list T) (acc : T * option Z) (s : nat) : T * option Z :=
    let v := nth s row n0 in
    if nltb (fst acc) v then (v, Some (Z.of_nat s)) else acc.
  Definition final_scan (row : list T) (idx sw : Z) : res Z :=
    let nc := Z.of_nat (length row) in
    let lower := Z.max 0 (int_of (size_of (idx - sw))) in
    match slide_loop (S (S (S (length row)))) lower (size_of (idx + size_of sw)) nc with
    | None => Ub
    | Some l =>
        match snd (fold_left (scan_step row) l (nlowest, None)) with
        | Some o => Ret o
        | None => Ub
        end
    end.

  (** 216-237: the result for one patch *)
  Definition with_times (r : psr T) (lost : bool) (offset idx : Z) (frame_duration patch_duration : T)
    : psr T :=
    let ref_start := nmul (nofZ idx) frame_duration in
    let ref_end := nadd ref_start patch_duration in
    if lost then
      MkPsr (m_filled (nrows (ps_means r)) (ncols (ps_means r)) n0) (ps_stddevs r) (ps_energy r) n0
            ref_start ref_end n0 n0
    else
      let deg_start := nmul (nofZ offset) frame_duration in
      MkPsr (ps_means r) (ps_stddevs r) (ps_energy r) (ps_sim r)
            ref_start ref_end deg_start (nadd deg_start patch_duration).

  (** 208-239: from the last patch to the first *)
  Fixpoint backtrack (S : mat T) (fd pd : T) (items : list (mat T * Z * list Z)) (last : Z)
           (acc : list (psr T)) : res (list (psr T)) :=
    match items with
    | [] => Ret acc
    | (ref, idx, bt) :: t =>
        do deg <- degraded_at S ref last;
        do r <- measure ref deg;
        if (0 <=? last) && (last <? Z.of_nat (length bt)) then
          let b := nth (Z.to_nat last) bt 0 in
          backtrack S fd pd t b (with_times r (last =? b) last idx fd pd :: acc)
        else Ub
    end.

  (** 134-241 FindMostOptimalDegPatches *)
  Definition find_most_optimal_deg_patches (refs : list (mat T)) (idx : list Z) (S : mat T)
             (frame_duration : T) (radius : Z) : res (list (psr T)) :=
    match refs with
    | [] => Ub
    | ref0 :: _ =>
        let p := Z.of_nat (ncols ref0) in
        let nc := ncols S in
        let pd := nmul frame_duration (nofZ p) in
        let sw := int_of (size_of (size_of radius * p)) in
        do n <- calc_max_num_patches idx (Z.of_nat nc) p;
        if Nat.eqb n 0 then Err Cancelled
        else
          do degs <- sequence (map (fun o => degraded_at S ref0 (Z.of_nat o)) (seq 0 nc));
          if Nat.ltb (length refs) n then Ub
          else
            let items := combine (firstn n refs) (firstn n idx) in
            do rows <- dp_rows degs nc sw None items;
            do last <- final_scan (fst (List.last rows ([], []))) (List.last (firstn n idx) 0) sw;
            backtrack S frame_duration pd (rev (combine items (map snd rows))) last []
    end.

  End WithMeasure.

  (** *** comparison_patches_selector.cc:273-299 Slice *)
  Definition slice (s : audio T) (start_time end_time : T) : res (audio T) :=
    let n := Z.of_nat (length (au_data s)) in
    let sr := nofZ (au_sr s) in
    do si <- to_int (nmul start_time sr);
    do ei <- to_int (nmul end_time sr);
    let start_index := Z.max 0 si in
    let end_index := Z.min (int_of (size_of (n - 1))) ei in
    do m <- v_rows (au_data s) start_index (size_of (end_index - 1));
    let diff := nsub (nmul end_time sr) (nofZ n) in
    do m <- (if nltb n0 diff then do k <- to_size diff; Ret (repeat n0 (Z.to_nat k) ++ m) else Ret m);
    do m <- (if nltb start_time n0
             then do k <- to_size (nmul (nmul (nofZ (-1)) start_time) sr); Ret (repeat n0 (Z.to_nat k) ++ m)
             else Ret m);
    Ret (MkAudio m (au_sr s)).

  (** audio_signal.h:42-44 GetDuration *)
  Definition duration (s : audio T) : T := ndiv (nofnat (length (au_data s))) (nofZ (au_sr s)).

  (** *** comparison_patches_selector.cc:301-382 FinelyAlignAndRecreatePatches *)
  Section Fine.
  Context {L : Libm T}.
  Variable measure : mat T -> mat T -> res (psr T).
  Variable pf : pffft T.
  Variable speech : bool.

  (** 362-379: keep the old result, or take the new one with adjusted times *)
  Definition merge_result (old new : psr T) (lag ref_dur deg_dur : T) : psr T :=
    if nltb (ps_sim new) (ps_sim old) then old
    else
      let rs := if nltb n0 lag then nadd (ps_ref_start old) lag else ps_ref_start old in
      let ds := if nltb n0 lag then ps_deg_start old else nsub (ps_deg_start old) lag in
      MkPsr (ps_means new) (ps_stddevs new) (ps_energy new) (ps_sim new)
            rs (nadd rs ref_dur) ds (nadd ds deg_dur).

  (** 311-312 *)
  Definition is_lost (r : psr T) : bool :=
    neqb (ps_deg_start r) (ps_deg_end r) && neqb (ps_deg_start r) n0.

  (** 310-379: one patch; the builder's filter bank is threaded through *)
  Definition finely_align_one (w : window T) (ref deg : audio T) (k : bank T) (r : psr T)
    : bank T * res (psr T) :=
    if is_lost r then (k, Ret r)
    else
      match (do ra <- slice ref (ps_ref_start r) (ps_ref_end r);
             do da <- slice deg (ps_deg_start r) (ps_deg_end r);
             align_and_truncate pf ra da) with
      | Ret (ra, da, lag) =>
          let '(k1, rs) := build speech k ra w in
          match rs with
          | Ret rspec =>
              let '(k2, ds) := build speech k1 da w in
              (k2,
               do dspec <- ds;
               do '(A, B) <- prepare_spectrograms (sp_data rspec) (sp_data dspec);
               do new <- measure A B;
               Ret (merge_result r new lag (duration ra) (duration da)))
          | Err c => (k1, Err c)
          | Throw => (k1, Throw)
          | Ub => (k1, Ub)
          end
      | Err c => (k, Err c)
      | Throw => (k, Throw)
      | Ub => (k, Ub)
      end.

  Fixpoint finely_align (w : window T) (ref deg : audio T) (k : bank T) (rs : list (psr T))
    : bank T * res (list (psr T)) :=
    match rs with
    | [] => (k, Ret [])
    | r :: t =>
        let '(k1, x) := finely_align_one w ref deg k r in
        match x with
        | Ret r' =>
            let '(k2, y) := finely_align w ref deg k1 t in
            (k2, do l <- y; Ret (r' :: l))
        | Err c => (k1, Err c)
        | Throw => (k1, Throw)
        | Ub => (k1, Ub)
        end
    end.
  End Fine.
End Selector.
