(** Model of src/alignment.cc. *)
From Coq Require Import ZArith List Bool.
From Verif Require Import Base.Res Base.Num Base.Lists Base.Mat Model.Amatrix Model.MiscMath Model.Fft
  Model.FilterBank.
Import ListNotations.
Open Scope Z_scope.

(** conversion double -> int (undefined when the truncated value does not fit) *)
Definition to_int {T} {N : Num T} (x : T) : res Z :=
  match ntrunc x with
  | Some z => if (- 2 ^ 31 <=? z) && (z <? 2 ^ 31) then Ret z else Ub
  | None => Ub
  end.
(** conversion double -> size_t *)
Definition to_size {T} {N : Num T} (x : T) : res Z :=
  match ntrunc x with
  | Some z => if (0 <=? z) && (z <? two64) then Ret z else Ub
  | None => Ub
  end.

Section Alignment.
  Context {T : Type} {N : Num T}.

  (** alignment.cc:73-98: what is done with the best lag *)
  Definition apply_lag (ref deg : audio T) (best_lag : Z) : res (audio T * T) :=
    let half := ndiv (nofnat (length (au_data ref))) (nofZ 2) in
    if (best_lag =? 0) || nltb half (nofZ (Z.abs best_lag)) then Ret (deg, n0)
    else
      do d <- (if best_lag <? 0
               then v_rows (au_data deg) (Z.abs best_lag) (size_of (Z.of_nat (length (au_data deg)) - 1))
               else Ret (repeat n0 (Z.to_nat best_lag) ++ au_data deg));
      Ret (MkAudio d (au_sr deg), ndiv (nofZ best_lag) (nofZ (au_sr deg))).

  (** alignment.cc:63-98 GloballyAlign *)
  Definition globally_align (pf : pffft T) (ref deg : audio T) : res (audio T * T) :=
    do re <- calc_upper_env pf (au_data ref);
    do de <- calc_upper_env pf (au_data deg);
    do best_lag <- find_lowest_lag_index pf re de;
    apply_lag ref deg best_lag.

  (** alignment.cc:30-60: truncation after alignment; [aligned] and [lag] are GloballyAlign's result.
      A negative int converts to a huge size_t, which the row range check rejects. *)
  Definition truncate_aligned (ref deg aligned : audio T) (lag : T) : res (audio T * audio T * T) :=
    let r := au_data ref in
    let d := au_data aligned in
    let nr := Z.of_nat (length r) in
    let nd := Z.of_nat (length d) in
    do '(r', d') <-
      (if nd <? nr then
         do r' <- v_rows r 0 (size_of (nd - 1)); Ret (r', d)
       else if nr <? nd then
         do a <- to_int (nmul lag (nofZ (au_sr ref)));
         do r' <- v_rows r (size_of a) (size_of (nr - 1));
         do b <- to_int (nmul lag (nofZ (au_sr deg)));
         do d' <- v_rows d (size_of b) (size_of (nr - 1));
         Ret (r', d')
       else Ret (r, d));
    Ret (MkAudio r' (au_sr ref), MkAudio d' (au_sr deg), lag).

  (** alignment.cc:26-61 AlignAndTruncate *)
  Definition align_and_truncate (pf : pffft T) (ref deg : audio T) : res (audio T * audio T * T) :=
    do '(aligned, lag) <- globally_align pf ref deg;
    truncate_aligned ref deg aligned lag.
End Alignment.
