(** Model of src/signal_filter.cc. *)
From Coq Require Import ZArith List Bool.
From Verif Require Import Base.Res Base.Num Base.Lists.
Import ListNotations.

Section SignalFilter.
  Context {T : Type} {N : Num T}.
  Local Open Scope num_scope.

  (** signal_filter.cc:36-40: the inner loop for one sample; element i-1 is overwritten using the
      old element i, the last element is left as it is *)
  Definition filter_cond (b a : list T) (x y : T) (f : list T) : list T :=
    map (fun i => if Nat.ltb (S i) (length f)
                  then nth (S i) b n0 * x + nth (S i) f n0 - nth (S i) a n0 * y
                  else nth i f n0)
        (seq 0 (length f)).

  (** signal_filter.cc:34-41 *)
  Fixpoint filter_loop (b a : list T) (sig : list T) (f : list T) : list T * list T :=
    match sig with
    | [] => ([], f)
    | x :: t =>
        let y := nth 0 b n0 * x + nth 0 f n0 in
        let '(ys, f') := filter_loop b a t (filter_cond b a x y f) in
        (y :: ys, f')
    end.

  (** signal_filter.cc:22-48 Filter(numer_coeffs, denom_coeffs, signal, init_conditions): the initial
      conditions are padded with zeros to the denominator's length, the last one is cut off at the
      end.  Too many initial conditions, an empty denominator, or a numerator shorter than the
      denominator is out of bounds (the latter two only matter when a sample is processed; the code
      requires them). *)
  Definition signal_filter (b a sig ic : list T) : res (list T * list T) :=
    let n := length a in
    if Nat.ltb n (length ic) || Nat.eqb n 0 || Nat.ltb (length b) n then Ub
    else
      let f := ic ++ repeat n0 (n - length ic) in
      let '(ys, f') := filter_loop b a sig f in
      Ret (ys, firstn (n - 1) f').
End SignalFilter.
