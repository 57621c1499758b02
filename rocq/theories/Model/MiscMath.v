(** Model of src/misc_math.cc and src/misc_vector.cc. *)
From Coq Require Import ZArith List Bool.
From Verif Require Import Base.Res Base.Num Base.Lists Base.Mat Model.Amatrix.
Import ListNotations.
Open Scope Z_scope.

Section Elem.
  Context {T : Type} {N : Num T}.

  (** std::max_element: first element e such that no other is greater (operator<); None on an empty
      range, whose end iterator the callers dereference (undefined) *)
  Fixpoint max_elem_from (best : T) (l : list T) : T :=
    match l with
    | [] => best
    | x :: t => max_elem_from (if nltb best x then x else best) t
    end.
  Definition max_elem (l : list T) : res T :=
    match l with [] => Ub | x :: t => Ret (max_elem_from x t) end.

  (** std::min_element *)
  Fixpoint min_elem_from (best : T) (l : list T) : T :=
    match l with
    | [] => best
    | x :: t => min_elem_from (if nltb x best then x else best) t
    end.
  Definition min_elem (l : list T) : res T :=
    match l with [] => Ub | x :: t => Ret (min_elem_from x t) end.

  (** misc_math.cc:21-28 Normalize, for a signal given by its single column *)
  Definition normalize (l : list T) : res (list T) :=
    do m <- max_elem l; Ret (map (fun x => ndiv x m) l).

  (** misc_vector.cc:20-30 Sum, Mean *)
  Definition vec_mean (l : list T) : T := ndiv (nsum l) (nofnat (length l)).

  (** misc_math.cc:41-49 abs_scale, NormalizeInt16ToDouble: an int16_t divided by 32768.0f; the
      quotient is exact in binary32, so the conversion to double changes nothing *)
  Definition abs_scale (x : Z) : T := ndiv (nofZ x) (nofZ 32768).
  Definition normalize_int16 (l : list Z) : list T := map abs_scale l.

  (** misc_math.cc:51-53 ExponentialFromFit *)
  Definition exponential_from_fit {L : Libm T} (x a b x0 : T) : T :=
    nadd a (mexp (nmul b (nsub x x0))).
End Elem.

(** misc_math.cc:30-39 NextPowTwo, on 32-bit unsigned arithmetic (the argument is converted to
    uint32_t by the callers) *)
Definition u32 (z : Z) : Z := z mod 2 ^ 32.
Definition next_pow_two (input : Z) : Z :=
  let n := u32 (u32 input - 1) in
  let n := Z.lor n (Z.shiftr n 1) in
  let n := Z.lor n (Z.shiftr n 2) in
  let n := Z.lor n (Z.shiftr n 4) in
  let n := Z.lor n (Z.shiftr n 8) in
  let n := Z.lor n (Z.shiftr n 16) in
  u32 (n + 1).
