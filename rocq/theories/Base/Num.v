(** The numeric interface of the model.

    C++ [double] arithmetic is modelled by an arbitrary type [T] with the operations below, so that
    every model function can be read both over exact reals (Base/NumR.v) and over IEEE binary64
    (Base/NumF.v).  Structural theorems are stated for every [Num]. *)
From Coq Require Import ZArith List.
Import ListNotations.
Open Scope Z_scope.

Class Num (T : Type) : Type := {
  nadd : T -> T -> T;
  nsub : T -> T -> T;
  nmul : T -> T -> T;
  ndiv : T -> T -> T;
  nopp : T -> T;
  nabs : T -> T;
  nsqrt : T -> T;
  nltb : T -> T -> bool;        (* C++ operator<  *)
  nleb : T -> T -> bool;        (* C++ operator<= *)
  neqb : T -> T -> bool;        (* C++ operator== *)
  nofZ : Z -> T;                (* conversion from an integer type (round to nearest) *)
  ntrunc : T -> option Z;       (* truncation towards zero; None for NaN and infinities *)
  nceil : T -> option Z;        (* std::ceil followed by conversion; None for NaN and infinities *)
  nround : T -> option Z;       (* ::round (half away from zero); None for NaN and infinities *)
  nlowest : T                   (* std::numeric_limits<double>::lowest() *)
}.

(** libm functions used by the code.  Over binary64 they are an arbitrary argument. *)
Class Libm (T : Type) : Type := {
  mexp : T -> T;
  mlog : T -> T;
  mlog10 : T -> T;
  mpow10 : T -> T;              (* pow(10.0, x) *)
  mcos : T -> T;
  msin : T -> T;
  mpi : T                       (* M_PI *)
}.

Declare Scope num_scope.
Delimit Scope num_scope with num.
Infix "+" := nadd : num_scope.
Infix "-" := nsub : num_scope.
Infix "*" := nmul : num_scope.
Infix "/" := ndiv : num_scope.
Notation "- x" := (nopp x) : num_scope.
Infix "<?" := nltb : num_scope.
Infix "<=?" := nleb : num_scope.
Infix "=?" := neqb : num_scope.

Section Derived.
  Context {T : Type} {N : Num T}.
  Local Open Scope num_scope.

  Definition n0 : T := nofZ 0.
  Definition n1 : T := nofZ 1.
  (** [size_t]/[nat] to double *)
  Definition nofnat (n : nat) : T := nofZ (Z.of_nat n).

  (** A decimal literal m * 10^-k.  Over binary64 this is the correctly rounded literal whenever
      |m| < 2^53 and k <= 22, because both operands of the division are then exact. *)
  Definition ndec (m : Z) (k : Z) : T := nofZ m / nofZ (10 ^ k).

  (** C++ [a > b], [a >= b] *)
  Definition ngtb (a b : T) : bool := nltb b a.
  Definition ngeb (a b : T) : bool := nleb b a.

  (** std::max(a, b) is [(a < b) ? b : a]; std::min(a, b) is [(b < a) ? b : a]. *)
  Definition nmax (a b : T) : T := if nltb a b then b else a.
  Definition nmin (a b : T) : T := if nltb b a then b else a.

  (** std::accumulate(begin, end, 0.0) and every "sum += x" loop: left fold from 0. *)
  Definition nsum (l : list T) : T := fold_left nadd l n0.

  Definition nsq (x : T) : T := x * x.
End Derived.
