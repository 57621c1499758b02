(** Complex numbers over a numeric type (std::complex<double>). *)
From Coq Require Import ZArith List.
From Verif Require Import Base.Num.

Section Cplx.
  Context {T : Type} {N : Num T}.
  Definition cplx : Type := (T * T)%type.
  Definition cre (z : cplx) : T := fst z.
  Definition cim (z : cplx) : T := snd z.
  Definition cofr (x : T) : cplx := (x, n0).
  Definition c0 : cplx := (n0, n0).
  Definition cadd (a b : cplx) : cplx := (nadd (cre a) (cre b), nadd (cim a) (cim b)).
  Definition csub (a b : cplx) : cplx := (nsub (cre a) (cre b), nsub (cim a) (cim b)).
  Definition copp (a : cplx) : cplx := (nopp (cre a), nopp (cim a)).
  Definition cmul (a b : cplx) : cplx :=
    (nsub (nmul (cre a) (cre b)) (nmul (cim a) (cim b)),
     nadd (nmul (cre a) (cim b)) (nmul (cim a) (cre b))).
  Definition cscale (a : cplx) (x : T) : cplx := (nmul (cre a) x, nmul (cim a) x).
  Definition cconj (a : cplx) : cplx := (cre a, nopp (cim a)).
  Definition cnorm2 (a : cplx) : T := nadd (nmul (cre a) (cre a)) (nmul (cim a) (cim a)).
  Definition cabs (a : cplx) : T := nsqrt (cnorm2 a).
  Definition cdiv (a b : cplx) : cplx :=
    let n := cnorm2 b in
    (ndiv (nadd (nmul (cre a) (cre b)) (nmul (cim a) (cim b))) n,
     ndiv (nsub (nmul (cim a) (cre b)) (nmul (cre a) (cim b))) n).
  Definition cexp {L : Libm T} (a : cplx) : cplx :=
    (nmul (mexp (cre a)) (mcos (cim a)), nmul (mexp (cre a)) (msin (cim a))).
End Cplx.
Arguments cplx T : clear implicits.
