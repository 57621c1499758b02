(** IEEE-754 binary64 (Coq primitive floats) as an instance of the numeric interface. *)
From Coq Require Import ZArith Floats.
From Verif Require Import Base.Num.
Open Scope Z_scope.

(** integer to double, rounded to nearest even (any magnitude) *)
Definition F_ofZ (z : Z) : float := SF2Prim (binary_normalize prec emax z 0 false).

(** magnitude m * 2^e truncated, and whether something was cut off *)
Definition mag_trunc (m : positive) (e : Z) : Z :=
  match e with
  | Z0 => Zpos m
  | Zpos _ => Zpos m * 2 ^ e
  | Zneg p => Zpos m / 2 ^ (Zpos p)
  end.
Definition mag_exact (m : positive) (e : Z) : bool :=
  match e with
  | Zneg p => Z.eqb (Zpos m mod 2 ^ (Zpos p)) 0
  | _ => true
  end.
Definition F_trunc (x : float) : option Z :=
  match Prim2SF x with
  | S754_zero _ => Some 0
  | S754_finite s m e => let a := mag_trunc m e in Some (if s then - a else a)
  | _ => None
  end.
Definition F_ceil (x : float) : option Z :=
  match Prim2SF x with
  | S754_zero _ => Some 0
  | S754_finite s m e =>
      let a := mag_trunc m e in
      Some (if s then - a else if mag_exact m e then a else a + 1)
  | _ => None
  end.
(** round half away from zero: floor(|x| + 1/2) computed exactly *)
Definition mag_round (m : positive) (e : Z) : Z :=
  match e with
  | Zneg p => (2 * Zpos m + 2 ^ (Zpos p)) / (2 * 2 ^ (Zpos p))
  | _ => mag_trunc m e
  end.
Definition F_round (x : float) : option Z :=
  match Prim2SF x with
  | S754_zero _ => Some 0
  | S754_finite s m e => let a := mag_round m e in Some (if s then - a else a)
  | _ => None
  end.
Definition F_lowest : float := SF2Prim (S754_finite true 9007199254740991 971).

#[global] Instance NumF : Num float := {
  nadd := PrimFloat.add; nsub := PrimFloat.sub; nmul := PrimFloat.mul; ndiv := PrimFloat.div;
  nopp := PrimFloat.opp; nabs := PrimFloat.abs; nsqrt := PrimFloat.sqrt;
  nltb := PrimFloat.ltb; nleb := PrimFloat.leb; neqb := PrimFloat.eqb;
  nofZ := F_ofZ; ntrunc := F_trunc; nceil := F_ceil; nround := F_round; nlowest := F_lowest
}.
