(** Exact-real instance of [Num]: the idealisation of float64 in which the geometric
    properties are stated.  There are no NaN or infinities here and no rounding. *)
From Coq Require Import ZArith Reals Psatz Bool List.
From Flocq Require Import Core.Core.
From Verif Require Import Num.
Open Scope R_scope.

(** Two-argument arctangent with Go's conventions (x = y = 0 gives 0). *)
Definition Ratan2 (y x : R) : R :=
  if Rlt_bool 0 x then atan (y / x)
  else if Rlt_bool x 0 then
    (if Rle_bool 0 y then atan (y / x) + PI else atan (y / x) - PI)
  else if Rlt_bool 0 y then PI / 2
  else if Rlt_bool y 0 then - (PI / 2)
  else 0.

(** math.Mod: x - y*trunc(x/y).  math.Remainder: x - y*rint(x/y). *)
Definition Rmod (x y : R) : R := x - y * IZR (Ztrunc (x / y)).
Definition Rrem (x y : R) : R := x - y * IZR (ZnearestE (x / y)).

#[global] Instance RNum : Num R := {
  nadd := Rplus; nsub := Rminus; nmul := Rmult; ndiv := Rdiv; nneg := Ropp; nabs := Rabs;
  nsqrt := sqrt; nlt := Rlt_bool; nle := Rle_bool; neqb := Req_bool; nmod := Rmod;
  nrem := Rrem; nmin := Rmin; nmax := Rmax; nsin := sin; ncos := cos; nexp := exp;
  natan2 := Ratan2; nofZ := IZR; nlit := fun n d => IZR n / IZR d;
  nhalfpi := fun n => IZR n * PI / 2;
  nmaxfloat := (2 - / bpow radix2 52) * bpow radix2 1023;
  nisnan := fun _ => false; nisinf := fun _ => false; ntrunc := Ztrunc
}.
