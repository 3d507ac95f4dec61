(** IEEE-754 binary64 instance of [Num] (Go [float64] on amd64: round to nearest even,
    no fused multiply-add), built on Flocq's [BinarySingleNaN]. *)
From Coq Require Import ZArith Reals Psatz Bool List.
From Flocq Require Import Core.Core IEEE754.BinarySingleNaN.
From Verif Require Import Num.
Open Scope Z_scope.

Notation F := (binary_float 53 1024).
#[global] Instance Hprec53 : Prec_gt_0 53 := eq_refl.
#[global] Instance Hmax1024 : Prec_lt_emax 53 1024 := eq_refl.

Definition fnan : F := B754_nan.
Definition finf : F := B754_infinity false.
Definition fninf : F := B754_infinity true.

Definition fadd (x y : F) : F := Bplus mode_NE x y.
Definition fsub (x y : F) : F := Bminus mode_NE x y.
Definition fmul (x y : F) : F := Bmult mode_NE x y.
Definition fdiv (x y : F) : F := Bdiv mode_NE x y.
Definition fneg (x : F) : F := Bopp x.
Definition fabs (x : F) : F := Babs x.
Definition fsqrt (x : F) : F := Bsqrt mode_NE x.
Definition flt (x y : F) : bool := Bltb x y.
Definition fle (x y : F) : bool := Bleb x y.
Definition feq (x y : F) : bool := Beqb x y.
Definition fisnan (x : F) : bool := is_nan x.
Definition fisinf (x : F) : bool := match x with B754_infinity _ => true | _ => false end.

(** [float64(z)] and the correctly rounded quotient used for decimal literals. *)
Definition fofZ (z : Z) : F := binary_normalize 53 1024 _ _ mode_NE z 0 false.
Definition flit (n d : Z) : F := fdiv (fofZ n) (fofZ d).

(** floor(pi * 2^200); constants n*math.Pi/2 are rounded once, as Go does for constant
    expressions. *)
Definition PI200 : Z := 5048344754617993871973410141242436836214643421488662971535368.
Definition fhalfpi (n : Z) : F := binary_normalize 53 1024 _ _ mode_NE (n * PI200) (-201) false.

Definition fmaxfloat : F := @Bmax_float 53 1024 _ _.

(** [math.Max] / [math.Min] with Go's documented special cases:
    Max(x,+Inf)=+Inf even for NaN x, otherwise NaN wins, Max(+0,-0)=+0. *)
Definition fmax (x y : F) : F :=
  match x, y with
  | B754_infinity false, _ => finf
  | _, B754_infinity false => finf
  | B754_nan, _ => fnan
  | _, B754_nan => fnan
  | B754_zero sx, B754_zero _ => if sx then y else x
  | _, _ => if flt y x then x else y
  end.
Definition fmin (x y : F) : F :=
  match x, y with
  | B754_infinity true, _ => fninf
  | _, B754_infinity true => fninf
  | B754_nan, _ => fnan
  | _, B754_nan => fnan
  | B754_zero sx, B754_zero _ => if sx then x else y
  | _, _ => if flt x y then x else y
  end.

(** [math.Mod]: exact remainder of truncated division, sign of the dividend.
    Mod(±Inf,y)=NaN, Mod(x,0)=NaN, Mod(x,±Inf)=x. *)
Definition fmod (x y : F) : F :=
  match x, y with
  | B754_nan, _ => fnan
  | _, B754_nan => fnan
  | B754_infinity _, _ => fnan
  | _, B754_zero _ => fnan
  | _, B754_infinity _ => x
  | B754_zero _, _ => x
  | B754_finite sx mx ex _, B754_finite _ my ey _ =>
      let e := Z.min ex ey in
      let zx := Z.pos mx * 2 ^ (ex - e) in
      let zy := Z.pos my * 2 ^ (ey - e) in
      binary_normalize 53 1024 _ _ mode_NE (cond_Zopp sx (zx mod zy)) e sx
  end.

(** [math.Remainder]: x - n*y with n the integer nearest x/y, ties to even. *)
Definition frem (x y : F) : F :=
  match x, y with
  | B754_nan, _ => fnan
  | _, B754_nan => fnan
  | B754_infinity _, _ => fnan
  | _, B754_zero _ => fnan
  | _, B754_infinity _ => x
  | B754_zero _, _ => x
  | B754_finite sx mx ex _, B754_finite _ my ey _ =>
      let e := Z.min ex ey in
      let zx := Z.pos mx * 2 ^ (ex - e) in
      let zy := Z.pos my * 2 ^ (ey - e) in
      let q := zx / zy in
      let r := zx mod zy in
      let r' := if (2 * r <? zy) || ((2 * r =? zy) && Z.even q) then r else r - zy in
      binary_normalize 53 1024 _ _ mode_NE (cond_Zopp sx r') e sx
  end.

(** [int(x)] / [time.Duration(x)] on amd64: truncation toward zero; NaN, infinities and
    values outside int64 give the minimum int64 (CVTTSD2SQ). *)
Definition minint64 : Z := - 2 ^ 63.
Definition ftrunc (x : F) : Z :=
  match x with
  | B754_zero _ => 0
  | B754_nan | B754_infinity _ => minint64
  | B754_finite s m e _ =>
      let a := match e with
               | Z0 => Z.pos m
               | Zpos p => Z.pos m * 2 ^ Z.pos p
               | Zneg p => Z.pos m / 2 ^ Z.pos p
               end in
      let v := cond_Zopp s a in
      if (v <? - 2 ^ 63) || (2 ^ 63 - 1 <? v) then minint64 else v
  end.

(** The transcendental functions of package math are parameters. *)
Record Trig := {
  tsin : F -> F; tcos : F -> F; texp : F -> F; tatan2 : F -> F -> F
}.

#[global] Instance FNum (tr : Trig) : Num F := {
  nadd := fadd; nsub := fsub; nmul := fmul; ndiv := fdiv; nneg := fneg; nabs := fabs;
  nsqrt := fsqrt; nlt := flt; nle := fle; neqb := feq; nmod := fmod; nrem := frem;
  nmin := fmin; nmax := fmax; nsin := tsin tr; ncos := tcos tr; nexp := texp tr;
  natan2 := tatan2 tr; nofZ := fofZ; nlit := flit; nhalfpi := fhalfpi;
  nmaxfloat := fmaxfloat; nisnan := fisnan; nisinf := fisinf; ntrunc := ftrunc
}.
