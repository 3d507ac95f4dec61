(** Number interface.

    Go's [float64] operations that occur in /repo, collected in one class so that the
    model functions can be read in two semantics: IEEE binary64 ([F64.v]) and exact
    reals ([RealNum.v]).  Nothing here models a particular file of /repo; it is the
    vocabulary the model files are written in. *)
From Coq Require Import ZArith List.
Import ListNotations.

Class Num (T : Type) := {
  nadd : T -> T -> T;                 (* x + y *)
  nsub : T -> T -> T;                 (* x - y *)
  nmul : T -> T -> T;                 (* x * y *)
  ndiv : T -> T -> T;                 (* x / y *)
  nneg : T -> T;                      (* -x *)
  nabs : T -> T;                      (* math.Abs *)
  nsqrt : T -> T;                     (* math.Sqrt *)
  nlt : T -> T -> bool;               (* x < y *)
  nle : T -> T -> bool;               (* x <= y *)
  neqb : T -> T -> bool;              (* x == y *)
  nmod : T -> T -> T;                 (* math.Mod *)
  nrem : T -> T -> T;                 (* math.Remainder *)
  nmin : T -> T -> T;                 (* math.Min *)
  nmax : T -> T -> T;                 (* math.Max *)
  nsin : T -> T;                      (* math.Sin *)
  ncos : T -> T;                      (* math.Cos *)
  nexp : T -> T;                      (* math.Exp *)
  natan2 : T -> T -> T;               (* math.Atan2 y x *)
  nofZ : Z -> T;                      (* float64(n) for an integer n *)
  nlit : Z -> Z -> T;                 (* decimal literal n/d, n and d below 2^53 *)
  nhalfpi : Z -> T;                   (* the constant n*math.Pi/2 *)
  nmaxfloat : T;                      (* math.MaxFloat64 *)
  nisnan : T -> bool;                 (* math.IsNaN *)
  nisinf : T -> bool;                 (* math.IsInf(x, 0) *)
  ntrunc : T -> Z                     (* int(x), time.Duration(x) *)
}.

Declare Scope num_scope.
Delimit Scope num_scope with num.
Bind Scope num_scope with Num.
Infix "+" := nadd : num_scope.
Infix "-" := nsub : num_scope.
Infix "*" := nmul : num_scope.
Infix "/" := ndiv : num_scope.
Notation "- x" := (nneg x) : num_scope.
Infix "<?" := nlt : num_scope.
Infix "<=?" := nle : num_scope.
Infix "=?" := neqb : num_scope.
Notation "x >? y" := (nlt y x) (at level 70, no associativity) : num_scope.
Notation "x >=? y" := (nle y x) (at level 70, no associativity) : num_scope.

(** Small integers as float constants, and the multiples of [math.Pi] used by the code. *)
Definition n0 {T} `{Num T} : T := nofZ 0.
Definition n1 {T} `{Num T} : T := nofZ 1.
Definition npi {T} `{Num T} : T := nhalfpi 2.
Definition n2pi {T} `{Num T} : T := nhalfpi 4.

(** [for _, x := range xs { acc = f(acc, x) }] is [fold_left]; sums start from 0.0. *)
Definition nsum {T} `{Num T} (xs : list T) : T := fold_left nadd xs n0.
