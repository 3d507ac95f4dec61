(** Specification vocabulary: accuracy of the float functions of package math. *)
From Coq Require Import ZArith Reals.
From Flocq Require Import IEEE754.BinarySingleNaN.
From Verif Require Import Num F64 RealNum S_Circle.
Open Scope R_scope.

(** [tr] computes sine and cosine within [e] (arguments up to 2^29, where Go's own reduction applies) and the direction
    of a vector within [4 e].  On the negative x axis the sign of a zero selects PI or -PI, hence [cong]. *)
Record trig_acc (tr : Trig) (e : R) : Prop := {
  acc_sin : forall x, is_finite x = true -> Rabs (B2R x) <= 2 ^ 29 -> Rabs (B2R (tsin tr x) - sin (B2R x)) <= e;
  acc_cos : forall x, is_finite x = true -> Rabs (B2R x) <= 2 ^ 29 -> Rabs (B2R (tcos tr x) - cos (B2R x)) <= e;
  acc_atan2 : forall y x, is_finite y = true -> is_finite x = true -> (B2R y <> 0 \/ B2R x <> 0) ->
    exists t, cong t (Ratan2 (B2R y) (B2R x)) /\ Rabs t <= PI /\ Rabs (B2R (tatan2 tr y x) - t) <= 4 * e }.
