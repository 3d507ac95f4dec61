(** Specification vocabulary for phases on the circle (exact reals). *)
From Coq Require Import ZArith Reals.
Open Scope R_scope.

(** Same point of the circle: equal up to a whole number of turns. *)
Definition cong (a b : R) : Prop := exists k : Z, a = b + IZR k * (2 * PI).

(** [d] is the length of the shortest arc between [a] and [b]. *)
Definition is_arc (a b d : R) : Prop :=
  (exists k : Z, d = Rabs (a - b + IZR k * (2 * PI))) /\
  (forall k : Z, d <= Rabs (a - b + IZR k * (2 * PI))).
