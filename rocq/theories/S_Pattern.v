(** When a component of a pattern is out of tolerance (C06). *)
From Coq Require Import ZArith Reals.
From Verif Require Import S_Circle.
Open Scope R_scope.

(** Phases more than 0.1 rad apart along the shortest arc. *)
Definition phase_off (current target : R) : Prop :=
  exists d, is_arc target current d /\ d > 1 / 10.
(** Both frequencies positive and more than 5% of the target apart. *)
Definition freq_off (current target : Z) : Prop :=
  (0 < target)%Z /\ (0 < current)%Z /\ Rabs (IZR current - IZR target) > 5 / 100 * IZR target.
(** Coherence more than 0.05 below the target. *)
Definition coh_off (current target : R) : Prop := target - current > 5 / 100.
