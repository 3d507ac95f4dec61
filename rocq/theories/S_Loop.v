(** Specification vocabulary for an agent that repeatedly looks at its neighbors, proposes and applies (C89). *)
From Coq Require Import ZArith Reals List Bool.
From Verif Require Import Num RealNum S_Circle M_Core M_Strategy M_Agent.
Import ListNotations.

Section Loop.
Context {T : Type} {N : Num T}.
(** What one turn meets: the neighbors' phases, the two random draws and the global goal. *)
Record Turn := mkTurn { tn_nb : list T; tn_r1 : T; tn_r2 : T; tn_goal : State T }.
Definition Strat := State T -> State T -> Context T -> Action T * T.
(** UpdateContext, then ProposeAdjustment with the simple decision maker, then ApplyAction of a proposal that was accepted. *)
Definition proposed (st : Strat) (x : Turn) (a : Agent T) : Action T * bool :=
  ProposeAdjustment st Decide (tn_r1 x) (tn_r2 x) (tn_nb x) (UpdateContext (tn_nb x) a) (tn_goal x).
Definition turn (st : Strat) (a : Agent T) (x : Turn) : Agent T :=
  let a1 := UpdateContext (tn_nb x) a in
  let p := proposed st x a in
  if snd p then fst (ApplyAction a1 (fst p)) else a1.
Definition turns (st : Strat) (a : Agent T) (xs : list Turn) : Agent T := fold_left (turn st) xs a.
(** How many of the turns were accepted. *)
Fixpoint accepted (st : Strat) (a : Agent T) (xs : list Turn) : nat :=
  match xs with
  | [] => O
  | x :: r => ((if snd (proposed st x a) then 1 else 0) + accepted st (turn st a x) r)%nat
  end.
End Loop.
Arguments Turn : clear implicits.
Arguments Strat : clear implicits.

(** The neighbors have the mean direction [m] and the resultant length [rho]. *)
Definition faces (nb : list R) (m rho : R) : Prop :=
  nb <> [] /\ (0 < rho)%R /\
  fold_right (fun p s => cos p + s)%R 0%R nb = (IZR (Z.of_nat (length nb)) * rho * cos m)%R /\
  fold_right (fun p s => sin p + s)%R 0%R nb = (IZR (Z.of_nat (length nb)) * rho * sin m)%R.
(** Seen from the phase [p], the neighbors pull with the strength [rho] over the arc [D]: their mean direction is [d] away and
    the agent's new goal is the share [(1 + rho) / 2] of the way there. *)
Definition pulled (nb : list R) (p rho D : R) : Prop := exists m d, faces nb m rho /\ is_arc m p d /\ D = ((1 + rho) / 2 * d)%R.
(** Moving at the rate [r] is worth less than keeping still (by a hair, for the two phases PhaseDifference treats apart). *)
Definition nudge_dull (r D : R) : Prop := (3 / 2 * (1 - D / PI) + 3 / 1000000000 < 5 * Rmax (2 * r * D) (1 / 10))%R.
Definition lock_dull (r rho D : R) : Prop := (2 * rho + 4 / 1000000000 < 5 * Rmax (3 * r * D) (1 / 10))%R.
(** Nudging is worth at least as much. *)
Definition nudge_worth (r D : R) : Prop := (5 * Rmax (2 * r * D) (1 / 10) <= 3 / 2 * (1 - D / PI))%R.
