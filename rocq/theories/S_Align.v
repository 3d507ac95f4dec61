(** Specification vocabulary for the alignment of a synchronised population (C88), in exact arithmetic. *)
From Coq Require Import ZArith Reals List Bool Permutation.
From Verif Require Import Num RealNum M_Core M_Agent M_GoalConfig M_ConvMonitor M_Sync S_Round S_RoundMove.
Import ListNotations.

(** Nobody else changes the agents during the round; each traversal sees them all, in any order. *)
Definition undisturbed (e : Env R) : Prop := (2 <= ev_fuel e)%nat /\ forall k l, Permutation (ev_view e k l) l.
(** What the [k]th traversal of the round sees. *)
Fixpoint seen (e : Env R) (k : nat) (l : list (Agent R)) : list (Agent R) :=
  match k with O => ev_view e 0 l | S j => ev_view e k (seen e j l) end.
(** The round takes the population for synchronised at different phases. *)
Definition aligns (c : GCfg R) (e : Env R) (l : list (Agent R)) : Prop :=
  exists var, @MeasurePhaseVariance R RNum (ev_fuel e) (seen e 6 l) = Some var /\ aligning c (@swarmCoherence R RNum (seen e 5 l)) var.
(** Aligning rounds in a row, none of them successful, none adding noise. *)
Inductive alignRounds (c : GCfg R) (target : TargetPattern R) : list (Env R) -> SyncState R -> SyncState R -> Prop :=
| align_nil s : alignRounds c target [] s s
| align_cons e es s s1 s2 : undisturbed e -> aligns c e (ss_agents s) -> @round R RNum c target e s = Some (s1, false) -> IsStuck (ss_mon s1) = false ->
    alignRounds c target es s1 s2 -> alignRounds c target (e :: es) s s2.
(** The way forward from the agent to the target is at most [b]. *)
Definition closing (target b : R) (a : Agent R) : Prop := exists phi, ahead target (phaseOf a) phi /\ (phi <= b)%R.
(** The longest series of aligning rounds with the settings of each goal. *)
Definition longest (g : Goal) : nat :=
  match g with
  | MinimizeAPICalls | ReachConsensus | MinimizeLatency | MaintainRhythm => 2
  | DistributeLoad | RecoverFromFailure => 3
  | SaveEnergy | AdaptToTraffic => 4
  | OtherGoal => 0
  end.
