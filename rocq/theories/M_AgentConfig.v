(** Model of emerge/agent/builder.go, the optimised constructor of emerge/agent/agent.go, and
    internal/config/agent.go. *)
From Coq Require Import ZArith List Bool String.
From Verif Require Import Num M_Core M_Random M_Resource M_Strategy M_Agent.
Import ListNotations.
Open Scope num_scope.

Section Config.
Context {T : Type} {N : Num T}.

(** internal/config/agent.go:11-42 Agent (AdaptiveStrength is never read). *)
Record ACfg := mkACfg {
  ac_dm : string; ac_gm : string; ac_rm : string; ac_st : string;
  ac_tokens : T; ac_rate : T;
  ac_phase : T; ac_goal : T; ac_freq : Z; ac_energy : T; ac_infl : T; ac_stub : T;
  ac_swarm : Z; ac_maxn : Z; ac_rphase : bool; ac_rgoal : bool; ac_rfreq : bool }.

(** internal/config/agent.go:45-66 DefaultAgent. *)
Definition DefaultAgent : ACfg :=
  mkACfg "simple" "weighted" "token" "phase_nudge" (nofZ 100) (nlit 3 10)
    n0 npi (100 * 1000000)%Z (nofZ 100) (nlit 5 10) (nlit 2 10) 0 0 false false false.
(** internal/config/agent.go:70-76 RandomizedAgent. *)
Definition RandomizedAgent : ACfg :=
  let c := DefaultAgent in
  mkACfg (ac_dm c) (ac_gm c) (ac_rm c) (ac_st c) (ac_tokens c) (ac_rate c) (ac_phase c) (ac_goal c)
    (ac_freq c) (ac_energy c) (ac_infl c) (ac_stub c) (ac_swarm c) (ac_maxn c) true true true.
(** internal/config/agent.go:80-101 TestAgent. *)
Definition TestAgent : ACfg :=
  mkACfg "simple" "weighted" "token" "phase_nudge" (nofZ 100) (nlit 5 10)
    n0 n0 (50 * 1000000)%Z (nofZ 100) (nlit 8 10) (nlit 1 100) 0 0 false false false.

(** emerge/agent/builder.go:58-68 createDecisionMaker and 71-78 createGoalManager (true = a
    component, false = error; each has one implementation). *)
Definition createDecisionMaker (c : ACfg) : bool :=
  (String.eqb (ac_dm c) "" || String.eqb (ac_dm c) "simple" || String.eqb (ac_dm c) "adaptive")%bool.
Definition createGoalManager (c : ACfg) : bool :=
  (String.eqb (ac_gm c) "" || String.eqb (ac_gm c) "weighted")%bool.
(** emerge/agent/builder.go:81-95 createResourceManager. *)
Definition createResourceManager (c : ACfg) : option (TokenManager T) :=
  if (String.eqb (ac_rm c) "" || String.eqb (ac_rm c) "token")%bool then
    Some (NewTokenManager
      (if ac_tokens c =? n0 then (if ac_energy c =? n0 then nofZ 100 else ac_energy c) else ac_tokens c))
  else None.
(** emerge/agent/builder.go:98-129 createStrategy (NewPulse clamps the amplitude). *)
Definition createStrategy (c : ACfg) : option (StratKind T) :=
  if (String.eqb (ac_st c) "" || String.eqb (ac_st c) "phase_nudge")%bool then
    Some (SKNudge (if ac_rate c =? n0 then nlit 7 10 else ac_rate c))
  else if String.eqb (ac_st c) "frequency_lock" then
    Some (SKLock (if ac_rate c =? n0 then nlit 5 10 else ac_rate c))
  else if String.eqb (ac_st c) "energy_aware" then
    Some (SKEnergy (if ac_rate c =? n0 then nofZ 20 else ac_rate c))
  else if String.eqb (ac_st c) "adaptive" then Some (SKAdaptive [SKNudge (nlit 3 10); SKLock (nlit 5 10)])
  else if String.eqb (ac_st c) "pulse" then Some (SKPulse (100 * 1000000)%Z (clampRate (nlit 8 10)))
  else None.

(** Random draws: New's own three, then one per randomised attribute. *)
Record Draws := mkDraws { dr1 : Z; dr2 : Z; dr3 : Z; dr_phase : Z; dr_goal : Z; dr_freq : Z }.

(** emerge/agent/builder.go:132-141 createPhaseOptions. *)
Definition createPhaseOptions (d : Draws) (c : ACfg) : list (Agent T -> Agent T) :=
  if ac_rphase c then [upd_sd (fRandPhase (dr_phase d))]
  else if negb (ac_phase c =? n0) then [upd_sd (fPhase (ac_phase c))]
  else [upd_sd (fPhase n0)].
(** emerge/agent/builder.go:144-153 createGoalOptions (the default wraps a random phase). *)
Definition createGoalOptions (d : Draws) (c : ACfg) : list (Agent T -> Agent T) :=
  if ac_rgoal c then [upd_sd (fRandGoal (dr_goal d))]
  else if negb (ac_goal c =? n0) then [upd_sd (fGoal (ac_goal c))]
  else [upd_sd (fGoal (RandPhase (dr_goal d)))].
(** emerge/agent/builder.go:156-165 createFrequencyOptions; agent.go:535-543 WithRandomFrequency. *)
Definition createFrequencyOptions (d : Draws) (c : ACfg) : list (Agent T -> Agent T) :=
  if ac_rfreq c then [upd_sd (fFreq (randFreq (dr_freq d)))]
  else if negb (ac_freq c =? 0)%Z then [upd_sd (fFreq (ac_freq c))]
  else [upd_sd (fFreq (100 * 1000000)%Z)].
(** emerge/agent/builder.go:168-198 createParameterOptions. *)
Definition createParameterOptions (c : ACfg) : list (Agent T -> Agent T) :=
  [SetEnergy (if ac_energy c =? n0 then nofZ 100 else ac_energy c);
   SetInfluence (if ac_infl c =? n0 then nlit 5 10 else ac_infl c);
   SetStubbornness (if ac_stub c =? n0 then nlit 2 10 else ac_stub c)]
  ++ (if (0 <? ac_swarm c)%Z then [WithSwarmInfo (ac_swarm c) (ac_maxn c)] else []).

(** emerge/agent/builder.go:18-55 NewFromConfig (None = error). *)
Definition NewFromConfig (id : string) (d : Draws) (c : ACfg) : option (Agent T) :=
  if negb (createDecisionMaker c) then None
  else if negb (createGoalManager c) then None
  else match createResourceManager c with
  | None => None
  | Some rm =>
    match createStrategy c with
    | None => None
    | Some st =>
      Some (NewAgent id (dr1 d) (dr2 d) (dr3 d)
        ([WithDecisionMaker; WithGoalManager; WithResourceManager rm; WithStrategy st]
         ++ createPhaseOptions d c ++ createGoalOptions d c ++ createFrequencyOptions d c
         ++ createParameterOptions c))
    end
  end.

(** emerge/agent/agent.go:99-160 NewOptimizedFromConfig (its error is always nil). *)
Definition NewOptimizedFromConfig (id : string) (d : Draws) (c : ACfg) : Agent T :=
  let mx := if (ac_maxn c =? 0)%Z then (if (100 <? ac_swarm c)%Z then 20 else ac_swarm c - 1)%Z
            else ac_maxn c in
  NewAgent id (dr1 d) (dr2 d) (dr3 d)
    ([SetPhase (ac_phase c); SetFrequency (ac_freq c); SetEnergy (ac_energy c);
      SetInfluence (ac_infl c); SetStubbornness (ac_stub c); WithSwarmInfo (ac_swarm c) mx;
      SetLocalGoal (ac_goal c)]
     ++ (if ac_rphase c then [upd_sd (fRandPhase (dr_phase d))] else [])
     ++ (if ac_rgoal c then [upd_sd (fRandGoal (dr_goal d))] else [])
     ++ (if ac_rfreq c then [upd_sd (fFreq (randFreq (dr_freq d)))] else [])
     ++ (if String.eqb (ac_dm c) "simple" then [WithDecisionMaker] else [])
     ++ (if String.eqb (ac_gm c) "weighted" then [WithGoalManager] else [])
     ++ (if (String.eqb (ac_rm c) "token" && (ac_tokens c >? n0))%bool
         then [WithResourceManager (NewTokenManager (ac_tokens c))] else [])
     ++ [WithStrategy (if String.eqb (ac_st c) "phase_nudge" then SKNudge (ac_rate c)
                       else if String.eqb (ac_st c) "frequency_lock" then SKLock (nlit 5 10)
                       else if String.eqb (ac_st c) "energy_aware" then SKEnergy (nofZ 10)
                       else SKNudge (ac_rate c))]).
End Config.
Arguments ACfg : clear implicits.
