(** Model of emerge/agent/agent.go (single-threaded meaning of each method; the
    interleaving of Load/Store is modelled in M_Atomic.v, the neighbor storage in
    M_Neighbors.v). *)
From Coq Require Import ZArith List Bool String.
From Verif Require Import Num M_Core M_Random M_Resource M_Strategy.
Import ListNotations.
Open Scope num_scope.

Section Agent.
Context {T : Type} {N : Num T}.

(** emerge/agent/atomic_state.go:14-19 StateData. *)
Record StateData := mkSD { sd_phase : T; sd_energy : T; sd_goal : T; sd_freq : Z }.
(** emerge/agent/atomic_state.go:22-25 BehaviorData. *)
Record BehaviorData := mkBD { bd_infl : T; bd_stub : T }.

(** The components of agent.go:52-55, by kind (emerge/strategy/*.go). *)
Inductive StratKind :=
| SKNudge (rate : T) | SKLock (rate : T) | SKEnergy (thr : T)
| SKAdaptive (subs : list StratKind) | SKPulse (period : Z) (amp : T).

(** emerge/agent/agent.go:31-56 Agent.  The decision maker and the goal manager have a single
    implementation in /repo, so only "set" (true) / "nil" (false) is kept; resources is nil or
    a token manager; the neighbor stores are in M_Neighbors.v. *)
Record Agent := mkAgent {
  ag_id : string; ag_sd : StateData; ag_bd : BehaviorData; ag_ctx : Context T;
  ag_swarm : Z; ag_maxn : Z;
  ag_decider : bool; ag_goalmgr : bool; ag_res : option (TokenManager T);
  ag_strat : option StratKind }.

Definition upd_sd (f : StateData -> StateData) (a : Agent) : Agent :=
  mkAgent (ag_id a) (f (ag_sd a)) (ag_bd a) (ag_ctx a) (ag_swarm a) (ag_maxn a)
          (ag_decider a) (ag_goalmgr a) (ag_res a) (ag_strat a).
Definition upd_bd (f : BehaviorData -> BehaviorData) (a : Agent) : Agent :=
  mkAgent (ag_id a) (ag_sd a) (f (ag_bd a)) (ag_ctx a) (ag_swarm a) (ag_maxn a)
          (ag_decider a) (ag_goalmgr a) (ag_res a) (ag_strat a).
Definition set_res (r : option (TokenManager T)) (a : Agent) : Agent :=
  mkAgent (ag_id a) (ag_sd a) (ag_bd a) (ag_ctx a) (ag_swarm a) (ag_maxn a)
          (ag_decider a) (ag_goalmgr a) r (ag_strat a).
Definition set_ctx (c : Context T) (a : Agent) : Agent :=
  mkAgent (ag_id a) (ag_sd a) (ag_bd a) c (ag_swarm a) (ag_maxn a)
          (ag_decider a) (ag_goalmgr a) (ag_res a) (ag_strat a).

(** The update functions passed to AtomicState.Update / AtomicBehavior.Update. *)
(** emerge/agent/agent.go:169-173 SetPhase, 508-514 WithPhase. *)
Definition fPhase (p : T) (s : StateData) := mkSD (WrapPhase p) (sd_energy s) (sd_goal s) (sd_freq s).
(** emerge/agent/agent.go:517-523 WithRandomPhase. *)
Definition fRandPhase (b : Z) (s : StateData) := mkSD (RandPhase b) (sd_energy s) (sd_goal s) (sd_freq s).
(** emerge/agent/agent.go:181-185 SetFrequency, 526-532 WithFrequency. *)
Definition fFreq (f : Z) (s : StateData) := mkSD (sd_phase s) (sd_energy s) (sd_goal s) f.
(** emerge/agent/agent.go:193-197 SetEnergy, 564-570 WithEnergy. *)
Definition fEnergy (e : T) (s : StateData) := mkSD (sd_phase s) (nmax n0 e) (sd_goal s) (sd_freq s).
(** emerge/agent/agent.go:205-209 SetLocalGoal, 546-552 WithLocalGoal. *)
Definition fGoal (g : T) (s : StateData) := mkSD (sd_phase s) (sd_energy s) (WrapPhase g) (sd_freq s).
(** emerge/agent/agent.go:555-561 WithRandomLocalGoal. *)
Definition fRandGoal (b : Z) (s : StateData) := mkSD (sd_phase s) (sd_energy s) (RandPhase b) (sd_freq s).
(** emerge/agent/agent.go:535-543 WithRandomFrequency: 100ms plus a whole number (< 50) of ms. *)
Definition randFreq (b : Z) : Z :=
  (100 * 1000000 + ntrunc (Float64 b * nofZ 50)%num * 1000000)%Z.
(** emerge/agent/agent.go:217-226 SetInfluence, 234-243 SetStubbornness (clamping). *)
Definition clamp01 (x : T) : T := if x <? n0 then n0 else if x >? n1 then n1 else x.
Definition fInfl (x : T) (b : BehaviorData) := mkBD (clamp01 x) (bd_stub b).
Definition fStub (x : T) (b : BehaviorData) := mkBD (bd_infl b) (clamp01 x).

Definition SetPhase p := upd_sd (fPhase p).
Definition SetFrequency f := upd_sd (fFreq f).
Definition SetEnergy e := upd_sd (fEnergy e).
Definition SetLocalGoal g := upd_sd (fGoal g).
Definition SetInfluence x := upd_bd (fInfl x).
Definition SetStubbornness x := upd_bd (fStub x).
(** emerge/agent/agent.go:601-608 WithResourceManager for a token manager. *)
Definition WithResourceManager (rm : TokenManager T) (a : Agent) : Agent :=
  set_res (Some rm)
    (upd_sd (fun s => mkSD (sd_phase s) (Available rm) (sd_goal s) (sd_freq s)) a).
(** The same option given any other ResourceManager (an interface, emerge/core/interfaces.go);
    only the value [avail] of its Available() reaches the attributes. *)
Definition WithCustomResources (avail : T) (a : Agent) : Agent :=
  upd_sd (fun s => mkSD (sd_phase s) avail (sd_goal s) (sd_freq s)) a.
(** emerge/agent/agent.go:611-615 WithStrategy, 587-598 WithDecisionMaker / WithGoalManager,
    618-623 WithSwarmInfo. *)
Definition WithStrategy (k : StratKind) (a : Agent) : Agent :=
  mkAgent (ag_id a) (ag_sd a) (ag_bd a) (ag_ctx a) (ag_swarm a) (ag_maxn a)
          (ag_decider a) (ag_goalmgr a) (ag_res a) (Some k).
Definition WithDecisionMaker (a : Agent) : Agent :=
  mkAgent (ag_id a) (ag_sd a) (ag_bd a) (ag_ctx a) (ag_swarm a) (ag_maxn a)
          true (ag_goalmgr a) (ag_res a) (ag_strat a).
Definition WithGoalManager (a : Agent) : Agent :=
  mkAgent (ag_id a) (ag_sd a) (ag_bd a) (ag_ctx a) (ag_swarm a) (ag_maxn a)
          (ag_decider a) true (ag_res a) (ag_strat a).
Definition WithSwarmInfo (n m : Z) (a : Agent) : Agent :=
  mkAgent (ag_id a) (ag_sd a) (ag_bd a) (ag_ctx a) n m
          (ag_decider a) (ag_goalmgr a) (ag_res a) (ag_strat a).

(** emerge/agent/agent.go:59-96 New: [b1 b2 b3] are the three random draws, [opts] the option
    functions applied in order. *)
Definition NewAgent (id : string) (b1 b2 b3 : Z) (opts : list (Agent -> Agent)) : Agent :=
  let a := mkAgent id (mkSD (RandPhase b1) (nofZ 100) (RandPhase b2) (randFreq b3))
             (mkBD (nlit 1 10) (nlit 2 10)) ctx0 0 0 true true
             (Some (NewTokenManager (nofZ 100))) (Some (SKNudge (nlit 3 10))) in
  set_ctx ctx0 (fold_left (fun a f => f a) opts a).

(** emerge/agent/agent.go:440-472 ApplyAction. *)
Inductive ApplyRes := ApplyOK (cost : T) | ErrInsufficientEnergy | ErrUnknownActionType.
Definition phaseAction (ty : string) : bool :=
  (String.eqb ty "adjust_phase" || String.eqb ty "phase_nudge" || String.eqb ty "frequency_lock"
   || String.eqb ty "energy_save" || String.eqb ty "pulse")%bool.
Definition fSpend (cost : T) (s : StateData) :=
  mkSD (sd_phase s) (nmax n0 (sd_energy s - cost)) (sd_goal s) (sd_freq s).
Definition fMoveSpend (v cost : T) (s : StateData) :=
  mkSD (WrapPhase (sd_phase s + v)) (nmax n0 (sd_energy s - cost)) (sd_goal s) (sd_freq s).
Definition request_opt (r : option (TokenManager T)) (c : T) : option (TokenManager T) :=
  match r with Some t => Some (fst (Request t c)) | None => None end.
Definition ApplyAction (a : Agent) (act : Action T) : Agent * ApplyRes :=
  if ac_cost act >? sd_energy (ag_sd a) then (a, ErrInsufficientEnergy)
  else if phaseAction (ac_type act) then
    (set_res (request_opt (ag_res a) (ac_cost act))
       (upd_sd (fMoveSpend (ac_value act) (ac_cost act)) a), ApplyOK (ac_cost act))
  else if String.eqb (ac_type act) "maintain" then
    (set_res (request_opt (ag_res a) (ac_cost act))
       (upd_sd (fSpend (ac_cost act)) a), ApplyOK (ac_cost act))
  else (a, ErrUnknownActionType).

(** emerge/agent/agent.go:475-503 calculateLocalCoherence; [nb] are the neighbors' phases. *)
Definition sumCosD (my : T) (nb : list T) := fold_left (fun s p => s + ncos (p - my)) nb n0.
Definition sumSinD (my : T) (nb : list T) := fold_left (fun s p => s + nsin (p - my)) nb n0.
Definition localCoherence (my : T) (nb : list T) : T :=
  match nb with
  | [] => n0
  | _ => nsqrt (sumCosD my nb * sumCosD my nb + sumSinD my nb * sumSinD my nb)
         / nofZ (Z.of_nat (List.length nb))
  end.

(** emerge/agent/agent.go:311-381 UpdateContext; [nb] = phases of the neighbors in storage
    order, read while the agent's own phase is unchanged. *)
Definition UpdateContext (nb : list T) (a : Agent) : Agent :=
  match nb with
  | [] => set_ctx (mkCtx 0 n0 (nlit 5 10) n0 n0) a
  | _ =>
    let my := sd_phase (ag_sd a) in
    let cnt := nofZ (Z.of_nat (List.length nb)) in
    let lc := nsqrt (sumCosD my nb * sumCosD my nb + sumSinD my nb * sumSinD my nb) / cnt in
    let avgSin := sumSinD my nb / cnt in
    let avgCos := sumCosD my nb / cnt in
    let shift := natan2 avgSin avgCos in
    let coupling := nlit 5 10 + nlit 5 10 * lc in
    let a := upd_sd (fGoal (my + shift * coupling)) a in
    let mx := if (ag_maxn a =? 0)%Z then (ag_swarm a - 1)%Z else ag_maxn a in
    set_ctx (mkCtx (Z.of_nat (List.length nb)) (cnt / nofZ mx) (nlit 5 10) n0 lc) a
  end.

(** emerge/agent/agent.go:384-437 ProposeAdjustment.  [r1], [r2] are the two results of
    random.Float64; [strat] and [dec] the agent's strategy and decision maker (any
    implementation of the interfaces); [nb] the neighbors' phases. *)
Definition ProposeAdjustment (strat : State T -> State T -> Context T -> Action T * T)
  (dec : State T -> list (Action T) -> Action T * T) (r1 r2 : T) (nb : list T)
  (a : Agent) (globalGoal : State T) : Action T * bool :=
  if r1 <? bd_stub (ag_bd a) then (maintain, false)
  else
    let s := ag_sd a in
    let blended := mkState (sd_goal s) (sd_freq s) (st_coh globalGoal) in
    let current := mkState (sd_phase s) (sd_freq s) (localCoherence (sd_phase s) nb) in
    let (proposal, confidence) := strat current blended (ag_ctx a) in
    let options := [proposal; mkAction "maintain" n0 (nlit 1 10) (cx_stability (ag_ctx a))] in
    let (chosen, acceptance) := dec current options in
    if ac_cost chosen >? sd_energy s then (maintain, false)
    else if r2 <? confidence * acceptance then (chosen, true)
    else (maintain, false).

(** A call on the agent's public API that changes its attributes. *)
Inductive AgentOp :=
| OSetPhase (p : T) | ORandPhase (b : Z) | OSetFrequency (f : Z) | OSetEnergy (e : T)
| OSetLocalGoal (g : T) | ORandGoal (b : Z) | OSetInfluence (x : T) | OSetStubbornness (x : T)
| OWithTokens (rm : TokenManager T) | OApply (act : Action T).
Definition agentStep (a : Agent) (o : AgentOp) : Agent :=
  match o with
  | OSetPhase p => SetPhase p a
  | ORandPhase b => upd_sd (fRandPhase b) a
  | OSetFrequency f => SetFrequency f a
  | OSetEnergy e => SetEnergy e a
  | OSetLocalGoal g => SetLocalGoal g a
  | ORandGoal b => upd_sd (fRandGoal b) a
  | OSetInfluence x => SetInfluence x a
  | OSetStubbornness x => SetStubbornness x a
  | OWithTokens rm => WithResourceManager rm a
  | OApply act => fst (ApplyAction a act)
  end.
Definition agentRun (a : Agent) (l : list AgentOp) : Agent := fold_left agentStep l a.
End Agent.
Arguments StateData : clear implicits.
Arguments BehaviorData : clear implicits.
Arguments StratKind : clear implicits.
Arguments Agent : clear implicits.
Arguments ApplyRes : clear implicits.
Arguments AgentOp : clear implicits.
