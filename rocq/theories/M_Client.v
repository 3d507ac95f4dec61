(** Model of the client builder (client/emerge/custom.go, builder.go, emerge.go) and of the construction
    of a simulation (simulations/emerge/simulation/builder.go, simulations/emerge/main.go).  Error texts are left out. *)
From Coq Require Import ZArith List Bool String.
From Verif Require Import Num M_Core M_Agent M_AgentConfig M_GoalConfig M_Swarm M_Scale.
Import ListNotations.
Open Scope Z_scope.

Section Client.
Context {T : Type} {N : Num T}.

(** client/emerge/custom.go:15-20 Builder. *)
Record Builder := mkBuilder { b_goal : Goal; b_scale : Z; b_coh : T }.
(** client/emerge/custom.go:24-30 New. *)
Definition NewBuilder : Builder := mkBuilder MinimizeAPICalls Tiny n0.
(** client/emerge/custom.go:33-36 WithGoal. *)
Definition WithGoal (g : Goal) (b : Builder) : Builder := mkBuilder g (b_scale b) (b_coh b).
(** client/emerge/custom.go:39-42 WithScale. *)
Definition WithScale (s : Z) (b : Builder) : Builder := mkBuilder (b_goal b) s (b_coh b).
(** client/emerge/custom.go:46-49 WithTargetCoherence. *)
Definition WithTargetCoherence (c : T) (b : Builder) : Builder := mkBuilder (b_goal b) (b_scale b) c.

(** client/emerge/emerge.go:32-35 Client. *)
Record Client := mkClient { cl_swarm : Swarm T; cl_config : GCfg T }.
(** The possible outcomes of Build: an error, the wiring still drawing random numbers, a panic, a client. *)
Inductive BuildRes := BuildErr | BuildRunning | BuildPanic | BuildOK (c : Client).

(** client/emerge/custom.go:56-60 Build: the target coherence used. *)
Definition buildCoherence (b : Builder) : T :=
  if nle (b_coh b) n0 then DefaultTargetCoherence (b_scale b) else b_coh b.
(** client/emerge/custom.go:52-79 Build.  [cpus], [dr], [ro], [fl], [il] as for swarm.New. *)
Definition Build (b : Builder) (cpus : Z) (dr : nat -> Draws) (ro : list (Agent T) -> list (Agent T)) (fl : list T) (il : list Z) : BuildRes :=
  let agentCount := DefaultAgentCount (b_scale b) in
  let config := WithSize agentCount (For (b_goal b)) in
  let targetState := mkState n0 (1000 * 1000000) (buildCoherence b) in
  match M_Swarm.New cpus agentCount targetState [WithGoalConfig config] dr ro fl il with
  | NewErr _ => BuildErr
  | NewRunning => BuildRunning
  | NewPanic => BuildPanic
  | NewOK sw => BuildOK (mkClient sw config)
  end.
(** client/emerge/emerge.go:76-78 Size. *)
Definition ClientSize (c : Client) : Z := Size (cl_swarm c).

(** client/emerge/custom.go:91 Option (None = error). *)
Definition ClientOption := Builder -> option Builder.
(** client/emerge/custom.go:94-99 WithGoalOption. *)
Definition WithGoalOption (g : Goal) : ClientOption := fun b => Some (WithGoal g b).
(** client/emerge/custom.go:102-107 WithScaleOption. *)
Definition WithScaleOption (s : Z) : ClientOption := fun b => Some (WithScale s b).
(** client/emerge/custom.go:110-118 WithCoherenceOption. *)
Definition WithCoherenceOption (c : T) : ClientOption := fun b =>
  if nle c n0 || nlt n1 c then None else Some (WithTargetCoherence c b).
(** client/emerge/custom.go:125-129 NewWithOptions: the loop over the options. *)
Fixpoint applyClientOpts (opts : list ClientOption) (b : Builder) : option Builder :=
  match opts with [] => Some b | o :: r => match o b with None => None | Some b' => applyClientOpts r b' end end.
(** client/emerge/custom.go:122-132 NewWithOptions. *)
Definition NewWithOptions (opts : list ClientOption) (cpus : Z) (dr : nat -> Draws) (ro : list (Agent T) -> list (Agent T)) (fl : list T) (il : list Z) : BuildRes :=
  match applyClientOpts opts NewBuilder with None => BuildErr | Some b => Build b cpus dr ro fl il end.
(** client/emerge/builder.go:25-30 MinimizeAPICalls. *)
Definition ClientMinimizeAPICalls (s : Z) : Builder := WithScale s (WithGoal MinimizeAPICalls NewBuilder).
(** client/emerge/builder.go:35-40 DistributeLoad. *)
Definition ClientDistributeLoad (s : Z) : Builder := WithScale s (WithGoal DistributeLoad NewBuilder).

(** simulations/emerge/simulation/builder.go:47-60 createEmergeClient: the builder used. *)
Definition simBuilder (g : Goal) (s : Z) (target : T) : Builder :=
  if (match g with MinimizeAPICalls => true | _ => false end) && neqb target (DefaultTargetCoherence s)
  then ClientMinimizeAPICalls s
  else WithTargetCoherence target (WithScale s (WithGoal g NewBuilder)).
(** simulations/emerge/main.go:178-196 runSimulation: the target coherence of a goal at a scale. *)
Definition simTarget (g : Goal) (s : Z) : T :=
  match g with
  | DistributeLoad | RecoverFromFailure => nlit 2 10
  | ReachConsensus => nlit 6 10
  | SaveEnergy => nlit 4 10
  | _ => DefaultTargetCoherence s
  end.
(** simulations/emerge/simulation/builder.go:77-89 initialize: the agents wrapped by workloads, with their
    index; [mo] is the order in which the map of agents is ranged over. *)
Definition initWorkloads (mo : list (string * Agent T) -> list (string * Agent T)) (s : Z) (c : Client) : option (list (string * nat)) :=
  match Agents (cl_swarm c) with
  | None => None
  | Some m => let l := firstn (Z.to_nat (DefaultAgentCount s)) (mo m) in
              Some (combine (map fst l) (seq 0 (List.length l)))
  end.
End Client.
Arguments Builder : clear implicits.
Arguments Client : clear implicits.
Arguments BuildRes : clear implicits.
