(** Memory accesses and lock operations of the client's methods: each method as the sequence of accesses it makes to
    memory that goroutines share.  What is computed plays no part here; where a branch or a loop count depends on data
    it is a parameter, so a statement for all parameters covers every path. *)
From Coq Require Import List Bool Arith.
Import ListNotations.

(** Shared memory. *)
Inductive Loc :=
| LClient     (* client/emerge/emerge.go:32-35: c.swarm, c.config *)
| LSwarm      (* emerge/swarm/swarm.go:29-58: size, optimized, goalState, config and the pointers of a swarm *)
| LSlice      (* swarm.go:32: agentSlice and its elements *)
| LRecovery   (* swarm.go:57: recoveryConfig *)
| LGds        (* emerge/swarm/goal_directed.go:19-29: config, strategies, completionEngine, convergenceMonitor, swarm *)
| LTarget     (* goal_directed.go:21: targetPattern, the pointer *)
| LPattern    (* goal_directed.go:80: the fields of the pattern it points to *)
| LStrategy   (* goal_directed.go:25: currentStrategy *)
| LPerf       (* goal_directed.go:26, 32-39: strategyPerf and its entries *)
| LMonTarget  (* emerge/convergence/monitor.go:18: target *)
| LMonHistory (* monitor.go:15: history *)
| LMonWindow  (* monitor.go:17: windowSize *)
| LTemplates  (* emerge/completion/engine.go:14: templates *)
| LThreshold  (* engine.go:16: matchThreshold *)
| LConv       (* emerge/monitoring/convergence.go: the fields below mu *)
| LSim        (* simulations/emerge/simulation/simulation.go:43-54: running, paused, disrupted, reset, their times, the
                 cached values, parentCtx, swarmCancel *)
| LSwarmCtx   (* simulation.go:53: swarmCtx *)
| LMetrics    (* simulations/emerge/simulation/metrics.go:13-33: the fields below mu *)
| LBatchStats (* simulations/emerge/simulation/batch_manager.go:34-39: totalBatches, lastBatchTime, lastBatchSize *)
| LCurrent    (* batch_manager.go:30: current *)
| LPending (i : nat) (* simulations/emerge/simulation/agent.go:85, 95-96: pendingTasks, tasksGenerated, batchesSent of workload i *)
| LCounter (i : nat) (* agent.go:86: taskCounter *)
| LBurst (i : nat)   (* agent.go:90-92: lastRequestTime, burstActive, burstEndTime *)
| LAgent (x : nat)   (* emerge/agent/agent.go:36-37, 43-49, 53-55: what New sets for good in agent x *)
| LId (x : nat)      (* agent.go:33: ID *)
| LDecider (x : nat) (* agent.go:52: decider *)
| LNeigh (x : nat)   (* emerge/agent/neighbor_storage.go:12-13: the slices of agent x *)
| LPulse (k : nat)   (* emerge/strategy/pulse.go:15: lastPulse of strategy k *).
(** Locks: swarm.go:34 agentsMutex, monitor.go:16 historyMu, goal_directed.go:28 mu, engine.go:15 templatesMu,
    emerge/monitoring/convergence.go mu; of the simulation: simulation.go:42 mu, metrics.go:13 mu,
    batch_manager.go:35 mu and 31 currentMu, agent.go:87 mu of workload i; of agent x:
    neighbor_storage.go:16 mu, internal/resource/token.go:15 mu. *)
Inductive Mut := MAgents | MHistory | MGds | MTemplates | MConv | MSim | MMetrics | MBatch | MCurrent | MWork (i : nat)
               | MNeigh (x : nat) | MToken (x : nat).
(** One step of a goroutine.  [At]: an access of an atomic.Value, atomic.Bool, atomic.Int32, sync.Map, a context or a
    ticker, none of which can take part in a data race; the order such steps impose is not used.  A random draw
    (internal/random/random.go:24-39) locks a mutex of its own around local work only and counts as [At] too.
    [Go k] starts goroutine [k], which runs a synchronisation; [Send k] and [Recv k] use the channel made for it. *)
Inductive Op := Rd (l : Loc) | Wr (l : Loc) | At | RLk (m : Mut) | RUl (m : Mut) | Lk (m : Mut) | Ul (m : Mut)
              | Go (k : nat) | Send (k : nat) | Recv (k : nat).

Section Methods.
(** Which storage the swarm uses (swarm.go: optimized) and how many agents it has. *)
Variable opt : bool.
Variable n : nat.

(** emerge/swarm/swarm.go:486-509 Agents. *)
Definition agentsOps : list Op :=
  Rd LSwarm :: if opt then [RLk MAgents] ++ repeat (Rd LSlice) (S n) ++ [RUl MAgents] else [At].
(** swarm.go:462-483 MeasureCoherence: phases are read under the lock. *)
Definition coherenceOps : list Op :=
  Rd LSwarm :: if opt then [RLk MAgents; Rd LSlice] ++ flat_map (fun _ => [Rd LSlice; At]) (seq 0 n) ++ [RUl MAgents]
               else At :: repeat At n.
(** swarm.go:331-350 collectAgents, then the phases outside the lock: emerge/swarm/phase_convergence.go:9-36, 39-77. *)
Definition phasesOps : list Op :=
  Rd LSwarm :: (if opt then [RLk MAgents] ++ repeat (Rd LSlice) (S n) ++ [RUl MAgents] else [At]) ++ repeat At n.

(** emerge/convergence/monitor.go:44-46 SetTarget takes no lock. *)
Definition setTargetOps : list Op := [Wr LMonTarget].
(** monitor.go:49-89 RecordSample with 186-218 updateConvergenceStatus: everything under historyMu; the target is read
    through m.target. *)
Definition recordOps : list Op :=
  [Lk MHistory; Rd LMonTarget; Rd LPattern; Rd LMonHistory; Wr LMonHistory; Rd LMonWindow; Wr LMonHistory; At; Ul MHistory].
(** monitor.go:128-156 GetConvergenceRate and 159-183 ShouldSwitchStrategy. *)
Definition readMonOps : list Op := [RLk MHistory; Rd LMonHistory; Rd LMonWindow; RUl MHistory].
(** monitor.go:261-267 Reset. *)
Definition resetMonOps : list Op := [Lk MHistory; Rd LMonHistory; Wr LMonHistory; At; Ul MHistory].
(** emerge/monitoring/convergence.go:263-274 Reset; 68-95 IsConverged, ConvergenceTime, CurrentCoherence. *)
Definition resetConvOps : list Op := [Lk MConv; Rd LConv; Wr LConv; Ul MConv].
Definition readConvOps : list Op := [RLk MConv; Rd LConv; RUl MConv].
(** goal_directed.go:379-419 switchStrategy, [k] strategies. *)
Definition switchOps (k : nat) : list Op :=
  [Lk MGds; Rd LStrategy; Rd LPerf; Wr LPerf] ++ flat_map (fun _ => [Rd LGds; Rd LPerf]) (seq 0 k) ++ [Wr LStrategy; Ul MGds].
(** emerge/completion/engine.go:28-67, 92-110: CompletePattern reads the templates under the read lock of
    findBestTemplate; [k] templates. *)
Definition completeOps (k : nat) : list Op := [RLk MTemplates] ++ repeat (Rd LTemplates) (S k) ++ [Rd LThreshold; RUl MTemplates].

(** goal_directed.go:148-179 measureSystemPattern. *)
Definition measureOps : list Op := Rd LGds :: agentsOps ++ repeat At n ++ coherenceOps.
(** goal_directed.go:182-215 isPatternAchieved; [high] when the phase convergence is looked at too. *)
Definition achievedOps (high : bool) : list Op :=
  [Rd LTarget; Rd LPattern] ++ agentsOps ++ [Rd LGds; Rd LTarget; Rd LPattern]
  ++ (if high then [Rd LTarget; Rd LPattern] ++ phasesOps else []).
(** goal_directed.go:222-375 applyPatternCompletion; [moves]: for each agent how many atomic accesses and draws it takes. *)
Definition applyOps (moves : list nat) : list Op :=
  agentsOps ++ [Rd LGds] ++ readMonOps ++ coherenceOps ++ phasesOps ++ [Rd LTarget; Rd LPattern]
  ++ flat_map (fun k => Rd LTarget :: Rd LPattern :: Rd LGds :: repeat At k) moves.
(** goal_directed.go:422-449 addStochasticResonance; [k] atomic accesses and draws. *)
Definition noiseOps (k : nat) : list Op := agentsOps ++ [Rd LGds] ++ repeat At k.

(** One pass of the loop, goal_directed.go:104-142.  [it_won]: it ends the run. *)
Record Iter := mkIter { it_high : bool; it_won : bool; it_switch : option nat; it_templates : nat; it_moves : list nat; it_noise : option nat }.
Definition iterOps (i : Iter) : list Op :=
  At :: measureOps ++ coherenceOps ++ [Rd LGds] ++ recordOps ++ achievedOps (it_high i)
  ++ if it_won i then []
     else readMonOps ++ (match it_switch i with Some k => switchOps k | None => [] end) ++ [Rd LPattern]
          ++ completeOps (it_templates i) ++ applyOps (it_moves i)
          ++ At :: (match it_noise i with Some k => noiseOps k | None => [] end).
(** goal_directed.go:80-146 AchieveSynchronization; [clamp] when the target is above the limit of the size. *)
Definition achieveOps (clamp : bool) (is : list Iter) : list Op :=
  [Wr LTarget; Rd LGds] ++ setTargetOps ++ agentsOps ++ [Rd LPattern] ++ (if clamp then [Wr LPattern; Wr LTarget] else [])
  ++ [Rd LPattern; Rd LGds; At] ++ flat_map iterOps is ++ [At].

(** The methods of the client (client/emerge/emerge.go:40-84) and of the swarm behind it.
    [CDisrupt k]: swarm.go:560-609 with [k] atomic accesses; [CAgentOp k]: getters and setters of agents and
    swarm.go:612-619 ForEachAgent, [k] atomic accesses; [CMeasure]: swarm.go:462-483; [CFind]: 512-532. *)
Inductive Call := CStart (clamp : bool) (is : list Iter) | CCoherence | CIsConverged | CAgents | CSize | CConfig | CStop
                | CMeasure | CFind | CDisrupt (k : nat) | CAgentOp (k : nat).
Definition callOps (c : Call) : list Op :=
  match c with
  | CStart clamp is => [Rd LClient; Rd LSwarm; Wr LPattern; Rd LSwarm] ++ achieveOps clamp is
  | CCoherence | CIsConverged => [Rd LClient; Rd LSwarm] ++ readConvOps
  | CAgents => Rd LClient :: agentsOps
  | CSize => [Rd LClient; Rd LSwarm]
  | CConfig => [Rd LClient]
  | CStop => []
  | CMeasure => Rd LClient :: coherenceOps
  | CFind => [Rd LClient; Rd LSwarm] ++ if opt then [RLk MAgents; Rd LSlice; RUl MAgents] else [At]
  | CDisrupt k => [Rd LClient; Rd LSwarm] ++ repeat At k ++ [Rd LSwarm] ++ resetConvOps ++ [Rd LSwarm; Rd LGds] ++ resetMonOps
  | CAgentOp k => Rd LSwarm :: repeat At k
  end.
Definition callsOps (cs : list Call) : list Op := flat_map callOps cs.

(** emerge/swarm/swarm_continuous_run.go:178-195 startSync number [k]. *)
Definition startSyncOps (k : nat) : list Op := Rd LSwarm :: resetConvOps ++ [Rd LGds] ++ resetMonOps ++ [Go k].
(** swarm_continuous_run.go:226-256 one tick without a restart; 92-135 needsResync reads recoveryConfig and goalState. *)
Definition tickOps : list Op := At :: coherenceOps ++ [Rd LRecovery; Rd LSwarm].
Definition ticksOps (j : nat) : list Op := flat_map (fun _ => tickOps) (seq 0 j).
(** swarm_continuous_run.go:212-258: for each restart, [fst] ticks before the running synchronisation reports (217) and
    [snd] ticks until the next one is started (241-249: only when none is active); at the end [last] ticks and, with
    [heard = Some j], the report of the running synchronisation and [j] more ticks. *)
Fixpoint roundsOps (k : nat) (rounds : list (nat * nat)) (last : nat) (heard : option nat) : list Op :=
  match rounds with
  | [] => ticksOps last ++ match heard with Some j => Recv k :: ticksOps j | None => [] end
  | (a, b) :: r => ticksOps a ++ [Recv k] ++ ticksOps b ++ tickOps ++ startSyncOps (S k) ++ roundsOps (S k) r last heard
  end.
(** swarm_continuous_run.go:162-259 RunContinuous; [fresh]: the recovery configuration was not set. *)
Definition continuousOps (fresh : bool) (rounds : list (nat * nat)) (last : nat) (heard : option nat) : list Op :=
  [Rd LRecovery] ++ (if fresh then [Rd LSwarm; Wr LRecovery] else []) ++ [Rd LSwarm; Wr LPattern]
  ++ startSyncOps 0 ++ [Rd LRecovery] ++ coherenceOps ++ roundsOps 0 rounds last heard.
(** swarm_continuous_run.go:190-192: the goroutine it starts. *)
Definition syncOps (k : nat) (clamp : bool) (is : list Iter) : list Op := [Rd LSwarm] ++ achieveOps clamp is ++ [Send k].
End Methods.
