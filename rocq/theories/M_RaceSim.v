(** Memory accesses and lock operations of the simulation (simulations/emerge/simulation), in the terms of M_Race.v.
    Fields set before the goroutines that use them are started (config, workloads, batch, metrics, batchManager of a
    workload) are constants here. *)
From Coq Require Import List.
From Verif Require Import M_Race.
Import ListNotations.

(** simulations/emerge/simulation/metrics.go:55-72 RecordBatch and 75-87 UpdateCoherence; 90-122 Current; 130-144 Reset. *)
Definition metricsWriteOps : list Op := [Lk MMetrics; Rd LMetrics; Wr LMetrics; Ul MMetrics].
Definition metricsReadOps : list Op := [RLk MMetrics; Rd LMetrics; RUl MMetrics].
Definition metricsResetOps : list Op := [Lk MMetrics; Wr LMetrics; Ul MMetrics].
(** batch_manager.go:115-145 processCollectedBatch for [k] API batches, after taking from the queue (74-112). *)
Definition processOps (k : nat) : list Op :=
  At :: flat_map (fun _ => metricsWriteOps ++ [Lk MBatch; Rd LBatchStats; Wr LBatchStats; Ul MBatch]) (seq 0 k).
(** batch_manager.go:162-166 PendingCount. *)
Definition pendingCountOps : list Op := [Lk MCurrent; Rd LCurrent; Ul MCurrent].
(** batch_manager.go:175-191 Reset, [k] batches thrown away. *)
Definition batchResetOps (k : nat) : list Op :=
  [Lk MBatch; Wr LBatchStats] ++ repeat At k ++ [Lk MCurrent; Rd LCurrent; Wr LCurrent; Ul MCurrent; Ul MBatch].
(** batch_manager.go:194-198 LastBatchInfo. *)
Definition lastBatchOps : list Op := [RLk MBatch; Rd LBatchStats; RUl MBatch].

(** agent.go:300-308 and 527-535: a workload looks whether the simulation is paused. *)
Definition pausedOps : list Op := [RLk MSim; Rd LSim; RUl MSim].
(** agent.go:417-418 createTask counts without a lock; 321-324 the task is stored under the lock. *)
Definition taskOps (i : nat) : list Op := [Rd (LCounter i); Wr (LCounter i); Lk (MWork i); Rd (LPending i); Wr (LPending i); Ul (MWork i)].
(** agent.go:337-384 shouldGenerateTask and 386-415 getTaskBatchSize: with the Burst pattern ([burst]) the state of the
    burst is read, and written when it begins or ends ([turn]), without a lock. *)
Definition burstOps (i : nat) (burst turn : bool) : list Op :=
  if burst then [At; Rd (LBurst i)] ++ (if turn then [Wr (LBurst i)] else []) ++ [Rd (LBurst i)] else [At].
(** agent.go:294-333 one tick of generateTasks that makes [k] tasks. *)
Definition generateOps (i : nat) (burst turn : bool) (k : nat) : list Op :=
  At :: pausedOps ++ burstOps i burst turn ++ flat_map (fun _ => taskOps i) (seq 0 k).
(** agent.go:519-543 one tick of monitorBatching; 546-558 shouldBatch, 561-583 sendBatch ([send]). *)
Definition monitorOps (i : nat) (send : bool) : list Op :=
  At :: pausedOps ++ [Lk (MWork i); Rd (LPending i); At; Ul (MWork i)]
  ++ if send then [Lk (MWork i); Rd (LPending i); Wr (LPending i); At; Ul (MWork i)] else [].
(** agent.go:586-600 Reset; 603-654 Snapshot. *)
Definition workResetOps (i : nat) : list Op := [Lk (MWork i); Wr (LPending i); Wr (LCounter i); Wr (LPending i); Wr (LBurst i); Ul (MWork i)].
Definition workSnapshotOps (i : nat) : list Op := [Lk (MWork i); Rd (LBurst i); At; Rd (LPending i); Ul (MWork i)].

Section Sim.
(** Storage and size of the swarm, number of workloads. *)
Variable opt : bool.
Variables n w : nat.

(** What a goroutine of the program does with the simulation.
    [AStart g]: simulation.go:58-91 Start, whose swarm goroutine is [g]; [AReset k]: 94-210; [AClear]: 204-209, the
    goroutine Reset starts; [ADisrupt k]: 214-232; [AWatch b]: one tick of 235-271; [APause]: 275-289; [AResume g]: 292-306,
    whose swarm goroutine is [g]; [ASnapshot]: 309-366; [AStatistics]: 369-386; [AGenerate], [AMonitor]: the two goroutines
    of a workload; [AProcess]: the goroutine of the batch manager. *)
Inductive Act := AStart (g : nat) | AReset (k : nat) | AClear | ADisrupt (k : nat) | AWatch (b : bool) | APause | AResume (g : nat)
               | ASnapshot | AStatistics | AGenerate (i : nat) (burst turn : bool) (k : nat) | AMonitor (i : nat) (send : bool)
               | AProcess (k : nat) | APendingCount.
Definition actOps (a : Act) : list Op :=
  match a with
  | AStart g => [Lk MSim; Wr LSim; Wr LSwarmCtx; Wr LSim; Ul MSim; Go g; At; Lk MSim; Wr LSim; Ul MSim]
  | AReset k => [Lk MSim] ++ metricsResetOps ++ batchResetOps k ++ flat_map workResetOps (seq 0 w) ++ agentsOps opt n
                ++ repeat At n ++ [Wr LSim; Ul MSim]
  | AClear => [At; Lk MSim; Wr LSim; Ul MSim]
  | ADisrupt k => [Lk MSim; Wr LSim; Ul MSim] ++ agentsOps opt n ++ repeat At k
  | AWatch b => [At; RLk MSim; Rd LSim; RUl MSim] ++ coherenceOps opt n ++ if b then [Lk MSim; Wr LSim; Ul MSim] else []
  | APause => [Lk MSim; Wr LSim] ++ coherenceOps opt n ++ agentsOps opt n ++ repeat At n ++ [Wr LSim; Rd LSim; At; Ul MSim]
  | AResume g => [Lk MSim; Wr LSim; Rd LSim; Wr LSwarmCtx; Wr LSim; Go g; Ul MSim]
  | ASnapshot => [RLk MSim] ++ flat_map workSnapshotOps (seq 0 w) ++ [Rd LSim] ++ metricsReadOps ++ coherenceOps opt n
                 ++ [At] ++ lastBatchOps ++ [Rd LSim; RUl MSim]
  | AStatistics => metricsReadOps ++ coherenceOps opt n
  | AGenerate i burst turn k => generateOps i burst turn k
  | AMonitor i send => monitorOps i send
  | AProcess k => processOps k
  | APendingCount => pendingCountOps
  end.
Definition actsOps (l : list Act) : list Op := flat_map actOps l.
(** simulation.go:68-73 and 299-304: the swarm goroutine reads s.swarmCtx when it runs, not when it is made, and calls
    Start of the client. *)
Definition swarmOps (clamp : bool) (is : list Iter) : list Op := Rd LSwarmCtx :: callOps opt n (CStart clamp is).
(** Goroutine [i] of the program performs [acts i]; swarm goroutine [g] runs as [sy g] says. *)
End Sim.
