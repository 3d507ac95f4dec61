(** Memory accesses and lock operations of the methods of an agent (emerge/agent), in the terms of M_Race.v.  The values behind
    AtomicState, AtomicBehavior and the context are reached through atomic.Value and copied ([At]; M_Atomic.v). *)
From Coq Require Import List.
From Verif Require Import M_Race.
Import ListNotations.

Section Agents.
(** [opt x]: agent [x] uses the slices (agent.go:45 useOptimizedNeighbors) rather than the sync.Map; [strat x]: which strategy
    object it uses, possibly the same as others; [pulse k]: strategy [k] is a Pulse (or an AdaptiveStrategy that uses one). *)
Variable opt : nat -> bool.
Variable strat : nat -> nat.
Variable pulse : nat -> bool.

(** emerge/agent/agent.go:164-243: Phase, Frequency, Energy, LocalGoal, Influence, Stubbornness and their setters. *)
Definition getOps (x : nat) : list Op := [Rd (LAgent x); At].
Definition setOps (x : nat) : list Op := [Rd (LAgent x); At; At].
(** agent.go:246-248 SetDecisionMaker. *)
Definition setDeciderOps (x : nat) : list Op := [Wr (LDecider x)].
(** agent.go:251-269 NeighborCount; neighbor_storage.go:108-110 Count takes no lock. *)
Definition countOps (x : nat) : list Op := [Rd (LAgent x); At; At].
(** agent.go:279-289 ConnectTo; neighbor_storage.go:32-55 Store, [k] names compared, [full] when nothing is stored. *)
Definition connectOps (x k : nat) (full : bool) : list Op :=
  [Rd (LId x); Rd (LAgent x)]
  ++ if opt x then [Lk (MNeigh x); At] ++ repeat (Rd (LNeigh x)) k ++ (if full then [] else [Wr (LNeigh x); At]) ++ [Ul (MNeigh x)] else [At].
(** agent.go:292-298 DisconnectFrom; neighbor_storage.go:72-92 Delete. *)
Definition disconnectOps (x k : nat) (found : bool) : list Op :=
  Rd (LAgent x)
  :: if opt x then [Lk (MNeigh x); At] ++ repeat (Rd (LNeigh x)) k ++ (if found then [Wr (LNeigh x); At] else []) ++ [Ul (MNeigh x)] else [At].
(** agent.go:301-308 IsConnectedTo; neighbor_storage.go:58-69 Load. *)
Definition connectedOps (x k : nat) : list Op :=
  Rd (LAgent x) :: if opt x then [RLk (MNeigh x); At] ++ repeat (Rd (LNeigh x)) k ++ [RUl (MNeigh x)] else [At].
(** neighbor_storage.go:113-125 All, or the range over the sync.Map; then the phase of every neighbour (agent.go:313-346, 476-503). *)
Definition neighborsOps (x : nat) (ys : list nat) : list Op :=
  Rd (LAgent x) :: (if opt x then [RLk (MNeigh x); At] ++ repeat (Rd (LNeigh x)) (List.length ys) ++ [RUl (MNeigh x)] else [At])
  ++ flat_map getOps ys.
(** agent.go:311-381 UpdateContext. *)
Definition contextOps (x : nat) (ys : list nat) : list Op := neighborsOps x ys ++ [At; At; Rd (LAgent x); At].
(** agent.go:384-437 ProposeAdjustment; [stubborn]: it ends at 388-390; [turn]: the pulse is due (pulse.go:27-57). *)
Definition proposeOps (x : nat) (ys : list nat) (stubborn turn : bool) : list Op :=
  [Rd (LAgent x); At; At]
  ++ if stubborn then []
     else [At] ++ neighborsOps x ys ++ [At; Rd (LAgent x)]
          ++ (if pulse (strat x) then Rd (LPulse (strat x)) :: (if turn then [Wr (LPulse (strat x))] else []) else [])
          ++ [Rd (LDecider x); At].
(** agent.go:440-472 ApplyAction with internal/resource/token.go:32-51 Request. *)
Definition applyActionOps (x : nat) : list Op := [Rd (LAgent x); At; At; Rd (LAgent x); Lk (MToken x); At; At; Ul (MToken x)].
(** emerge/agent/pool.go:84-112 Reset ([nodec]: no decision maker was set) and 115-126 Clear. *)
Definition resetAgentOps (x : nat) (nodec : bool) : list Op :=
  [Wr (LId x); Rd (LAgent x); At; At; At; At; Rd (LDecider x)] ++ if nodec then [Wr (LDecider x)] else [].
Definition clearAgentOps (x : nat) : list Op := [Wr (LId x); At; At].

Inductive AgentCall :=
| XGet (x : nat) | XSet (x : nat) | XSetDecider (x : nat) | XCount (x : nat) | XConnect (x k : nat) (full : bool)
| XDisconnect (x k : nat) (found : bool) | XConnected (x k : nat) | XContext (x : nat) (ys : list nat)
| XPropose (x : nat) (ys : list nat) (stubborn turn : bool) | XApply (x : nat) | XReset (x : nat) (nodec : bool) | XClear (x : nat).
Definition agentOps (c : AgentCall) : list Op :=
  match c with
  | XGet x => getOps x
  | XSet x => setOps x
  | XSetDecider x => setDeciderOps x
  | XCount x => countOps x
  | XConnect x k f => connectOps x k f
  | XDisconnect x k f => disconnectOps x k f
  | XConnected x k => connectedOps x k
  | XContext x ys => contextOps x ys
  | XPropose x ys s t => proposeOps x ys s t
  | XApply x => applyActionOps x
  | XReset x b => resetAgentOps x b
  | XClear x => clearAgentOps x
  end.
End Agents.
