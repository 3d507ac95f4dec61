(** Model of internal/testutil/emerge/testutil.go: the agents, swarms, topologies and doubles used by the tests. *)
From Coq Require Import ZArith List Bool String.
From Verif Require Import Num GoBase M_Core M_Strategy M_Agent M_AgentConfig M_SwarmConfig M_Neighbors M_Conn M_GoalConfig M_Swarm.
Import ListNotations.
Open Scope num_scope.

(** a.Neighbors().Store(b.ID, b): the sync.Map of a (emerge/agent/agent.go:272-276 Neighbors). *)
Definition mapStore (n : Net) (a b : string) : Net := mkNet (net_opt n) (store (net_map n) a b).
(** internal/testutil/emerge/testutil.go:85-97 FullyConnectedTopology.  [agents] is the order of the outer range over the map,
    [inner a] the order of the inner range while the outer one is at a. *)
Definition storeAll (n : Net) (a : string) (bs : list string) : Net :=
  fold_left (fun n b => if String.eqb a b then n else mapStore n a b) bs n.
Definition FullyConnectedTopology (inner : string -> list string) (agents : list string) (n : Net) : option (Net * bool) :=
  Some (fold_left (fun n a => storeAll n a (inner a)) agents n, true).
(** internal/testutil/emerge/testutil.go:101-126 RingTopology; [agents] is the slice filled in map order; None = panic,
    Some (_, false) = error. *)
Fixpoint ringTopoLoop (agents todo : list string) (i : Z) (n : Net) : option Net :=
  match todo with
  | [] => Some n
  | a :: r =>
    let len := Z.of_nat (List.length agents) in
    match nthZ agents (Z.rem (i - 1 + len) len), nthZ agents (Z.rem (i + 1) len) with
    | Some prev, Some next => ringTopoLoop agents r (i + 1) (mapStore (mapStore n a prev) a next)
    | _, _ => None
    end
  end.
Definition RingTopology (agents : list string) (n : Net) : option (Net * bool) :=
  if (Z.of_nat (List.length agents) <? 2)%Z then Some (n, false)
  else match ringTopoLoop agents agents 0 n with Some n' => Some (n', true) | None => None end.
(** internal/testutil/emerge/testutil.go:130-160 StarTopology. *)
Definition StarTopology (agents : list string) (n : Net) : option (Net * bool) :=
  if (Z.of_nat (List.length agents) <? 2)%Z then Some (n, false)
  else match agents with
       | [] => None
       | hub :: others =>
         let n1 := fold_left (fun n b => mapStore n hub b) others n in
         Some (fold_left (fun n a => mapStore n a hub) others n1, true)
       end.

Section TestUtil.
Context {T : Type} {N : Num T}.
(** emerge/swarm/swarm.go:300-308 WithTopology for a builder that reads s.Agents(): [ro] is the order in which the map is
    ranged over. *)
Definition WithTopologyMap (ro : list string -> list string) (builder : list string -> Net -> option (Net * bool)) : Swarm T -> option (Swarm T) := fun s =>
  match Agents s with
  | None => None
  | Some m => match builder (ro (map fst m)) (s_net s) with Some (n, true) => Some (set_net true n s) | _ => None end
  end.
(** internal/testutil/emerge/testutil.go:23-30 TestAgent; None = panic.  emerge/agent/builder.go:202-204 TestAgentConfig
    returns the same configuration. *)
Definition newTestAgent (id : string) (d : Draws) : option (Agent T) := NewFromConfig id d TestAgent.
(** internal/testutil/emerge/testutil.go:33-40 TestAgentWithMocks; the decision maker is not part of the agent record. *)
Definition TestAgentWithMocks (id : string) (b1 b2 b3 : Z) (rm : option (M_Resource.TokenManager T)) : Agent T :=
  NewAgent id b1 b2 b3 ([WithDecisionMaker] ++ match rm with Some r => [WithResourceManager r] | None => [] end
    ++ [WithGoalManager; WithStrategy (SKNudge (nlit 5 10))]).
(** internal/testutil/emerge/testutil.go:46-48: the configuration of TestSwarm. *)
Definition testSwarmCfg : SCfg T :=
  let c := SmallSwarmConfig in
  mkSCfg n1 (sc_maxn c) (sc_minn c) (sc_coup c) (nlit 1 100) (sc_energy c) (sc_assumed c)
    (sc_bstr c) (sc_bwid c) (sc_conf c) (sc_infl c) (sc_maxsize c) (sc_maxconc c) (sc_batch c) (sc_bsize c)
    (sc_workers c) (sc_upd c) (sc_mon c) (sc_optthr c) (sc_opt c) (sc_auto c).
(** internal/testutil/emerge/testutil.go:52-61: the agent builder; None = panic; [d] the draws of the agent. *)
Definition testBuild (d : string -> Draws) (id : string) (size : Z) : option (Agent T) :=
  let c := TestAgent in
  NewFromConfig id (d id) (mkACfg (ac_dm c) (ac_gm c) (ac_rm c) (ac_st c) (ac_tokens c) (ac_rate c) (ac_phase c) (ac_goal c)
    (ac_freq c) (ac_energy c) (ac_infl c) (ac_stub c) size (ac_maxn c) (ac_rphase c) (ac_rgoal c) (ac_rfreq c)).
(** The builder as a total function for WithAgentBuilder (internal/testutil/emerge/testutil.go:52-61); the panic branch is
    excluded by a theorem (C78_test_agent). *)
Definition testBuilder (d : string -> Draws) (id : string) (size : Z) (_ : SCfg T) : Agent T :=
  match testBuild d id size with Some a => a | None => NewAgent id 0 0 0 [] end.
(** internal/testutil/emerge/testutil.go:44-64 TestSwarm. *)
Definition TestSwarm (cpus size : Z) (g : State T) (d : string -> Draws) (ro : list string -> list string)
  (inner : string -> list string -> list string) (dr : nat -> Draws) (ro2 : list (Agent T) -> list (Agent T)) (fl : list T) (il : list Z) : NewRes T :=
  New cpus size g [WithConfig testSwarmCfg; WithAgentBuilder (testBuilder d);
    WithTopologyMap ro (fun agents => FullyConnectedTopology (fun a => inner a agents) agents)] dr ro2 fl il.
(** internal/testutil/emerge/testutil.go:68-81 BenchmarkSwarm. *)
Definition BenchmarkSwarm (cpus size : Z) (dr : nat -> Draws) (ro : list (Agent T) -> list (Agent T)) (fl : list T) (il : list Z) : NewRes T :=
  New cpus size (mkState n0 100000000 (nlit 8 10)) [WithConfig DefaultConfig; WithMonitor] dr ro fl il.

(** internal/testutil/emerge/testutil.go:198-207 MockResourceManager.Request without RequestFunc: what is left and what is granted. *)
Definition mockRequest (energy amount : T) : T * T := if amount <=? energy then (energy - amount, amount) else (energy, n0).
(** internal/testutil/emerge/testutil.go:210-216 MockResourceManager.Release without ReleaseFunc. *)
Definition mockRelease (energy amount : T) : T := energy + amount.
(** internal/testutil/emerge/testutil.go:169-179 MockDecisionMaker.Decide without DecisionFunc. *)
Definition mockDecide (options : list (Action T)) : Action T * T :=
  match options with o :: _ => (o, n1) | [] => (mkAction "maintain" n0 n0 n0, n1) end.
(** internal/testutil/emerge/testutil.go:225-236 MockSyncStrategy.Propose without ProposeFunc. *)
Definition mockPropose (current target : State T) : Action T * T :=
  (mkAction "adjust_phase" (st_phase target - st_phase current) n1 n0, nlit 9 10).
(** internal/testutil/emerge/testutil.go:249-259 MockGoalManager.Blend without BlendFunc. *)
Definition mockBlend (local global : State T) (w : T) : State T :=
  mkState (st_phase local * (n1 - w) + st_phase global * w) (st_freq local) (st_coh local * (n1 - w) + st_coh global * w).
End TestUtil.
