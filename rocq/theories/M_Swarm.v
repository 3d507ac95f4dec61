(** Model of the construction and storage part of emerge/swarm/swarm.go and of the recovery
    configuration of emerge/swarm/swarm_continuous_run.go. *)
From Coq Require Import ZArith List Bool String DecimalString.
From Verif Require Import Num GoBase M_Core M_Agent M_AgentConfig M_SwarmConfig M_Limits M_Neighbors M_Conn M_GoalConfig.
Import ListNotations.
Open Scope Z_scope.

(** fmt.Sprintf("agent-%d", i). *)
Definition agentID (i : nat) : string := ("agent-" ++ NilZero.string_of_uint (Nat.to_uint i))%string.

(** Go maps and sync.Map with string keys: a key is present at most once; the order of the list is
    not observable except through explicit range orders. *)
Section KV.
Context {A : Type}.
Fixpoint kvStore (m : list (string * A)) (k : string) (v : A) : list (string * A) :=
  match m with
  | [] => [(k, v)]
  | (k', v') :: r => if String.eqb k' k then (k, v) :: r else (k', v') :: kvStore r k v
  end.
Fixpoint kvLoad (m : list (string * A)) (k : string) : option A :=
  match m with
  | [] => None
  | (k', v') :: r => if String.eqb k' k then Some v' else kvLoad r k
  end.
End KV.

Section Swarm.
Context {T : Type} {N : Num T}.

(** emerge/swarm/swarm_continuous_run.go:15-40 RecoveryConfig. *)
Record RecoveryConfig := mkRec {
  rc_minviable : T; rc_margin : T; rc_small : T; rc_large : T; rc_stuck : Z; rc_interval : Z }.
(** The zero value of RecoveryConfig. *)
Definition zeroRecovery : RecoveryConfig := mkRec n0 n0 n0 n0 0 0.
(** emerge/swarm/swarm_continuous_run.go:44-79 DefaultRecoveryConfig; constants of
    emerge/swarm/thresholds.go:8-41. *)
Definition DefaultRecoveryConfig (target : T) : RecoveryConfig :=
  if nle (nlit 9 10) target then mkRec (nlit 5 10) (nlit 98 100) (nlit 3 100) (nlit 8 100) 30 (100 * 1000000)
  else if nle (nlit 7 10) target then mkRec (nlit 4 10) (nlit 95 100) (nlit 5 100) (nlit 12 100) 30 (100 * 1000000)
  else if nle (nlit 5 10) target then mkRec (nlit 3 10) (nlit 92 100) (nlit 8 100) (nlit 15 100) 30 (100 * 1000000)
  else mkRec (nlit 2 10) (nlit 85 100) (nlit 10 100) (nlit 20 100) 30 (100 * 1000000).

(** emerge/swarm/swarm.go:29-58 Swarm: the storages, the goal, the configuration.  The monitors,
    the attractor basin and the synchroniser are modelled in their own files; the worker pool is
    represented by its number of workers. *)
Record Swarm := mkSwarm {
  s_map : list (string * Agent T); s_slice : list (option (Agent T)); s_index : list (string * Z);
  s_opt : bool; s_goal : State T; s_cfg : SCfg T; s_size : Z; s_conn : bool; s_net : Net;
  s_gcfg : option (GCfg T); s_rec : RecoveryConfig; s_workers : option Z }.

Definition set_map m (s : Swarm) := mkSwarm m (s_slice s) (s_index s) (s_opt s) (s_goal s) (s_cfg s)
  (s_size s) (s_conn s) (s_net s) (s_gcfg s) (s_rec s) (s_workers s).
Definition set_slice l x (s : Swarm) := mkSwarm (s_map s) l x (s_opt s) (s_goal s) (s_cfg s)
  (s_size s) (s_conn s) (s_net s) (s_gcfg s) (s_rec s) (s_workers s).
Definition set_cfg c (s : Swarm) := mkSwarm (s_map s) (s_slice s) (s_index s) (s_opt s) (s_goal s) c
  (s_size s) (s_conn s) (s_net s) (s_gcfg s) (s_rec s) (s_workers s).
Definition set_net b n (s : Swarm) := mkSwarm (s_map s) (s_slice s) (s_index s) (s_opt s) (s_goal s) (s_cfg s)
  (s_size s) b n (s_gcfg s) (s_rec s) (s_workers s).
Definition set_gcfg g (s : Swarm) := mkSwarm (s_map s) (s_slice s) (s_index s) (s_opt s) (s_goal s) (s_cfg s)
  (s_size s) (s_conn s) (s_net s) (Some g) (s_rec s) (s_workers s).
Definition set_rec r (s : Swarm) := mkSwarm (s_map s) (s_slice s) (s_index s) (s_opt s) (s_goal s) (s_cfg s)
  (s_size s) (s_conn s) (s_net s) (s_gcfg s) r (s_workers s).

(** emerge/swarm/swarm.go:678-691 getOptimalWorkerCount; [cpus] = runtime.NumCPU(). *)
Definition getOptimalWorkerCount (cpus size : Z) : Z :=
  if size <? 100 then cpus else if size <? 1000 then cpus * 2 else minInt (cpus * 4) 32.

(** agentConfig of createDefaultAgents/createOptimizedAgents: AgentFromSwarm with SwarmSize set. *)
Definition agentConfig (s : Swarm) : ACfg T :=
  let c := AgentFromSwarm (s_cfg s) in
  mkACfg (ac_dm c) (ac_gm c) (ac_rm c) (ac_st c) (ac_tokens c) (ac_rate c) (ac_phase c) (ac_goal c)
    (ac_freq c) (ac_energy c) (ac_infl c) (ac_stub c) (s_size s) (ac_maxn c) (ac_rphase c) (ac_rgoal c) (ac_rfreq c).

(** emerge/swarm/swarm.go:211-223 createDefaultAgents; [dr i] are the random draws of agent i. *)
Fixpoint createLoop (c : ACfg T) (dr : nat -> Draws) (is : list nat) (m : list (string * Agent T))
  : option (list (string * Agent T)) :=
  match is with
  | [] => Some m
  | i :: r => match NewFromConfig (agentID i) (dr i) c with
              | None => None
              | Some a => createLoop c dr r (kvStore m (ag_id a) a)
              end
  end.
Definition createDefaultAgents (dr : nat -> Draws) (s : Swarm) : option Swarm :=
  match createLoop (agentConfig s) dr (seq 0 (Z.to_nat (s_size s))) (s_map s) with
  | None => None
  | Some m => Some (set_map m s)
  end.

(** emerge/swarm/swarm.go:226-254 createOptimizedAgents: the inner loop over j and the outer loop over
    batches of 100 ([fuel] bounds the number of batches). *)
Fixpoint optInner (c : ACfg T) (dr : nat -> Draws) (js : list nat)
  (l : list (option (Agent T))) (x : list (string * Z)) : option (list (option (Agent T)) * list (string * Z)) :=
  match js with
  | [] => Some (l, x)
  | j :: r =>
    match setZ l (Z.of_nat j) (Some (NewOptimizedFromConfig (agentID j) (dr j) c)) with
    | None => None
    | Some l' => optInner c dr r l' (kvStore x (agentID j) (Z.of_nat j))
    end
  end.
Fixpoint optOuter (fuel : nat) (c : ACfg T) (dr : nat -> Draws) (size i : nat)
  (l : list (option (Agent T))) (x : list (string * Z)) : option (list (option (Agent T)) * list (string * Z)) :=
  match fuel with
  | O => Some (l, x)
  | S f =>
    if (i <? size)%nat then
      match optInner c dr (seq i (Nat.min (i + 100) size - i)) l x with
      | None => None
      | Some (l', x') => optOuter f c dr size (i + 100) l' x'
      end
    else Some (l, x)
  end.
Definition createOptimizedAgents (dr : nat -> Draws) (s : Swarm) : option Swarm :=
  let n := Z.to_nat (s_size s) in
  match optOuter n (agentConfig s) dr n 0 (repeat None n) (s_index s) with
  | None => None
  | Some (l, x) => Some (set_slice l x s)
  end.

(** emerge/swarm/swarm.go:486-509 Agents (None = panic on a nil slice element). *)
Fixpoint sliceMap (l : list (option (Agent T))) (m : list (string * Agent T)) : option (list (string * Agent T)) :=
  match l with
  | [] => Some m
  | None :: _ => None
  | Some a :: r => sliceMap r (kvStore m (ag_id a) a)
  end.
Definition Agents (s : Swarm) : option (list (string * Agent T)) :=
  if s_opt s then sliceMap (s_slice s) [] else Some (s_map s).
(** emerge/swarm/swarm.go:512-532 Agent (outer None = panic, inner None = not found). *)
Definition AgentByID (s : Swarm) (id : string) : option (option (Agent T)) :=
  if s_opt s then
    match kvLoad (s_index s) id with
    | Some idx => match nthZ (s_slice s) idx with
                  | Some (Some a) => Some (Some a)
                  | _ => None
                  end
    | None => Some None
    end
  else Some (kvLoad (s_map s) id).
(** emerge/swarm/swarm.go:535-537 Size. *)
Definition Size (s : Swarm) : Z := s_size s.

(** emerge/swarm/swarm.go:331-350 collectAgents; [ro] is the order in which sync.Map.Range delivers
    the agents. *)
Fixpoint sliceAgents (l : list (option (Agent T))) : option (list (Agent T)) :=
  match l with
  | [] => Some []
  | None :: _ => None
  | Some a :: r => match sliceAgents r with Some q => Some (a :: q) | None => None end
  end.
Definition collectAgents (ro : list (Agent T) -> list (Agent T)) (s : Swarm) : option (list (Agent T)) :=
  if s_opt s then sliceAgents (s_slice s) else Some (ro (map snd (s_map s))).
(** emerge/swarm/swarm.go:612-619 ForEachAgent: the agents it visits (while the callback returns
    true); also the agents DisruptAgents ranges over. *)
Definition forEachAgents (ro : list (Agent T) -> list (Agent T)) (s : Swarm) : list (Agent T) :=
  ro (map snd (s_map s)).

(** Result of a constructor: an error, still running (the wiring loop is waiting for more random
    results), a panic, or a swarm. *)
Inductive NewErrKind := EBadSize | EBadGoal | EBadConfig | EOption | ETooLarge | ECreate.
Inductive NewRes := NewErr (e : NewErrKind) | NewRunning | NewPanic | NewOK (s : Swarm).

(** emerge/swarm/swarm.go:61 Option (None = error). *)
Definition Option := Swarm -> option Swarm.
Fixpoint applyOpts (opts : list Option) (s : Swarm) : option Swarm :=
  match opts with
  | [] => Some s
  | o :: r => match o s with None => None | Some s' => applyOpts r s' end
  end.
(** emerge/swarm/swarm.go:257-267 WithConfig. *)
Definition WithConfig (c : SCfg T) : Option := fun s =>
  let (c', ok) := NormalizeAndValidate c (s_size s) in if ok then Some (set_cfg c' s) else None.
(** emerge/swarm/swarm.go:270-278 WithGoalConfig. *)
Definition WithGoalConfig (g : GCfg T) : Option := fun s => if ValidateG g then Some (set_gcfg g s) else None.
(** emerge/swarm/swarm.go:281-286 WithMonitor (the monitor is not part of this record). *)
Definition WithMonitor : Option := fun s => Some s.
(** emerge/swarm/swarm.go:289-297 WithAgentBuilder (builder returning nil would panic; not modelled). *)
Definition WithAgentBuilder (builder : string -> Z -> SCfg T -> Agent T) : Option := fun s =>
  Some (set_map (fold_left (fun m i => let a := builder (agentID i) (s_size s) (s_cfg s) in kvStore m (ag_id a) a)
                   (seq 0 (Z.to_nat (s_size s))) (s_map s)) s).
(** emerge/swarm/swarm.go:300-308 WithTopology for the builders of internal/topology: the builder
    sees the agents through ForEachAgent (None = error or panic of the builder). *)
Definition WithTopology (ro : list (Agent T) -> list (Agent T)) (builder : list string -> Net -> option (Net * bool)) : Option := fun s =>
  match builder (map (@ag_id T) (forEachAgents ro s)) (s_net s) with
  | Some (n, true) => Some (set_net true n s)
  | _ => None
  end.
(** emerge/swarm/swarm.go:312-317 WithRecoveryConfig. *)
Definition WithRecoveryConfig (r : RecoveryConfig) : Option := fun s => Some (set_rec r s).

(** The last part of New and NewSwarmFromConfig: emerge/swarm/swarm.go:320-328 establishConnections. *)
Definition wire (ro : list (Agent T) -> list (Agent T)) (fl : list T) (il : list Z) (s : Swarm) : NewRes :=
  match collectAgents ro s with
  | None => NewPanic
  | Some l => match establishConnections (s_cfg s) (map (@ag_id T) l) fl il with
              | None => NewRunning
              | Some e => NewOK (set_net (s_conn s) (mkNet (net_opt (s_net s)) e) s)
              end
  end.

(** The goal stored by New: coherence lowered to the practical limit (emerge/swarm/swarm.go:84-89). *)
Definition clampGoal (size : Z) (goal : State T) : State T :=
  let limits := GetCoherenceLimits size in
  if nlt (lim_prac limits) (st_coh goal) then mkState (st_phase goal) (st_freq goal) (lim_prac limits) else goal.

(** emerge/swarm/swarm.go:68-164 New. *)
Definition New (cpus size : Z) (goal : State T) (opts : list Option) (dr : nat -> Draws)
  (ro : list (Agent T) -> list (Agent T)) (fl : list T) (il : list Z) : NewRes :=
  if size <=? 0 then NewErr EBadSize
  else if negb (M_Core.Validate goal) then NewErr EBadGoal
  else
    let (cfg, ok) := NormalizeAndValidate (AutoScaleConfig size) size in
    if negb ok then NewErr EBadConfig
    else
      let goal' := clampGoal size goal in
      let opt := 100 <? size in
      let s0 := mkSwarm [] [] [] opt goal' cfg size false newNet None (DefaultRecoveryConfig (st_coh goal'))
                  (if opt then Some (getOptimalWorkerCount cpus size) else None) in
      match applyOpts opts s0 with
      | None => NewErr EOption
      | Some s1 =>
        let (cfg2, ok2) := NormalizeAndValidate (s_cfg s1) size in
        if negb ok2 then NewErr EBadConfig
        else if (0 <? sc_maxsize cfg2) && (sc_maxsize cfg2 <? size) then NewErr ETooLarge
        else
          let s2 := set_cfg cfg2 s1 in
          let created :=
            if s_opt s2 then
              match s_slice s2 with [] => createOptimizedAgents dr s2 | _ => Some s2 end
            else match s_map s2 with [] => createDefaultAgents dr s2 | _ => Some s2 end in
          match created with
          | None => NewErr ECreate
          | Some s3 => if s_conn s3 then NewOK s3 else wire ro fl il s3
          end
      end.

(** emerge/swarm/swarm.go:168-208 NewSwarmFromConfig. *)
Definition NewSwarmFromConfig (size : Z) (goal : State T) (c : SCfg T) (dr : nat -> Draws)
  (ro : list (Agent T) -> list (Agent T)) (fl : list T) (il : list Z) : NewRes :=
  if size <=? 0 then NewErr EBadSize
  else if negb (M_Core.Validate goal) then NewErr EBadGoal
  else
    let (cfg, ok) := NormalizeAndValidate c size in
    if negb ok then NewErr EBadConfig
    else
      match createDefaultAgents dr (mkSwarm [] [] [] false goal cfg size false newNet None zeroRecovery None) with
      | None => NewErr ECreate
      | Some s => wire ro fl il s
      end.
End Swarm.
Arguments RecoveryConfig : clear implicits.
Arguments Swarm : clear implicits.
Arguments NewRes : clear implicits.
