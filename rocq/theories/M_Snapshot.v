(** Model of how the state of a simulation reaches the displays (simulations/emerge/simulation/simulation.go Snapshot and
    Statistics, simulations/emerge/ui/runner.go convertSnapshot and convertStats). *)
From Coq Require Import ZArith List Bool String.
From Verif Require Import Num M_Batch M_GoalConfig M_Workload M_SimControl.
Import ListNotations.
Open Scope Z_scope.

(** The zero time.Time in nanoseconds since 1970 (simulations/emerge/simulation/batch_manager.go:180). *)
Definition zeroTime : Z := -62135596800000000000.
(** time.Since: the difference, limited to the range of a Duration (simulations/emerge/simulation/simulation.go:344). *)
Definition since (now t : Z) : Z := Z.max (- 2 ^ 63) (Z.min (2 ^ 63 - 1) (now - t)).

Section Snapshot.
Context {T : Type} {N : Num T}.

(** simulations/emerge/simulation/types.go:37-47 AgentSnapshot, without the icon. *)
Record AgentSnapshot := mkAS { as_id : string; as_type : string; as_phase : T; as_pending : Z; as_sent : Z; as_burst : bool; as_activity : string }.
(** simulations/emerge/simulation/types.go:15-35 Snapshot. *)
Record Snapshot := mkSn {
  s_time : Z; s_elapsed : Z; s_agents : list AgentSnapshot; s_coherence : T; s_target : T; s_pending : Z; s_current : Z; s_batches : Z;
  s_without : T; s_with : T; s_savings : T; s_percent : T; s_paused : bool; s_disrupted : bool; s_reset : bool;
  s_justSent : bool; s_lastTime : Z; s_lastSize : Z }.
(** simulations/emerge/simulation/types.go:49-61 Statistics. *)
Record Statistics := mkSt {
  st_calls : Z; st_batches : Z; st_average : T; st_without : T; st_with : T; st_savings : T; st_percent : T;
  st_final : T; st_peak : T; st_converge : Z }.
(** The state read by Snapshot (simulations/emerge/simulation/simulation.go:20-56 Simulation): the control state, the
    workloads, the metrics, the batch manager's statistics and the length of its queue, the flags, the start. *)
Record Sim := mkSim {
  sm_ctl : Ctl T; sm_work : list Workload; sm_metrics : Metrics T; sm_stats : Stats; sm_queue : nat;
  sm_disrupted : bool; sm_reset : bool; sm_start : Z; sm_target : T }.
Variable measure : list (string * T) -> T.

(** simulations/emerge/simulation/agent.go:603-655 Workload.Snapshot; [phase] is that of the emerge agent.  Mixed activity
    is judged from the zero time, which is all that lastRequestTime ever holds. *)
Definition workloadSnapshot (phase : T) (w : Workload) : AgentSnapshot :=
  let (act, burst) := activity w sinceZeroTime in
  mkAS (w_id w) (w_name w) phase (Z.of_nat (List.length (w_pending w))) (w_sent w) burst act.
(** simulations/emerge/simulation/simulation.go:315-327: one workload (None: its emerge agent is missing). *)
Definition shownAgent (c : Ctl T) (w : Workload) : option AgentSnapshot :=
  match find (c_phases c) (w_id w) with
  | None => None
  | Some live =>
    let snapshot := workloadSnapshot live w in
    Some (if c_paused c then
            match find (c_pphases c) (as_id snapshot) with
            | Some phase => mkAS (as_id snapshot) (as_type snapshot) phase (as_pending snapshot) (as_sent snapshot) (as_burst snapshot) (as_activity snapshot)
            | None => snapshot
            end
          else snapshot)
  end.
(** simulations/emerge/simulation/simulation.go:313-327 the loop over the workloads: snapshots and total of pending tasks. *)
Fixpoint agentLoop (c : Ctl T) (ws : list Workload) (total : Z) : option (list AgentSnapshot * Z) :=
  match ws with
  | [] => Some ([], total)
  | w :: r => match shownAgent c w with
              | None => None
              | Some a => match agentLoop c r (total + as_pending a) with None => None | Some (l, t) => Some (a :: l, t) end
              end
  end.
(** simulations/emerge/simulation/simulation.go:308-366 Snapshot at time [now]. *)
Definition takeSnapshot (s : Sim) (now : Z) : option Snapshot :=
  match agentLoop (sm_ctl s) (sm_work s) 0 with
  | None => None
  | Some (agents, total) =>
    let m := Current (sm_metrics s) in
    let coherence := if c_paused (sm_ctl s) then c_pcoh (sm_ctl s) else measure (c_phases (sm_ctl s)) in
    Some (mkSn now (since now (sm_start s)) agents coherence (sm_target s) total (Z.of_nat (sm_queue s)) (sn_batches m)
            (sn_without m) (sn_with m) (sn_savings m) (sn_percent m) (c_paused (sm_ctl s)) (sm_disrupted s) (sm_reset s)
            (since now (bs_time (sm_stats s)) <? 500000000) (bs_time (sm_stats s)) (bs_size (sm_stats s)))
  end.
(** simulations/emerge/simulation/metrics.go:123-126 Final. *)
Definition Final (m : Metrics T) : MSnap T := Current m.
(** simulations/emerge/simulation/simulation.go:368-384 Statistics. *)
Definition takeStatistics (s : Sim) : Statistics :=
  let m := Final (sm_metrics s) in
  mkSt (sn_calls m) (sn_batches m) (sn_average m) (sn_without m) (sn_with m) (sn_savings m) (sn_percent m)
    (measure (c_phases (sm_ctl s))) (sn_peak m) (sn_converge m).
End Snapshot.
Arguments AgentSnapshot : clear implicits.
Arguments Snapshot : clear implicits.
Arguments Statistics : clear implicits.
Arguments Sim : clear implicits.

Section Display.
Context {T : Type}.
(** simulations/display/interfaces.go:71-80 AgentSnapshot, without the icon. *)
Record DAgent := mkDA { da_id : string; da_type : string; da_phase : T; da_pending : Z; da_sent : Z; da_burst : bool; da_activity : string }.
(** simulations/display/interfaces.go:37-68 SimulationSnapshot. *)
Record DSnapshot := mkDSn {
  d_time : Z; d_elapsed : Z; d_agents : list DAgent; d_coherence : T; d_target : T; d_pending : Z; d_current : Z; d_batches : Z;
  d_without : T; d_with : T; d_savings : T; d_percent : T; d_paused : bool; d_disrupted : bool; d_reset : bool;
  d_justSent : bool; d_lastTime : Z; d_lastSize : Z }.
(** simulations/display/interfaces.go:83-94 Statistics. *)
Record DStatistics := mkDSt {
  dt_calls : Z; dt_batches : Z; dt_average : T; dt_without : T; dt_with : T; dt_savings : T; dt_percent : T;
  dt_final : T; dt_peak : T; dt_converge : Z }.
(** simulations/emerge/ui/runner.go:253-266 the agents of convertSnapshot. *)
Definition convertAgent (a : AgentSnapshot T) : DAgent :=
  mkDA (as_id a) (as_type a) (as_phase a) (as_pending a) (as_sent a) (as_burst a) (as_activity a).
(** simulations/emerge/ui/runner.go:251-287 convertSnapshot. *)
Definition convertSnapshot (s : Snapshot T) : DSnapshot :=
  mkDSn (s_time s) (s_elapsed s) (map convertAgent (s_agents s)) (s_coherence s) (s_target s) (s_pending s) (s_current s) (s_batches s)
    (s_without s) (s_with s) (s_savings s) (s_percent s) (s_paused s) (s_disrupted s) (s_reset s) (s_justSent s) (s_lastTime s) (s_lastSize s).
(** simulations/emerge/ui/runner.go:289-303 convertStats. *)
Definition convertStats (s : Statistics T) : DStatistics :=
  mkDSt (st_calls s) (st_batches s) (st_average s) (st_without s) (st_with s) (st_savings s) (st_percent s) (st_final s) (st_peak s) (st_converge s).
End Display.
Arguments DAgent : clear implicits.
Arguments DSnapshot : clear implicits.
Arguments DStatistics : clear implicits.
(** simulations/emerge/simulation/batch_manager.go:161-166 PendingCount: the slice [current] is never filled. *)
Definition PendingCount : Z := 0.
(** simulations/emerge/simulation/batch_manager.go:168-172 CurrentBatchSize. *)
Definition CurrentBatchSize (queue : nat) : Z := Z.of_nat queue * 10.
