(** Model of emerge/swarm/goal_directed.go (the synchronisation loop), emerge/swarm/phase_convergence.go
    and of Run in emerge/swarm/swarm.go.

    The population is the list of the agents (pointers in Go) as one traversal sees it.  Every traversal
    of the population in the Go code (a range over a map, over the slice, or over the sync.Map) is given a
    function [list agent -> list agent] by the environment: it stands for the iteration order and for
    whatever other goroutines did to the agents since the previous traversal.  Reading an agent's phase and
    writing it back in the body of a loop is one step. *)
From Coq Require Import ZArith List Bool String.
From Verif Require Import Num GoBase F64 M_Random M_Core M_Agent M_Limits M_GoalConfig M_Monitor M_ConvMonitor M_Engine M_Swarm.
Import ListNotations.
Open Scope num_scope.

(** int64 arithmetic wraps around. *)
Definition wrap64 (z : Z) : Z := ((z + 2 ^ 63) mod 2 ^ 64 - 2 ^ 63)%Z.
(** time.Since(t) for a non-zero t saturates as time.Time.Sub does; the zero time is more than 292 years ago, so it
    gives the maximal duration. *)
Definition maxDuration : Z := (2 ^ 63 - 1)%Z.
Definition sinceTime (now : Z) (t : option Z) : Z :=
  match t with Some t => (now - t)%Z | None => maxDuration end.

Section Sync.
Context {T : Type} {N : Num T}.

Definition phaseOf (a : Agent T) : T := sd_phase (ag_sd a).
Definition freqOf (a : Agent T) : Z := sd_freq (ag_sd a).

(** emerge/swarm/phase_convergence.go:9-35 MeasurePhaseConvergence. *)
Definition phaseGap (target phase : T) : T :=
  let diff := nabs (phase - target) in
  if diff >? npi then n2pi - diff else diff.
Definition MeasurePhaseConvergence (agents : list (Agent T)) (target : T) : T :=
  match agents with
  | [] => n0
  | _ =>
    let total := fold_left (fun s a => s + phaseGap target (phaseOf a)) agents n0 in
    let avg := total / nofZ (Z.of_nat (List.length agents)) in
    let convergence := n1 - avg / npi in
    if convergence <? n0 then n0 else convergence
  end.

(** emerge/swarm/phase_convergence.go:67-72, the two normalisation loops; [None] = still looping after [fuel]
    iterations. *)
Fixpoint loopDown (fuel : nat) (x : T) : option T :=
  match fuel with
  | O => None
  | S k => if x >? npi then loopDown k (x - n2pi) else Some x
  end.
Fixpoint loopUp (fuel : nat) (x : T) : option T :=
  match fuel with
  | O => None
  | S k => if x <? - npi then loopUp k (x + n2pi) else Some x
  end.
(** emerge/swarm/phase_convergence.go:39-77 MeasurePhaseVariance. *)
Fixpoint varLoop (fuel : nat) (mean : T) (agents : list (Agent T)) (acc : T) : option T :=
  match agents with
  | [] => Some acc
  | a :: r =>
    match loopDown fuel (phaseOf a - mean) with
    | None => None
    | Some d => match loopUp fuel d with
                | None => None
                | Some d' => varLoop fuel mean r (acc + d' * d')
                end
    end
  end.
Definition meanPhase (agents : list (Agent T)) : T :=
  let n := nofZ (Z.of_nat (List.length agents)) in
  let sumCos := fold_left (fun s a => s + ncos (phaseOf a)) agents n0 in
  let sumSin := fold_left (fun s a => s + nsin (phaseOf a)) agents n0 in
  natan2 (sumSin / n) (sumCos / n).
Definition MeasurePhaseVariance (fuel : nat) (agents : list (Agent T)) : option T :=
  match agents with
  | [] => Some n0
  | _ => match varLoop fuel (meanPhase agents) agents n0 with
         | None => None
         | Some v => Some (v / nofZ (Z.of_nat (List.length agents)))
         end
  end.

(** emerge/swarm/swarm.go:462-483 MeasureCoherence. *)
Definition swarmCoherence (agents : list (Agent T)) : T := MeasureCoherence (map phaseOf agents).

(** emerge/swarm/goal_directed.go:148-179 measureSystemPattern; [agents'] is the population seen by the second
    traversal, inside MeasureCoherence. *)
Definition measureSystemPattern (agents agents' : list (Agent T)) : TargetPattern T :=
  match agents with
  | [] => mkTP n0 0 n0 n0 [] n0
  | _ =>
    let totalFreq := fold_left (fun s a => wrap64 (s + freqOf a)) agents 0%Z in
    mkTP (meanPhase agents) (Z.quot totalFreq (Z.of_nat (List.length agents))) n1
      (swarmCoherence agents') [] (nlit 5 10)
  end.

(** emerge/swarm/goal_directed.go:182-217 isPatternAchieved; [agents] is the population it sees. *)
Definition tolerance (cfg : GCfg T) (n : Z) (target : TargetPattern T) : T :=
  let t := if (n <? 10)%Z then gv_tolS (g_conv cfg)
           else if (n <? 50)%Z then gv_tolM (g_conv cfg) else gv_tolL (g_conv cfg) in
  if tp_coh target >=? lim_prac (GetCoherenceLimits n) * nlit 95 100 then t * nofZ 2 else t.
Definition isPatternAchieved (cfg : GCfg T) (target : TargetPattern T) (agents : list (Agent T))
    (cur : TargetPattern T) : bool :=
  let distance := PatternDistance (Some cur) (Some target) in
  let n := Z.of_nat (List.length agents) in
  let coherenceAchieved := tp_coh cur >=? tp_coh target - tolerance cfg n target in
  let distanceAchieved := distance <? gv_dist (g_conv cfg) in
  if tp_coh target >=? gt_high (g_thr cfg) then
    coherenceAchieved && distanceAchieved &&
    (MeasurePhaseConvergence agents (tp_phase target) >=? gv_goal (g_conv cfg))
  else coherenceAchieved && distanceAchieved.

(** emerge/swarm/goal_directed.go:222-376 applyPatternCompletion: the quantities computed before the loop. *)
Record ApplyCtx := mkAX {
  ax_cfg : GCfg T; ax_target : T; ax_tcoh : T; ax_coh : T; ax_var : T; ax_padj : T; ax_fadj : Z; ax_norm : T }.
(** goal_directed.go:261 and 301: synchronised but at different phases. *)
Definition phaseAlign (x : ApplyCtx) : bool :=
  (ax_coh x >=? gt_high (g_thr (ax_cfg x))) && (ax_var x >? gt_var (g_thr (ax_cfg x))).
(** goal_directed.go:241-286, the initial adjustmentScale. *)
Definition adjustmentScale (x : ApplyCtx) : T :=
  let base := gv_scale (g_conv (ax_cfg x)) in
  if phaseAlign x then base * nlit 12 10
  else
    let d := ax_tcoh x - ax_coh x in
    if d <=? nlit 1 100 then nlit 1 10
    else if d <=? nlit 5 100 then nlit 2 10
    else if d <=? nlit 1 10 then nlit 3 10
    else if d <=? nlit 2 10 then nlit 4 10
    else nmax (base * (n1 - ax_coh x * nlit 15 100)) (nlit 4 10).
(** goal_directed.go:367-374, the frequency adjustment. *)
Definition adjustFreq (fadj : Z) (a : Agent T) : Agent T :=
  if nabs (durSeconds fadj) >? nlit 1 1000 then
    let newFreq := wrap64 (freqOf a + fadj) in
    if (0 <? newFreq)%Z then SetFrequency newFreq a else a
  else a.
(** goal_directed.go:247-257, the low-coherence branch; [d] is the draw of the agent. *)
Definition scatterAgent (d : Z) (a : Agent T) : Agent T :=
  SetPhase (phaseOf a + (Float64 d - nlit 5 10) * npi * nlit 3 10) a.
(** goal_directed.go:318-322 variation and 327-328 threshold. *)
Definition variationOf (x : ApplyCtx) (d : Z) : T :=
  let v := g_var (ax_cfg x) in
  let base := ga_min v + (n1 - ax_norm x) * (ga_max v - ga_min v) in
  (Float64 d - nlit 5 10) * (base + ax_coh x * ga_coh v).
Definition thresholdOf (x : ApplyCtx) : T :=
  nlit 1 100 + ax_coh x * nlit 3 100 + (n1 - ax_norm x) * nlit 2 100.
(** goal_directed.go:295-375, one iteration: agent number [idx], current value [scale] of adjustmentScale, draws
    [d 0, d 1, ...] in the order in which they are used.  Returns the agent and the new adjustmentScale. *)
Definition applyAgent (x : ApplyCtx) (idx : nat) (d : nat -> Z) (scale : T) (a : Agent T) : Agent T * T :=
  let cfg := ax_cfg x in
  let cur := phaseOf a in
  let phaseDiff := WrapPhase (ax_target x - cur) in
  if phaseAlign x then
    if nabs phaseDiff >? gv_dist (g_conv cfg) then
      let correction := phaseDiff * scale * nlit 9 10 in
      let randomFactor := nlit 95 100 + Float64 (d 0%nat) * nlit 1 10 in
      (adjustFreq (ax_fadj x) (SetPhase (WrapPhase (cur + correction * randomFactor)) a), scale)
    else (adjustFreq (ax_fadj x) a, scale)
  else
    let variation := variationOf x (d 0%nat) in
    let crowded := (ax_coh x >? gt_very (g_thr cfg)) && (ax_var x <? gt_var (g_thr cfg)) in
    if crowded && negb (Nat.eqb (Nat.modulo idx 3) 0) then
      let randomWalk := (Float64 (d 1%nat) - nlit 5 10) * ga_walk (g_var cfg) in
      (SetPhase (WrapPhase (cur + randomWalk)) a, scale)
    else
      let scale' := if crowded then scale * nlit 2 10 else scale in
      if nabs phaseDiff >? thresholdOf x then
        let randomRange := nlit 3 10 + (n1 - ax_norm x) * nlit 2 10 in
        let randomFactor := n1 - randomRange / nofZ 2 + Float64 (d 1%nat) * randomRange in
        let effective := (ax_padj x * nlit 3 10 + phaseDiff * scale') * randomFactor in
        (adjustFreq (ax_fadj x) (SetPhase (WrapPhase (cur + effective * (n1 + variation))) a), scale')
      else if (ax_coh x >? gt_mod (g_thr cfg)) && (Float64 (d 1%nat) <? ga_chance (g_var cfg)) then
        let perturbation := (Float64 (d 2%nat) - nlit 5 10) * ga_pert (g_var cfg) in
        (adjustFreq (ax_fadj x) (SetPhase (WrapPhase (cur + perturbation)) a), scale')
      else (adjustFreq (ax_fadj x) a, scale').
Fixpoint applyLoop (x : ApplyCtx) (idx : nat) (d : nat -> nat -> Z) (scale : T) (l : list (Agent T)) : list (Agent T) :=
  match l with
  | [] => []
  | a :: r => let (a', scale') := applyAgent x idx (d idx) scale a in a' :: applyLoop x (S idx) d scale' r
  end.
Fixpoint scatterLoop (idx : nat) (d : nat -> nat -> Z) (l : list (Agent T)) : list (Agent T) :=
  match l with
  | [] => []
  | a :: r => scatterAgent (d idx 0%nat) a :: scatterLoop (S idx) d r
  end.
Definition applyCtx (cfg : GCfg T) (target : TargetPattern T) (cp : Completed T) (coh var : T) (n : nat) : ApplyCtx :=
  mkAX cfg (tp_phase target) (tp_coh target) coh var (GetPhaseAdjustment cp) (GetFrequencyAdjustment cp)
    (nmin (nofZ (Z.of_nat n) / nofZ 100) n1).
(** goal_directed.go:222-376 with the measured coherence [coh] and variance [var]. *)
Definition applyPatternCompletion (cfg : GCfg T) (target : TargetPattern T) (cp : Completed T) (coh var : T)
    (d : nat -> nat -> Z) (agents : list (Agent T)) : list (Agent T) :=
  if (tp_coh target <? nlit 4 10) && (coh >? tp_coh target) then scatterLoop 0 d agents
  else let x := applyCtx cfg target cp coh var (List.length agents) in
       applyLoop x 0 d (adjustmentScale x) agents.

(** goal_directed.go:32-39 StrategyPerformance (the reward fields are never read); LastUsed = None is the zero
    time. *)
Record Perf := mkPerf { pf_attempts : Z; pf_successes : Z; pf_last : option Z }.
(** goal_directed.go:53-59, the names of the five strategies. *)
Definition strategyNames : list string :=
  ["phase_nudge"; "phase_nudge"; "frequency_lock"; "energy_aware"; "pulse"]%string.
Definition PerfTable := list (string * Perf).
(** goal_directed.go:394-410, the score of one strategy with draw [b]. *)
Definition score (cfg : GCfg T) (now : Z) (p : Perf) (b : Z) : T :=
  let s0 := if (0 <? pf_attempts p)%Z then nofZ (pf_successes p) / nofZ (pf_attempts p) else n0 in
  let timeSinceUsed := durSeconds (sinceTime now (pf_last p)) in
  let timeWindow := durSeconds (gs_window (g_str cfg)) in
  let bonus := nmin (timeSinceUsed / timeWindow) (gs_bonus (g_str cfg)) in
  s0 + bonus + Float64 b * gs_explore (g_str cfg).
(** goal_directed.go:394-416, the selection loop: (best index, best score); None = a nil map entry is
    dereferenced. *)
Fixpoint selectLoop (cfg : GCfg T) (now : Z) (tbl : PerfTable) (dr : nat -> Z) (i : nat) (names : list string)
    (best : option nat * T) : option (option nat * T) :=
  match names with
  | [] => Some best
  | s :: r =>
    match kvLoad tbl s with
    | None => None
    | Some p =>
      let sc := score cfg now p (dr i) in
      selectLoop cfg now tbl dr (S i) r (if sc >? snd best then (Some i, sc) else best)
    end
  end.
(** goal_directed.go:379-419 switchStrategy: [cur] is the index of the current strategy (None = nil).  Outer None =
    panic. *)
Definition recordFailure (now : Z) (tbl : PerfTable) (cur : option nat) : option PerfTable :=
  match cur with
  | None => Some tbl
  | Some i =>
    match nth_error strategyNames i with
    | None => None
    | Some s => match kvLoad tbl s with
                | None => None
                | Some p => Some (kvStore tbl s (mkPerf (pf_attempts p + 1) (pf_successes p) (Some now)))
                end
    end
  end.
Definition switchStrategy (cfg : GCfg T) (now : Z) (dr : nat -> Z) (tbl : PerfTable) (cur : option nat)
    : option (PerfTable * option nat) :=
  match recordFailure now tbl cur with
  | None => None
  | Some tbl' =>
    match selectLoop cfg now tbl' dr 0 strategyNames (None, - n1) with
    | None => None
    | Some best => Some (tbl', fst best)
    end
  end.
(** goal_directed.go:453-463 RecordSuccess (the fields that are read elsewhere). *)
Definition RecordSuccess (tbl : PerfTable) (cur : option nat) : option PerfTable :=
  match cur with
  | None => Some tbl
  | Some i =>
    match nth_error strategyNames i with
    | None => None
    | Some s => match kvLoad tbl s with
                | None => None
                | Some p => Some (kvStore tbl s (mkPerf (pf_attempts p) (pf_successes p + 1) (pf_last p)))
                end
    end
  end.

(** goal_directed.go:422-450 addStochasticResonance: per perturbation the environment gives the traversal, the bytes
    for random.Intn and the draw of the noise.  [None] = panic or bytes used up. *)
Definition perturbCount (cfg : GCfg T) (n : nat) : Z :=
  Z.max (ntrunc (nofZ (Z.of_nat n) * gr_aff (g_res cfg))) 1.
Definition noiseAgent (cfg : GCfg T) (b : Z) (a : Agent T) : Agent T :=
  SetPhase (WrapPhase (phaseOf a + (Float64 b - nlit 5 10) * gr_noise (g_res cfg))) a.
Fixpoint resonanceLoop (cfg : GCfg T) (ord : nat -> list (Agent T) -> list (Agent T)) (bytes : nat -> list Z)
    (noise : nat -> Z) (k : nat) (todo : nat) (agents : list (Agent T)) : option (list (Agent T)) :=
  match todo with
  | O => Some agents
  | S t =>
    let l := ord k agents in
    match Intn (Z.of_nat (List.length l)) (bytes k) with
    | IntnVal idx =>
      let l' := match nthZ l idx with
                | Some a => match setZ l idx (noiseAgent cfg (noise k) a) with Some q => q | None => l end
                | None => l
                end in
      resonanceLoop cfg ord bytes noise (S k) t l'
    | _ => None
    end
  end.

(** The synchroniser's state across rounds (goal_directed.go:19-29), with the population and the swarm's own
    convergence monitor (swarm.go:44). *)
Record SyncState := mkSS {
  ss_agents : list (Agent T); ss_mon : GMon T; ss_perf : PerfTable; ss_cur : option nat; ss_cm : CM T }.
(** What the environment supplies in one round: the time, the traversals, the random draws. *)
Record Env := mkEnv {
  ev_now : Z; ev_view : nat -> list (Agent T) -> list (Agent T);
  ev_tmpl : list (string * option (TargetPattern T)) -> list (string * option (TargetPattern T));
  ev_sdraw : nat -> Z; ev_draw : nat -> nat -> Z;
  ev_bytes : nat -> list Z; ev_noise : nat -> Z; ev_fuel : nat }.

(** goal_directed.go:42-77 NewGoalDirectedSyncWithConfig. *)
Definition initPerf : PerfTable :=
  fold_left (fun t s => kvStore t s (mkPerf 0 0 None)) strategyNames [].
Definition newSync (agents : list (Agent T)) (cm : CM T) : SyncState :=
  mkSS agents (NewMonitor 10) initPerf (Some 0%nat) cm.
Definition defaultEngine : Engine T := LoadDefaultTemplates NewEngine.

(** goal_directed.go:108-140, one tick.  [None] = panic; otherwise the new state and whether the goal was
    achieved. *)
Definition round (cfg : GCfg T) (target : TargetPattern T) (e : Env) (s : SyncState) : option (SyncState * bool) :=
  let ag0 := ev_view e 0 (ss_agents s) in
  let ag1 := ev_view e 1 ag0 in
  let cur := measureSystemPattern ag0 ag1 in
  let ag2 := ev_view e 2 ag1 in
  let mon := GRecord (ss_mon s) (ev_now e) (Some cur) (swarmCoherence ag2) in
  let ag3 := ev_view e 3 ag2 in
  if isPatternAchieved cfg target ag3 cur then Some (mkSS ag3 mon (ss_perf s) (ss_cur s) (ss_cm s), true)
  else
    match (if ShouldSwitchStrategy mon then switchStrategy cfg (ev_now e) (ev_sdraw e) (ss_perf s) (ss_cur s)
           else Some (ss_perf s, ss_cur s)) with
    | None => None
    | Some (perf', cur') =>
      let gaps := IdentifyGaps cur target in
      let eng := mkEngine (ev_tmpl e (en_templates defaultEngine)) (en_threshold defaultEngine) in
      match CompletePattern eng cur gaps with
      | None => None
      | Some cp =>
        let ag4 := ev_view e 4 ag3 in
        let ag5 := ev_view e 5 ag4 in
        let ag6 := ev_view e 6 ag5 in
        match MeasurePhaseVariance (ev_fuel e) ag6 with
        | None => None
        | Some var =>
          let ag7 := applyPatternCompletion cfg target cp (swarmCoherence ag5) var (ev_draw e) (ev_view e 7 ag6) in
          let ag8 := ev_view e 8 ag7 in
          match (if IsStuck mon then
                   resonanceLoop cfg (fun k => ev_view e (9 + k)) (ev_bytes e) (ev_noise e) 0
                     (Z.to_nat (perturbCount cfg (List.length ag8))) ag8
                 else Some ag8) with
          | None => None
          | Some ag9 => Some (mkSS ag9 mon perf' cur' (ss_cm s), false)
          end
        end
      end
    end.

(** One iteration of the select statement: the context is done, or the ticker fires. *)
Inductive SyncEvent := Cancel | Tick (e : Env).
(** How AchieveSynchronization ends: nil, the context's error, the error after the budget, a panic (an Intn on an empty
    population, ...); [SRunning] when the given events are used up and the loop is still waiting. *)
Inductive SyncRes := SNil | SCtx | SFail (n : Z) | SPanic | SRunning.
(** goal_directed.go:102-144: the loop, with the number of rounds executed. *)
Fixpoint syncLoop (cfg : GCfg T) (target : TargetPattern T) (maxIter it : Z) (evs : list SyncEvent) (s : SyncState)
    : SyncRes * Z * SyncState :=
  if (it <? maxIter)%Z then
    match evs with
    | [] => (SRunning, it, s)
    | Cancel :: _ => (SCtx, it, s)
    | Tick e :: r =>
      match round cfg target e s with
      | None => (SPanic, (it + 1)%Z, s)
      | Some (s', true) => (SNil, (it + 1)%Z, s')
      | Some (s', false) => syncLoop cfg target maxIter (it + 1) r s'
      end
    end
  else (SFail maxIter, it, s).
(** swarm.go:448-454 and swarm_continuous_run.go:169-175: the target pattern of a goal. *)
Definition goalPattern (goal : State T) : TargetPattern T :=
  mkTP (st_phase goal) (st_freq goal) n1 (st_coh goal) [] (nlit 9 10).
(** goal_directed.go:81-91: the target after the adjustment to the theoretical maximum. *)
Definition adjustTarget (n : Z) (target : TargetPattern T) : TargetPattern T :=
  let limits := GetCoherenceLimits n in
  if tp_coh target >? lim_theo limits
  then mkTP (tp_phase target) (tp_freq target) (tp_amp target) (lim_theo limits) (tp_wave target) (tp_stab target)
  else target.
Definition setMonTarget (target : TargetPattern T) (s : SyncState) : SyncState :=
  mkSS (ss_agents s) (SetTarget (ss_mon s) (Some target)) (ss_perf s) (ss_cur s) (ss_cm s).
(** swarm.go:157-161 and 201-205: the configuration of the synchroniser of a swarm, and its initial state at time
    [now] (swarm.go:98 creates the convergence monitor). *)
Definition syncConfig (s : Swarm T) : GCfg T := match s_gcfg s with Some g => g | None => defaultConfig end.
Definition startState (now : Z) (s : Swarm T) : option SyncState :=
  match Agents s with
  | None => None
  | Some m => Some (newSync (map snd m) (NewConvergence (s_goal s) (st_coh (s_goal s)) now))
  end.
(** Queries of swarm.go:545-557. *)
Definition IsConverged (s : SyncState) : bool := CMIsConverged (ss_cm s).
Definition CurrentCoherence (s : SyncState) : T := CMCurrent (ss_cm s).
End Sync.
Arguments ApplyCtx : clear implicits.
Arguments SyncState : clear implicits.
Arguments Env : clear implicits.
Arguments SyncEvent : clear implicits.

(** goal_directed.go:93-96, the round budget (floats only, because the time factor can be +Inf). *)
Definition budget (tr : Trig) (cfg : GCfg F) (n : Z) (t : F) : Z :=
  Z.min (ftrunc (fmul (gs_iter (g_str cfg)) (GetConvergenceTimeFactor tr n t))) 1000.
(** goal_directed.go:80-145 AchieveSynchronization.  time.NewTicker panics on a non-positive interval. *)
Definition AchieveSynchronization (tr : Trig) (cfg : GCfg F) (target : TargetPattern F)
    (evs : list (SyncEvent F)) (s : SyncState F) : SyncRes * Z * SyncState F :=
  let N := FNum tr in
  let n := Z.of_nat (List.length (ss_agents s)) in
  let target' := adjustTarget n target in
  if (gs_upd (g_str cfg) <=? 0)%Z then (SPanic, 0%Z, s)
  else syncLoop cfg target' (budget tr cfg n (tp_coh target')) 0 evs (setMonTarget target' s).
(** swarm.go:446-458 Run. *)
Definition Run (tr : Trig) (cfg : GCfg F) (goal : State F) (evs : list (SyncEvent F)) (s : SyncState F)
    : SyncRes * Z * SyncState F :=
  AchieveSynchronization tr cfg (@goalPattern F (FNum tr) goal) evs s.
