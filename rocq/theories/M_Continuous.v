(** Model of emerge/swarm/swarm_continuous_run.go (needsResync, RunContinuous) and of DisruptAgents and ForEachAgent in
    emerge/swarm/swarm.go. *)
From Coq Require Import ZArith List Bool String.
From Verif Require Import Num GoBase F64 M_Random M_Core M_Agent M_Limits M_GoalConfig M_Monitor M_ConvMonitor M_Swarm M_Sync.
Import ListNotations.
Open Scope num_scope.

Section Continuous.
Context {T : Type} {N : Num T}.

(** emerge/swarm/swarm_continuous_run.go:82-88 monitorState. *)
Record MonState := mkMS { ms_last : T; ms_peak : T; ms_stable : Z; ms_active : bool; ms_sync : Z }.

(** emerge/swarm/thresholds.go:41-47. *)
Definition peakDecay : T := nlit 9995 10000.
Definition minResync : Z := 500000000.
Definition improvementThreshold : T := nlit 1 1000.

(** emerge/swarm/swarm_continuous_run.go:92-138 needsResync: the answer and the updated stableCount. *)
Definition needsResync (cfg : RecoveryConfig T) (target : T) (st : MonState) (cur : T) : bool * Z :=
  if cur <? rc_minviable cfg then (true, ms_stable st)
  else
    let acceptableMin := target * rc_margin cfg in
    if cur <? acceptableMin then (true, ms_stable st)
    else
      let drop := ms_peak st - cur in
      if (drop >? ms_peak st * rc_small cfg) && ((drop >? ms_peak st * rc_large cfg) || (cur <? target)) then (true, ms_stable st)
      else
        let improvement := cur - ms_last st in
        let stable1 := (ms_stable st + 1)%Z in
        let quiet := nabs improvement <? improvementThreshold in
        if quiet && ((rc_stuck cfg <? stable1)%Z && (cur <? acceptableMin)) then (true, 0%Z)
        else
          let stable' := if quiet then stable1 else if improvement >? improvementThreshold then 0%Z else ms_stable st in
          (cur <? ms_last st - ms_last st * rc_small cfg, stable').

(** swarm_continuous_run.go:229-235, the peak with decay. *)
Definition newPeak (st : MonState) (cur : T) : T :=
  if cur >? ms_peak st then cur else ms_peak st * peakDecay.
(** swarm_continuous_run.go:226-252, the handler of one tick, without the restart: the decision and the new state. *)
Definition tickState (cfg : RecoveryConfig T) (target : T) (st : MonState) (cur : T) : bool * MonState :=
  let st1 := mkMS (ms_last st) (newPeak st cur) (ms_stable st) (ms_active st) (ms_sync st) in
  let (should, stable') := needsResync cfg target st1 cur in
  (should, mkMS cur (ms_peak st1) stable' (ms_active st) (ms_sync st)).

(** ** RunContinuous as a transition system.

    A synchronisation is a goroutine with its own context and its own result channel of capacity one.  What ends it:
    success, its context cancelled, the parent's deadline, or a failure after the budget (goal_directed.go:80-145). *)
Inductive SyncErr := ENil | ECanceled | EDeadline | EFailed.
Inductive Chan := Empty | Full (e : SyncErr).
(** A synchronisation: still running?, its channel, was its own cancel function called, when it was started. *)
Record Inst := mkInst { in_run : bool; in_chan : Chan; in_cancel : bool; in_start : Z }.
(** The context given by the caller. *)
Inductive Ctx := CtxLive | CtxCanceled | CtxDeadline.
Definition ctxErr (c : Ctx) : option SyncErr :=
  match c with CtxLive => None | CtxCanceled => Some ECanceled | CtxDeadline => Some EDeadline end.
Inductive ContRes := CRunning | CReturned (e : SyncErr) | CPanicked.
(** [ct_cur] is the instance syncDone and syncCancel refer to, [ct_old] the earlier ones, latest first. *)
Record Cont := mkCont {
  ct_rec : RecoveryConfig T; ct_target : T; ct_mon : MonState; ct_ctx : Ctx; ct_cur : Inst; ct_old : list Inst; ct_res : ContRes }.

(** swarm_continuous_run.go:163-210: the state when the loop is entered; [t0] the time of the first start, [t1] the time
    read at line 209, [coh] the measured coherence. *)
Definition contStart (rec : RecoveryConfig T) (target : T) (t0 t1 : Z) (coh : T) : Cont :=
  let rec' := if (rc_interval rec =? 0)%Z then DefaultRecoveryConfig target else rec in
  mkCont rec' target (mkMS coh n0 0 true t1) CtxLive (mkInst true Empty false t0) []
    (if (rc_interval rec' <=? 0)%Z then CPanicked else CRunning).

(** The events.  [ADone c]: the caller's context ends.  [AEnd k e]: instance number k (0 = current, S i = the i-th old
    one) ends with result e and sends it on its channel.  [ASelCtx], [ASelSync], [ASelTick]: the select statement takes
    that branch; a tick reads the clock at line 243 (t1), starts the goroutine at t2 and reads the clock at line 247 (t3). *)
Inductive Act := ADone (c : Ctx) | AEnd (k : nat) (e : SyncErr) | ASelCtx | ASelSync | ASelTick (t1 t2 t3 : Z) (coh : T).

(** Can this instance end this way? *)
Definition mayEnd (ctx : Ctx) (i : Inst) (e : SyncErr) : bool :=
  in_run i && match e with
              | ENil | EFailed => true
              | ECanceled => in_cancel i || match ctx with CtxCanceled => true | _ => false end
              | EDeadline => match ctx with CtxDeadline => true | _ => false end
              end.
Definition endInst (i : Inst) (e : SyncErr) : Inst := mkInst false (Full e) (in_cancel i) (in_start i).

(** swarm_continuous_run.go:226-252: a tick with the restart; line 244 cancels the lingering instance. *)
Definition tickCont (s : Cont) (t1 t2 t3 : Z) (coh : T) : Cont :=
  let (should, m) := tickState (ct_rec s) (ct_target s) (ct_mon s) coh in
  if should && negb (ms_active m) && (minResync <? t1 - ms_sync m)%Z then
    mkCont (ct_rec s) (ct_target s) (mkMS (ms_last m) coh (ms_stable m) true t3) (ct_ctx s)
      (mkInst true Empty false t2)
      (mkInst (in_run (ct_cur s)) (in_chan (ct_cur s)) true (in_start (ct_cur s)) :: ct_old s) (ct_res s)
  else mkCont (ct_rec s) (ct_target s) m (ct_ctx s) (ct_cur s) (ct_old s) (ct_res s).

(** One step; [None] = not enabled.  Instances keep running after RunContinuous returned. *)
Definition contStep (s : Cont) (a : Act) : option Cont :=
  match a with
  | ADone c =>
    match ct_ctx s, c with
    | CtxLive, CtxCanceled | CtxLive, CtxDeadline =>
      Some (mkCont (ct_rec s) (ct_target s) (ct_mon s) c (ct_cur s) (ct_old s) (ct_res s))
    | _, _ => None
    end
  | AEnd O e =>
    if mayEnd (ct_ctx s) (ct_cur s) e
    then Some (mkCont (ct_rec s) (ct_target s) (ct_mon s) (ct_ctx s) (endInst (ct_cur s) e) (ct_old s) (ct_res s))
    else None
  | AEnd (S k) e =>
    match nth_error (ct_old s) k with
    | Some i => if mayEnd (ct_ctx s) i e
                then Some (mkCont (ct_rec s) (ct_target s) (ct_mon s) (ct_ctx s) (ct_cur s)
                             (firstn k (ct_old s) ++ endInst i e :: skipn (S k) (ct_old s)) (ct_res s))
                else None
    | None => None
    end
  | ASelCtx =>
    match ct_res s, ctxErr (ct_ctx s) with
    | CRunning, Some e => Some (mkCont (ct_rec s) (ct_target s) (ct_mon s) (ct_ctx s) (ct_cur s) (ct_old s) (CReturned e))
    | _, _ => None
    end
  | ASelSync =>
    match ct_res s, in_chan (ct_cur s) with
    | CRunning, Full e =>
      let m := ct_mon s in
      let m' := mkMS (ms_last m) (ms_peak m) (ms_stable m) false (ms_sync m) in
      let i := ct_cur s in
      Some (mkCont (ct_rec s) (ct_target s) m' (ct_ctx s) (mkInst (in_run i) Empty (in_cancel i) (in_start i)) (ct_old s)
        (match e with ENil | ECanceled => CRunning | _ => CReturned e end))
    | _, _ => None
    end
  | ASelTick t1 t2 t3 coh =>
    match ct_res s with CRunning => Some (tickCont s t1 t2 t3 coh) | _ => None end
  end.
Fixpoint contRun (s : Cont) (l : list Act) : option Cont :=
  match l with
  | [] => Some s
  | a :: r => match contStep s a with Some s' => contRun s' r | None => None end
  end.

(** ** DisruptAgents. *)
(** emerge/swarm/swarm.go:570-580: the callback over the entries of s.agents in Range order, with the phases drawn. *)
Fixpoint disruptLoop (target disrupted : Z) (d : nat -> Z) (l : list (string * Agent T)) : list (string * Agent T) :=
  match l with
  | [] => []
  | (k, a) :: r =>
    if (disrupted >=? target)%Z then l
    else (k, SetPhase (RandPhase (d (Z.to_nat disrupted))) a) :: disruptLoop target (disrupted + 1) d r
  end.
(** emerge/swarm/swarm.go:562-567: the number of agents to disrupt. *)
Definition disruptCount (size : Z) (p : T) : Z :=
  ntrunc (nofZ size * (if p <? n0 then n0 else if p >? n1 then n1 else p)).
(** emerge/swarm/swarm.go:560-608 DisruptAgents on the agents; [ord] is the Range order of s.agents. *)
Definition DisruptAgents (p : T) (ord : list (string * Agent T) -> list (string * Agent T)) (d : nat -> Z) (s : Swarm T) : Swarm T :=
  set_map (disruptLoop (disruptCount (s_size s) p) 0 d (ord (s_map s))) s.
(** emerge/swarm/swarm.go:587-602: both monitors are reset. *)
Definition disruptMonitors (now : Z) (s : SyncState T) : SyncState T :=
  mkSS (ss_agents s) (GReset (ss_mon s)) (ss_perf s) (ss_cur s) (CMReset (ss_cm s) now).

(** ** Everything in the library that reaches the swarm's convergence monitor (C30): New creates it, DisruptAgents and
    the start of every synchronisation of RunContinuous reset it, a synchronisation runs rounds; anything else
    only changes agents.  client/emerge/emerge.go:38-68 delegates to these. *)
Inductive LibOp := LSync (target : TargetPattern T) (maxIter : Z) (cfg : GCfg T) (evs : list (SyncEvent T))
  | LDisrupt (now : Z) | LContStart (now : Z) | LAgents (f : list (Agent T) -> list (Agent T)).
Definition libStep (s : SyncState T) (o : LibOp) : SyncState T :=
  match o with
  | LSync target maxIter cfg evs => snd (syncLoop cfg target maxIter 0 evs (setMonTarget target s))
  | LDisrupt now | LContStart now => disruptMonitors now s
  | LAgents f => mkSS (f (ss_agents s)) (ss_mon s) (ss_perf s) (ss_cur s) (ss_cm s)
  end.
End Continuous.
Arguments MonState : clear implicits.
Arguments Cont : clear implicits.
Arguments Act : clear implicits.
Arguments LibOp : clear implicits.
