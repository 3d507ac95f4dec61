(** Model of the control of a simulation (simulations/emerge/simulation/simulation.go): Start, Pause, Resume, Reset,
    Disrupt, Snapshot, and the goroutines they race with. *)
From Coq Require Import ZArith List Bool String Arith.
From Verif Require Import Num M_Core M_GoalConfig.
Import ListNotations.

(** ** Starting, pausing and resuming.
    Contexts are numbered in the order of creation.  A goroutine launched by Start or Resume reads the field swarmCtx
    only when it begins to run, so it is first [launched] (waiting to be scheduled), then a run under the context it
    read.  The phases of the agents are a map from agent ID; [measure] is the coherence of such a map. *)
Section Control.
Context {T : Type}.
Variable measure : list (string * T) -> T.

Record Ctl := mkCtl {
  c_parent : bool;                       (* parentCtx has been set *)
  c_cur : option nat;                    (* swarmCtx / swarmCancel *)
  c_next : nat;                          (* number of contexts created *)
  c_cancelled : list nat;                (* contexts cancelled by swarmCancel *)
  c_launched : nat;                      (* goroutines that have not read swarmCtx yet *)
  c_runs : list nat;                     (* contexts of the runs that have not returned *)
  c_paused : bool; c_pcoh : T; c_pphases : list (string * T);
  c_phases : list (string * T) }.
(** simulations/emerge/simulation/builder.go:24-43 New: nothing started. *)
Definition ctl0 (zero : T) (ph : list (string * T)) : Ctl := mkCtl false None 0 [] 0 [] false zero [] ph.

Inductive CEv :=
| Start                                   (* simulation.go:58-73 *)
| Pause                                   (* simulation.go:275-289 *)
| Resume                                  (* simulation.go:292-306 *)
| Begin                                   (* a launched goroutine reads swarmCtx: simulation.go:69, 300 *)
| Return (i : nat)                        (* a run returns, cancelled or by itself *)
| Change (f : string -> T -> T).          (* agents change phase: a run, Reset or Disrupt *)
(** A new context replaces the current one and a goroutine is launched. *)
Definition launch (s : Ctl) (parent paused : bool) : Ctl :=
  mkCtl parent (Some (c_next s)) (S (c_next s)) (c_cancelled s) (S (c_launched s)) (c_runs s) paused (c_pcoh s) (c_pphases s) (c_phases s).
(** The i-th element taken out of a list. *)
Fixpoint remove_nth {A} (i : nat) (l : list A) : list A :=
  match l, i with [], _ => [] | _ :: r, O => r | x :: r, S k => x :: remove_nth k r end.
(** simulations/emerge/simulation/simulation.go:58-73 Start, 275-289 Pause, 292-306 Resume. *)
Definition cStep (s : Ctl) (e : CEv) : Ctl :=
  match e with
  | Start => launch s true (c_paused s)
  | Pause => mkCtl (c_parent s) (c_cur s) (c_next s)
               (match c_cur s with Some k => k :: c_cancelled s | None => c_cancelled s end)
               (c_launched s) (c_runs s) true (measure (c_phases s)) (c_phases s) (c_phases s)
  | Resume => if c_parent s then launch s true false
              else mkCtl (c_parent s) (c_cur s) (c_next s) (c_cancelled s) (c_launched s) (c_runs s) false (c_pcoh s) (c_pphases s) (c_phases s)
  | Begin => match c_launched s, c_cur s with
             | S n, Some k => mkCtl (c_parent s) (c_cur s) (c_next s) (c_cancelled s) n (k :: c_runs s) (c_paused s) (c_pcoh s) (c_pphases s) (c_phases s)
             | _, _ => s
             end
  | Return i => mkCtl (c_parent s) (c_cur s) (c_next s) (c_cancelled s) (c_launched s) (remove_nth i (c_runs s)) (c_paused s) (c_pcoh s) (c_pphases s) (c_phases s)
  | Change f => mkCtl (c_parent s) (c_cur s) (c_next s) (c_cancelled s) (c_launched s) (c_runs s) (c_paused s) (c_pcoh s) (c_pphases s)
                  (map (fun p => (fst p, f (fst p) (snd p))) (c_phases s))
  end.
Definition cRun (s : Ctl) (es : list CEv) : Ctl := fold_left cStep es s.
(** The runs whose context has not been cancelled. *)
Definition live (s : Ctl) : list nat := filter (fun k => negb (existsb (Nat.eqb k) (c_cancelled s))) (c_runs s).

(** Lookup in a map. *)
Fixpoint find (m : list (string * T)) (id : string) : option T :=
  match m with [] => None | (k, v) :: r => if String.eqb k id then Some v else find r id end.
(** simulations/emerge/simulation/simulation.go:313-326 Snapshot: the phase shown for a workload of that ID. *)
Definition shownPhase (s : Ctl) (id : string) : option T :=
  if c_paused s then match find (c_pphases s) id with Some p => Some p | None => find (c_phases s) id end
  else find (c_phases s) id.
(** simulations/emerge/simulation/simulation.go:332-337 Snapshot: the coherence shown. *)
Definition shownCoherence (s : Ctl) : T := if c_paused s then c_pcoh s else measure (c_phases s).
End Control.
Arguments Ctl : clear implicits.
Arguments CEv : clear implicits.

(** ** Reset against the batch processor and the workloads.
    Only what they wait for is modelled: the length of the queue of batches, the mutex of the simulation (held for
    writing by Reset from the first to the last step), the mutex of the batch manager. *)
Inductive PState :=
| PWait                 (* batch_manager.go:75-79: waiting for a batch *)
| PCollect              (* batch_manager.go:98-113: collecting *)
| PLock (n : nat)       (* batch_manager.go:134: n API batches left, about to take the manager's mutex *)
| PHold (n : nat).      (* batch_manager.go:135-138: holding it *)
Inductive RState :=
| RIdle                 (* not called *)
| RSim                  (* simulation.go:95-102: holds the simulation's mutex, about to take the manager's *)
| RCheck                (* batch_manager.go:184: holds both, at the loop condition *)
| RRecv                 (* batch_manager.go:185: at the receive *)
| RRest                 (* simulation.go:104-210: manager's mutex released, workloads and phases *)
| RDone.
Inductive WState :=
| WPoll                 (* agent.go:527-531: about to read-lock the simulation's mutex *)
| WSend.                (* agent.go:538-539: not paused, about to submit a batch *)
Record RS := mkRSt { r_queue : nat; r_proc : PState; r_reset : RState; r_work : list WState }.
(** The writer lock of the simulation is held by Reset. *)
Definition simLocked (s : RS) : bool := match r_reset s with RSim | RCheck | RRecv | RRest => true | _ => false end.
(** The manager's mutex is held by Reset (batch_manager.go:176-177), or by the processor. *)
Definition bmLockedByReset (s : RS) : bool := match r_reset s with RCheck | RRecv => true | _ => false end.
Definition bmLockedByProc (s : RS) : bool := match r_proc s with PHold _ => true | _ => false end.
(** Replace the i-th workload state. *)
Fixpoint setW (i : nat) (w : WState) (l : list WState) : list WState :=
  match l, i with [], _ => [] | _ :: r, O => w :: r | x :: r, S k => x :: setW k w r end.

Inductive REv :=
| EReset                     (* the next step of Reset *)
| EProcTake                  (* the processor receives a batch *)
| EProcClose (n : nat)       (* the collection ends with n API batches *)
| EProcNext                  (* the processor's next step while sending *)
| EWork (i : nat) (b : bool). (* the next step of workload i; b: it decides to send (agent.go:538 shouldBatch) *)
(** simulations/emerge/simulation/simulation.go:94-107 Reset, simulations/emerge/simulation/batch_manager.go:74-144
    ProcessBatches, 175-191 Reset, simulations/emerge/simulation/agent.go:519-543 monitorBatching.  An event that has
    to wait leaves the state unchanged. *)
Definition rStep (s : RS) (e : REv) : RS :=
  match e with
  | EReset =>
    match r_reset s with
    | RIdle => mkRSt (r_queue s) (r_proc s) RSim (r_work s)
    | RSim => if bmLockedByProc s then s else mkRSt (r_queue s) (r_proc s) RCheck (r_work s)
    | RCheck => mkRSt (r_queue s) (r_proc s) (if (0 <? r_queue s)%nat then RRecv else RRest) (r_work s)
    | RRecv => match r_queue s with O => s | S q => mkRSt q (r_proc s) RCheck (r_work s) end
    | RRest => mkRSt (r_queue s) (r_proc s) RDone (r_work s)
    | RDone => s
    end
  | EProcTake =>
    match r_queue s, r_proc s with
    | S q, PWait => mkRSt q PCollect (r_reset s) (r_work s)
    | S q, PCollect => mkRSt q PCollect (r_reset s) (r_work s)
    | _, _ => s
    end
  | EProcClose n => match r_proc s with PCollect => mkRSt (r_queue s) (PLock n) (r_reset s) (r_work s) | _ => s end
  | EProcNext =>
    match r_proc s with
    | PLock O => mkRSt (r_queue s) PWait (r_reset s) (r_work s)
    | PLock (S n) => if bmLockedByReset s then s else mkRSt (r_queue s) (PHold n) (r_reset s) (r_work s)
    | PHold n => mkRSt (r_queue s) (PLock n) (r_reset s) (r_work s)
    | _ => s
    end
  | EWork i b =>
    match nth_error (r_work s) i with
    | Some WPoll => if simLocked s then s else mkRSt (r_queue s) (r_proc s) (r_reset s) (setW i WSend (r_work s))
    | Some WSend => mkRSt (if b && (r_queue s <? 100)%nat then S (r_queue s) else r_queue s) (r_proc s) (r_reset s) (setW i WPoll (r_work s))
    | None => s
    end
  end.
Definition rRun (s : RS) (es : list REv) : RS := fold_left rStep es s.
(** A running simulation with n workloads. *)
Definition running (n : nat) : RS := mkRSt 0 PWait RIdle (repeat WPoll n).

(** ** The phases set by Reset and Disrupt *)
Section Phases.
Context {T : Type} {N : Num T}.
(** simulations/emerge/simulation/simulation.go:115-195 Reset: the phase handed to SetPhase for the i-th agent the
    range statement visits, of [n]. *)
Definition resetPhase (g : Goal) (n i : Z) : T :=
  let phaseStep := ndiv (nlit 628318 100000) (nofZ n) in
  match g with
  | MinimizeAPICalls | ReachConsensus | OtherGoal => nmul (nofZ i) phaseStep
  | DistributeLoad | SaveEnergy | AdaptToTraffic => n0
  | MinimizeLatency => if (Z.rem i 2 =? 0)%Z then n0 else nlit 314159 100000
  | MaintainRhythm => nmul (nofZ i) (nlit 17 10)
  | RecoverFromFailure => if (i <? Z.quot n 2)%Z then n0 else nlit 314159 100000
  end.
(** simulations/emerge/simulation/simulation.go:109-195 Reset, emerge/agent/agent.go:169-173 SetPhase: the phases of the n
    agents after Reset, in the order the range statement visits them. *)
Definition resetPhases (g : Goal) (n : nat) : list T :=
  map (fun i => WrapPhase (resetPhase g (Z.of_nat n) (Z.of_nat i))) (seq 0 n).
(** simulations/emerge/simulation/simulation.go:220-233 Disrupt: the phases afterwards, for the agents' phases in the
    order visited; agents after the first len/5 keep theirs. *)
Definition disruptPhases (ph : list T) : list T :=
  let k := Nat.div (List.length ph) 5 in
  map (fun p => WrapPhase (nadd p (nlit 314159 100000))) (firstn k ph) ++ skipn k ph.
End Phases.
