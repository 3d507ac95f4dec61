(** Interleaving model of emerge/agent/atomic_state.go: goroutines sharing one AtomicState
    (or AtomicBehavior).  One step is one access of the atomic.Value; which goroutine moves is
    chosen by the schedule (a list of goroutine numbers), so a statement for all schedules is
    a statement for all interleavings.  atomic.Value itself is trusted to be linearizable. *)
From Coq Require Import ZArith List Bool String.
From Verif Require Import Num M_Core M_Strategy M_Agent.
Import ListNotations.

Section Atomic.
Context {S : Type}.

(** What a goroutine does next.
    [CLoad]: emerge/agent/atomic_state.go:35-42 Load.  [CStore]: 45-47 Store.
    [CUpdate f]: 52-56 Update, a Load followed by a separate Store of the modified copy.
    [CGuarded g f]: emerge/agent/agent.go:441-467, a Load for the energy check, then Update. *)
Inductive Cmd := CLoad | CStore (v : S) | CUpdate (f : S -> S) | CGuarded (g : S -> bool) (f : S -> S).
(** Inside a command: the copy loaded by Update is held ([Loaded]), or the check of a guarded
    update has passed and its Update has not yet loaded ([Passed]). *)
Inductive Pc := Idle | Loaded (old : S) (f : S -> S) | Passed (f : S -> S).
Record Thread := mkTh { th_pc : Pc; th_prog : list Cmd }.
Inductive Event := ERead (i : nat) (v : S) | EWrite (i : nat) (v : S) | ERefused (i : nat).
(** The shared value, the goroutines, and the events so far (latest first). *)
Record Conf := mkConf { cf_cell : S; cf_threads : nat -> Thread; cf_log : list Event }.

Definition setTh (ts : nat -> Thread) (i : nat) (t : Thread) : nat -> Thread :=
  fun j => if Nat.eqb j i then t else ts j.

(** Goroutine [i] performs its next atomic access (nothing if it is finished). *)
Definition step (c : Conf) (i : nat) : Conf :=
  let v := cf_cell c in
  let ts := cf_threads c in
  let t := ts i in
  match th_pc t, th_prog t with
  | Loaded old f, p => mkConf (f old) (setTh ts i (mkTh Idle p)) (EWrite i (f old) :: cf_log c)
  | Passed f, p => mkConf v (setTh ts i (mkTh (Loaded v f) p)) (ERead i v :: cf_log c)
  | Idle, [] => c
  | Idle, CLoad :: p => mkConf v (setTh ts i (mkTh Idle p)) (ERead i v :: cf_log c)
  | Idle, CStore w :: p => mkConf w (setTh ts i (mkTh Idle p)) (EWrite i w :: cf_log c)
  | Idle, CUpdate f :: p => mkConf v (setTh ts i (mkTh (Loaded v f) p)) (ERead i v :: cf_log c)
  | Idle, CGuarded g f :: p =>
    if g v then mkConf v (setTh ts i (mkTh (Passed f) p)) (ERead i v :: cf_log c)
    else mkConf v (setTh ts i (mkTh Idle p)) (ERefused i :: ERead i v :: cf_log c)
  end.
Definition run (c : Conf) (sched : list nat) : Conf := fold_left step sched c.
Definition start (v : S) (progs : nat -> list Cmd) : Conf :=
  mkConf v (fun i => mkTh Idle (progs i)) [].
End Atomic.
Arguments Cmd : clear implicits.
Arguments Pc : clear implicits.
Arguments Thread : clear implicits.
Arguments Event : clear implicits.
Arguments Conf : clear implicits.

Section AgentCmds.
Context {T : Type} {N : Num T}.
Open Scope num_scope.
(** The accesses of the agent's AtomicState made by the public methods (emerge/agent/agent.go:
    163-209 getters and setters, 440-472 ApplyAction). *)
Inductive StateOp := RGet | RSetPhase (p : T) | RSetFrequency (f : Z) | RSetEnergy (e : T)
                   | RSetLocalGoal (g : T) | RApply (act : Action T).
Definition opCmds (o : StateOp) : list (Cmd (StateData T)) :=
  match o with
  | RGet => [CLoad]
  | RSetPhase p => [CUpdate (fPhase p)]
  | RSetFrequency f => [CUpdate (fFreq f)]
  | RSetEnergy e => [CUpdate (fEnergy e)]
  | RSetLocalGoal g => [CUpdate (fGoal g)]
  | RApply act =>
    let guard := fun s => negb (ac_cost act >? sd_energy s) in
    if phaseAction (ac_type act) then [CGuarded guard (fMoveSpend (ac_value act) (ac_cost act))]
    else if String.eqb (ac_type act) "maintain" then [CGuarded guard (fSpend (ac_cost act))]
    else [CLoad]
  end.
Definition opProg (l : list StateOp) : list (Cmd (StateData T)) := flat_map opCmds l.
End AgentCmds.
Arguments StateOp : clear implicits.
