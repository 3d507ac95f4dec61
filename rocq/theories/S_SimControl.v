(** Specification vocabulary for the control of a simulation. *)
From Coq Require Import List Arith Bool.
From Verif Require Import M_SimControl.
Import ListNotations.

(** The orders of Start, Pause and Resume of a user interface that starts once and then alternates pausing and resuming;
    everything else may happen at any time. *)
Inductive Mode := Unstarted | Running | Paused.
Inductive disciplined {T} : list (CEv T) -> Mode -> Prop :=
| d_nil : disciplined [] Unstarted
| d_start es : disciplined es Unstarted -> disciplined (es ++ [Start]) Running
| d_pause es : disciplined es Running -> disciplined (es ++ [Pause]) Paused
| d_resume es : disciplined es Paused -> disciplined (es ++ [Resume]) Running
| d_begin es m : disciplined es m -> disciplined (es ++ [Begin]) m
| d_return es m i : disciplined es m -> disciplined (es ++ [Return i]) m
| d_change es m f : disciplined es m -> disciplined (es ++ [Change f]) m.

(** Nobody pauses or resumes. *)
Definition no_toggle {T} (es : list (CEv T)) : Prop := Forall (fun e => e <> Pause /\ e <> Resume) es.

(** Reset has been called and has not returned. *)
Definition resetting (s : RS) : Prop := r_reset s <> RIdle /\ r_reset s <> RDone.
(** Reset will never return, whatever happens next. *)
Definition hangs (s : RS) : Prop := resetting s /\ forall es, r_reset (rRun s es) <> RDone.
(** The schedule in which the processor never takes a batch while Reset is between its length check and its receive. *)
Fixpoint no_theft (s : RS) (es : list REv) : Prop :=
  match es with
  | [] => True
  | e :: r => (e = EProcTake -> r_reset s <> RRecv) /\ no_theft (rStep s e) r
  end.
(** How many steps Reset gets at moments at which the processor does not hold the manager's mutex. *)
Fixpoint reset_turns (s : RS) (es : list REv) : nat :=
  match es with
  | [] => 0
  | e :: r => (match e with EReset => if bmLockedByProc s then 0 else 1 | _ => 0 end) + reset_turns (rStep s e) r
  end.
(** Workloads that passed the pause check and may still submit. *)
Definition sending (s : RS) : nat := List.length (filter (fun w => match w with WSend => true | _ => false end) (r_work s)).
(** A round in which everybody gets a turn: Reset at a moment at which the processor does not hold the manager's mutex,
    and every workload. *)
Definition fair_round (s : RS) (r : list REv) : Prop :=
  1 <= reset_turns s r /\ forall i, i < List.length (r_work s) -> exists b, In (EWork i b) r.
(** A sequence of such rounds. *)
Fixpoint fair (s : RS) (rounds : list (list REv)) : Prop :=
  match rounds with [] => True | r :: rs => fair_round s r /\ fair (rRun s r) rs end.
(** How often a launched goroutine is scheduled. *)
Definition begins {T} (es : list (CEv T)) : nat := List.length (filter (fun e => match e with Begin => true | _ => false end) es).
