(** Model of the worker pool of emerge/swarm/swarm.go:631-674 as a transition system over schedules. *)
From Coq Require Import ZArith List Bool.
Import ListNotations.
Open Scope Z_scope.

(** A worker goroutine (swarm.go:654-664): waiting in its select, running a job, or returned. *)
Inductive Worker := Idle | Busy (j : nat) | Gone.
(** swarm.go:631-637 WorkerPool; [wp_done] lists the jobs whose call has returned, newest first.  Jobs are numbered by the
    caller; a job that panics (it would take the process down) is not modelled. *)
Record Pool := mkPool { wp_cap : nat; wp_queue : list nat; wp_workers : list Worker; wp_quit : bool; wp_done : list nat }.
(** swarm.go:640-652 NewWorkerPool: None = the panic of make for a negative size; a negative count starts none. *)
Definition NewWorkerPool (workers : Z) : option Pool :=
  if workers * 2 <? 0 then None
  else Some (mkPool (Z.to_nat (workers * 2)) [] (repeat Idle (Z.to_nat workers)) false []).
Fixpoint setw (l : list Worker) (i : nat) (w : Worker) : list Worker :=
  match l, i with
  | [], _ => []
  | _ :: r, O => w :: r
  | x :: r, S k => x :: setw r k w
  end.
(** The steps: a caller's Submit (swarm.go:667-669), a worker receiving from the queue, a worker's job returning, a worker
    choosing the closed quit channel (select is free to do so also when the queue is not empty), and Stop (672-674). *)
Inductive WAct := WSubmit (j : nat) | WTake (i : nat) | WFinish (i : nat) | WQuit (i : nat) | WStop.
(** The outcome of trying a step: it blocks (is not enabled), it panics, or it leads to a new state. *)
Inductive WRes := WBlocked | WPanic | WOK (p : Pool).
(** A send on a buffered channel needs room; with capacity 0 (no workers) there is never a receiver. *)
Definition wStep (p : Pool) (a : WAct) : WRes :=
  match a with
  | WSubmit j =>
    if (List.length (wp_queue p) <? wp_cap p)%nat
    then WOK (mkPool (wp_cap p) (wp_queue p ++ [j]) (wp_workers p) (wp_quit p) (wp_done p)) else WBlocked
  | WTake i =>
    match nth_error (wp_workers p) i, wp_queue p with
    | Some Idle, j :: q => WOK (mkPool (wp_cap p) q (setw (wp_workers p) i (Busy j)) (wp_quit p) (wp_done p))
    | _, _ => WBlocked
    end
  | WFinish i =>
    match nth_error (wp_workers p) i with
    | Some (Busy j) => WOK (mkPool (wp_cap p) (wp_queue p) (setw (wp_workers p) i Idle) (wp_quit p) (j :: wp_done p))
    | _ => WBlocked
    end
  | WQuit i =>
    match nth_error (wp_workers p) i, wp_quit p with
    | Some Idle, true => WOK (mkPool (wp_cap p) (wp_queue p) (setw (wp_workers p) i Gone) true (wp_done p))
    | _, _ => WBlocked
    end
  | WStop => if wp_quit p then WPanic else WOK (mkPool (wp_cap p) (wp_queue p) (wp_workers p) true (wp_done p))
  end.
(** A schedule: a list of steps, each enabled when its turn comes. *)
Fixpoint wRun (p : Pool) (l : list WAct) : WRes :=
  match l with
  | [] => WOK p
  | a :: r => match wStep p a with WOK p' => wRun p' r | x => x end
  end.
