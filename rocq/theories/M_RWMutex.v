(** Locking of emerge/monitoring/convergence.go (internal/emerge/convergence.go locks identically): sync.RWMutex as a
    transition system, and each method as the sequence of lock operations it performs. *)
From Coq Require Import List Bool Arith.
Import ListNotations.

(** One lock operation on m.mu. *)
Inductive LockOp := RLock | RUnlock | Lock | Unlock.
(** sync.RWMutex as documented: "if any goroutine calls Lock while the lock is already held by one or more readers,
    concurrent calls to RLock will block until the writer has acquired (and released) the lock".  [rw_pending] is the
    goroutine whose Lock has been called and waits for the readers; further Lock calls wait for it (the inner mutex). *)
Record RW := mkRW { rw_readers : nat; rw_writer : bool; rw_pending : option nat }.
(** The system: the lock and, for each goroutine, the lock operations it still has to perform. *)
Record LSys := mkLS { ls_rw : RW; ls_threads : list (list LockOp) }.
Definition upd {A} (l : list A) (i : nat) (x : A) : list A := firstn i l ++ x :: skipn (S i) l.

(** One step of goroutine [i] (None = it is blocked or has finished).  Lock takes two steps: announcing and acquiring.
    RUnlock of an unlocked mutex would be a fatal error; it is not enabled here and the programs below never do it. *)
Definition lockStep (s : LSys) (i : nat) : option LSys :=
  let rw := ls_rw s in
  match nth_error (ls_threads s) i with
  | Some (RLock :: p) =>
    match rw_pending rw, rw_writer rw with
    | None, false => Some (mkLS (mkRW (S (rw_readers rw)) false None) (upd (ls_threads s) i p))
    | _, _ => None
    end
  | Some (RUnlock :: p) =>
    match rw_readers rw with
    | S n => Some (mkLS (mkRW n (rw_writer rw) (rw_pending rw)) (upd (ls_threads s) i p))
    | O => None
    end
  | Some (Lock :: p) =>
    match rw_pending rw, rw_writer rw with
    | None, false => Some (mkLS (mkRW (rw_readers rw) false (Some i)) (ls_threads s))
    | Some j, false => if (Nat.eqb j i && Nat.eqb (rw_readers rw) 0)%bool
                       then Some (mkLS (mkRW 0 true None) (upd (ls_threads s) i p)) else None
    | _, true => None
    end
  | Some (Unlock :: p) => if rw_writer rw then Some (mkLS (mkRW (rw_readers rw) false (rw_pending rw)) (upd (ls_threads s) i p)) else None
  | _ => None
  end.
(** A schedule: which goroutine moves next. *)
Fixpoint lockRun (s : LSys) (l : list nat) : option LSys :=
  match l with
  | [] => Some s
  | i :: r => match lockStep s i with Some s' => lockRun s' r | None => None end
  end.
Definition lockStart (progs : list (list LockOp)) : LSys := mkLS (mkRW 0 false None) progs.

(** The methods and the lock operations they perform. *)
Inductive Call :=
| CRecord | CReset                                             (* convergence.go:41-65, 263-274 *)
| CIsConverged | CConvergenceTime | CCurrentCoherence          (* convergence.go:68-95 *)
| CConvergenceRate | CStability | CHistory                     (* convergence.go:99-171, 205-212 *)
| CPredict (converged growing : bool)                          (* convergence.go:175-202: the path taken *)
| CStatistics (converged growing : bool).                      (* convergence.go:215-260 *)
(** A method that only reads under one lock, and one that writes. *)
Definition readProg : list LockOp := [RLock; RUnlock].
Definition writeProg : list LockOp := [Lock; Unlock].
(** convergence.go:175-202 PredictConvergenceTime: holds the read lock while calling ConvergenceRate (188) and
    CurrentCoherence (193), which lock again; it returns early when converged or when the rate is not positive. *)
Definition predictProg (converged growing : bool) : list LockOp :=
  [RLock] ++ (if converged then [] else readProg ++ (if growing then readProg else [])) ++ [RUnlock].
(** convergence.go:215-260 Statistics: holds the read lock while calling CurrentCoherence, ConvergenceRate, Stability and
    PredictConvergenceTime. *)
Definition callProg (c : Call) : list LockOp :=
  match c with
  | CRecord | CReset => writeProg
  | CIsConverged | CConvergenceTime | CCurrentCoherence | CConvergenceRate | CStability | CHistory => readProg
  | CPredict cv gr => predictProg cv gr
  | CStatistics cv gr => [RLock] ++ readProg ++ readProg ++ readProg ++ predictProg cv gr ++ [RUnlock]
  end.
(** A goroutine that makes the given calls one after another. *)
Definition goroutine (cs : list Call) : list LockOp := flat_map callProg cs.
