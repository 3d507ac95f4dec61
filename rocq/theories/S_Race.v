(** Executions of goroutines, the happens-before order of the Go memory model and data races. *)
From Coq Require Import List Arith.
From Verif Require Import M_Race.
Import ListNotations.

(** Goroutines: those of the application, and those that are started to run a synchronisation. *)
Inductive Tid := App (n : nat) | Sync (k : nat).
Definition tid_eq (a b : Tid) : {a = b} + {a <> b}.
Proof. decide equality; apply Nat.eq_dec. Defined.
Definition mut_eq (a b : Mut) : {a = b} + {a <> b}.
Proof. decide equality; apply Nat.eq_dec. Defined.
(** An execution: which goroutine did what, in order. *)
Definition Exec := list (Tid * Op).

(** Who holds which lock. *)
Record Held := mkHeld { wr : Mut -> option Tid; rds : Mut -> Tid -> nat }.
Definition none : Held := mkHeld (fun _ => None) (fun _ _ => 0).
Definition setW (h : Held) (m : Mut) (w : option Tid) : Held :=
  mkHeld (fun x => if mut_eq x m then w else wr h x) (rds h).
Definition setR (h : Held) (m : Mut) (t : Tid) (k : nat) : Held :=
  mkHeld (wr h) (fun x u => if mut_eq x m then if tid_eq u t then k else rds h x u else rds h x u).
(** sync.RWMutex: one writer or any number of readers. *)
Definition allowed (h : Held) (t : Tid) (o : Op) : Prop :=
  match o with
  | RLk m => wr h m = None
  | Lk m => wr h m = None /\ forall u, rds h m u = 0
  | RUl m => 0 < rds h m t
  | Ul m => wr h m = Some t
  | _ => True
  end.
Definition after (h : Held) (e : Tid * Op) : Held :=
  match snd e with
  | RLk m => setR h m (fst e) (S (rds h m (fst e)))
  | RUl m => setR h m (fst e) (pred (rds h m (fst e)))
  | Lk m => setW h m (Some (fst e))
  | Ul m => setW h m None
  | _ => h
  end.
Definition heldAt (ex : Exec) (i : nat) : Held := fold_left after (firstn i ex) none.

(** What can happen: locks exclude, a started goroutine acts after it was started, a value is received after it was
    sent, and every goroutine [t] has done an initial part of its program. *)
Definition done (t : Tid) (ex : Exec) : list Op := map snd (filter (fun e => if tid_eq (fst e) t then true else false) ex).
Record possible (prog : Tid -> list Op) (ex : Exec) : Prop := {
  p_lock : forall i t o, nth_error ex i = Some (t, o) -> allowed (heldAt ex i) t o;
  p_go : forall i k o, nth_error ex i = Some (Sync k, o) -> exists j u, j < i /\ nth_error ex j = Some (u, Go k);
  p_chan : forall i t k, nth_error ex i = Some (t, Recv k) -> exists j u, j < i /\ nth_error ex j = Some (u, Send k);
  p_prog : forall t, exists rest, prog t = done t ex ++ rest }.

(** Happens before: program order; an unlock before a later lock; the go statement before the goroutine; the send before
    the receive. *)
Inductive before (ex : Exec) : nat -> nat -> Prop :=
| b_prog i j t a b : i < j -> nth_error ex i = Some (t, a) -> nth_error ex j = Some (t, b) -> before ex i j
| b_unlock i j t u m o : i < j -> nth_error ex i = Some (t, Ul m) -> nth_error ex j = Some (u, o) ->
    o = Lk m \/ o = RLk m -> before ex i j
| b_runlock i j t u m : i < j -> nth_error ex i = Some (t, RUl m) -> nth_error ex j = Some (u, Lk m) -> before ex i j
| b_go i j t k o : i < j -> nth_error ex i = Some (t, Go k) -> nth_error ex j = Some (Sync k, o) -> before ex i j
| b_chan i j t u k : i < j -> nth_error ex i = Some (t, Send k) -> nth_error ex j = Some (u, Recv k) -> before ex i j
| b_trans i j k : before ex i j -> before ex j k -> before ex i k.

(** A data race: two accesses to the same memory by different goroutines, at least one of them a write, not ordered. *)
Definition access (o : Op) (l : Loc) : Prop := o = Rd l \/ o = Wr l.
Definition race (ex : Exec) (l : Loc) : Prop :=
  exists i j t u a b, i < j /\ nth_error ex i = Some (t, a) /\ nth_error ex j = Some (u, b) /\ t <> u
    /\ access a l /\ access b l /\ (a = Wr l \/ b = Wr l) /\ ~ before ex i j.

(** A goroutine can take its next step, given who has called Lock and waits: a waiting writer keeps new readers out. *)
Definition canStep (h : Held) (waiting : Tid -> option Mut) (t : Tid) (o : Op) : Prop :=
  allowed h t o /\ forall m, o = RLk m -> forall u, waiting u <> Some m.
