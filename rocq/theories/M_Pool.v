(** Model of emerge/agent/pool.go. *)
From Coq Require Import ZArith List Bool String.
From Verif Require Import Num M_Core M_Random M_Resource M_Strategy M_Agent.
Import ListNotations.
Open Scope num_scope.

Section Pool.
Context {T : Type} {N : Num T}.

(** An *Agent as the pool sees it (emerge/agent/agent.go:31-56): [pa_cells] is false when the
    pointers [state] and [behavior] are nil; [pa_map] are the keys of the sync.Map [neighbors];
    [pa_opt] the keys of [optimizedNeighbors] (None = nil pointer). *)
Record PAgent := mkPA { pa_cells : bool; pa_ag : Agent T; pa_map : list string; pa_opt : option (list string) }.

(** emerge/agent/pool.go:15-21 Pool.New: &Agent{}. *)
Definition zeroAgent : PAgent :=
  mkPA false (mkAgent "" (mkSD n0 n0 n0 0) (mkBD n0 n0) ctx0 0 0 false false None None) [] None.

(** emerge/agent/pool.go:84-112 Reset with random draws [b1..b4]; None = nil-pointer panic of
    AtomicState.Store.  The map is emptied by deleting every key visited. *)
Definition Reset (id : string) (b1 b2 b3 b4 : Z) (p : PAgent) : option PAgent :=
  if pa_cells p then
    let a := pa_ag p in
    Some (mkPA true
      (mkAgent id (mkSD (RandPhase b1) (nofZ 100) (RandPhase b2) (100 * 1000000)%Z)
         (mkBD (nlit 1 10 + Float64 b3 * nlit 1 10) (Float64 b4 * nlit 3 10)) ctx0
         (ag_swarm a) (ag_maxn a) true (ag_goalmgr a) (ag_res a) (ag_strat a)) [] (pa_opt p))
  else None.

(** emerge/agent/pool.go:115-126 Clear. *)
Definition ClearAgent (p : PAgent) : PAgent :=
  let a := pa_ag p in
  mkPA (pa_cells p)
    (mkAgent "" (ag_sd a) (ag_bd a) ctx0 (ag_swarm a) (ag_maxn a) (ag_decider a) (ag_goalmgr a)
       (ag_res a) (ag_strat a)) [] (pa_opt p).

(** emerge/agent/pool.go:27-38 PoolManager and PoolStats. *)
Record PoolState := mkPool { pl_items : list PAgent; pl_gets : Z; pl_puts : Z; pl_news : Z; pl_inUse : Z }.
Definition emptyPool : PoolState := mkPool [] 0 0 0 0.

(** emerge/agent/pool.go:41-59 Get.  sync.Pool hands out any stored object or a new one:
    [choice] = Some k takes the k-th stored object, None calls New. *)
Definition Get (choice : option nat) (id : string) (b1 b2 b3 b4 : Z) (s : PoolState)
  : PoolState * option PAgent :=
  let '(a, rest) := match choice with
    | Some k => match nth_error (pl_items s) k with
                | Some a => (a, firstn k (pl_items s) ++ skipn (S k) (pl_items s))
                | None => (zeroAgent, pl_items s)
                end
    | None => (zeroAgent, pl_items s)
    end in
  let isNew := String.eqb (ag_id (pa_ag a)) "" in
  (mkPool rest (pl_gets s + 1) (pl_puts s) (if isNew then pl_news s + 1 else pl_news s)%Z
          (pl_inUse s + 1)%Z, Reset id b1 b2 b3 b4 a).

(** emerge/agent/pool.go:62-73 Put (None = nil argument). *)
Definition Put (a : option PAgent) (s : PoolState) : PoolState :=
  match a with
  | None => s
  | Some a => mkPool (ClearAgent a :: pl_items s) (pl_gets s) (pl_puts s + 1) (pl_news s) (pl_inUse s - 1)
  end.

(** A history: gets, puts of any agent in any condition (returned by an earlier Get, used in
    any way, or made elsewhere), and objects dropped by the garbage collector. *)
Inductive PoolOp :=
| POGet (choice : option nat) (id : string) (b1 b2 b3 b4 : Z) | POPut (a : option PAgent) | PODrop.
Definition poolStep (s : PoolState) (o : PoolOp) : PoolState :=
  match o with
  | POGet c id b1 b2 b3 b4 => fst (Get c id b1 b2 b3 b4 s)
  | POPut a => Put a s
  | PODrop => mkPool [] (pl_gets s) (pl_puts s) (pl_news s) (pl_inUse s)
  end.
Definition poolRun (l : list PoolOp) : PoolState := fold_left poolStep l emptyPool.
End Pool.
Arguments PAgent : clear implicits.
Arguments PoolState : clear implicits.
Arguments PoolOp : clear implicits.
