(** Model of the batch manager and the metrics of the simulation
    (simulations/emerge/simulation/batch_manager.go, metrics.go).  Tasks are of any type [A].  Ints do not wrap;
    wall-clock readings are explicit arguments. *)
From Coq Require Import ZArith List Bool Arith.
From Verif Require Import Num.
Import ListNotations.

(** simulations/emerge/simulation/batch_manager.go:18 MaxBatchSize. *)
Definition MaxBatchSize : nat := 100.
(** simulations/emerge/simulation/batch_manager.go:147-159 splitIntoAPIBatches: the loop from index i; it runs at
    most len(tasks) times ([fuel]). *)
Fixpoint splitLoop {A} (fuel i : nat) (tasks : list A) : list (list A) :=
  match fuel with
  | O => []
  | S f => if (i <? length tasks)%nat then
             let e := if (length tasks <? i + MaxBatchSize)%nat then length tasks else (i + MaxBatchSize)%nat in
             firstn (e - i) (skipn i tasks) :: splitLoop f (i + MaxBatchSize) tasks
           else []
  end.
Definition splitIntoAPIBatches {A} (tasks : list A) : list (list A) := splitLoop (length tasks) 0 tasks.

Section Metrics.
Context {T : Type} {N : Num T}.
Open Scope num_scope.

(** simulations/emerge/simulation/metrics.go:12-32 MetricsCollector; [None] for convergedAt is the zero time. *)
Record Metrics := mkMetrics {
  m_calls : Z; m_batches : Z; m_tasks : Z; m_without : T; m_with : T;
  m_peak : T; m_converged : option Z; m_start : Z; m_sizes : list Z; m_largest : Z }.
(** simulations/emerge/simulation/metrics.go:48-53 NewMetricsCollector at time [now]. *)
Definition NewMetricsCollector (now : Z) : Metrics := mkMetrics 0 0 0 n0 n0 n0 None now [] 0.
(** simulations/emerge/simulation/metrics.go:56-74 RecordBatch. *)
Definition RecordBatch (m : Metrics) (size : Z) (individualCost batchedCost : T) : Metrics :=
  mkMetrics (m_calls m + size) (m_batches m + 1) (m_tasks m + size)
    (nadd (m_without m) individualCost) (nadd (m_with m) batchedCost)
    (m_peak m) (m_converged m) (m_start m) (m_sizes m ++ [size])
    (if (m_largest m <? size)%Z then size else m_largest m).
(** simulations/emerge/simulation/metrics.go:77-89 UpdateCoherence at time [now]. *)
Definition UpdateCoherence (m : Metrics) (coherence : T) (now : Z) : Metrics :=
  mkMetrics (m_calls m) (m_batches m) (m_tasks m) (m_without m) (m_with m)
    (if nlt (m_peak m) coherence then coherence else m_peak m)
    (match m_converged m with
     | None => if nle (nlit 7 10) coherence then Some now else None
     | Some t => Some t end)
    (m_start m) (m_sizes m) (m_largest m).
(** simulations/emerge/simulation/metrics.go:35-45 MetricsSnapshot. *)
Record MSnap := mkMSnap {
  sn_calls : Z; sn_batches : Z; sn_average : T; sn_without : T; sn_with : T; sn_savings : T; sn_percent : T;
  sn_peak : T; sn_converge : Z }.
(** simulations/emerge/simulation/metrics.go:92-121 Current. *)
Definition Current (m : Metrics) : MSnap :=
  let savings := nsub (m_without m) (m_with m) in
  mkMSnap (m_calls m) (m_batches m)
    (if (0 <? m_batches m)%Z then ndiv (nofZ (m_tasks m)) (nofZ (m_batches m)) else n0)
    (m_without m) (m_with m) savings
    (if nlt n0 (m_without m) then nmul (ndiv savings (m_without m)) (nofZ 100) else n0)
    (m_peak m)
    (match m_converged m with None => 0%Z | Some t => (t - m_start m)%Z end).
(** simulations/emerge/simulation/metrics.go:129-143 Reset at time [now]. *)
Definition ResetMetrics (m : Metrics) (now : Z) : Metrics := mkMetrics 0 0 0 n0 n0 n0 None now [] 0.

(** simulations/emerge/simulation/metrics.go:159-172 BatchSizeDistribution: the bin of a size (0: "1-10",
    1: "11-25", 2: "26-50", 3: "51-75", 4: "76-100"). *)
Definition binOf (size : Z) : nat :=
  if (size <=? 10)%Z then 0%nat else if (size <=? 25)%Z then 1%nat else if (size <=? 50)%Z then 2%nat
  else if (size <=? 75)%Z then 3%nat else 4%nat.
(** simulations/emerge/simulation/metrics.go:159-172 BatchSizeDistribution: one increment. *)
Fixpoint bump (k : nat) (d : list Z) : list Z :=
  match d, k with
  | [], _ => []
  | x :: r, O => (x + 1)%Z :: r
  | x :: r, S k' => x :: bump k' r
  end.
(** simulations/emerge/simulation/metrics.go:146-174 BatchSizeDistribution: the five counts. *)
Definition BatchSizeDistribution (m : Metrics) : list Z :=
  fold_left (fun d s => bump (binOf s) d) (m_sizes m) [0; 0; 0; 0; 0]%Z.

(** simulations/emerge/simulation/batch_manager.go:23-39 BatchManager: the statistics fields ([current] is never
    filled by the code). *)
Record Stats := mkStats { bs_total : Z; bs_time : Z; bs_size : Z }.
(** simulations/emerge/simulation/batch_manager.go:125-143 processCollectedBatch: one API batch, finished at time
    [now].  [CostPerCall * (1 - BatchDiscount)] is a constant expression, 0.015 exactly before rounding. *)
Definition processOne {A} (batch : list A) (now : Z) (st : Metrics * Stats) : Metrics * Stats :=
  let n := Z.of_nat (length batch) in
  let individualCost := nmul (nofZ n) (nlit 3 100) in
  let batchedCost := nlit 15 1000 in
  (RecordBatch (fst st) n individualCost batchedCost, mkStats (bs_total (snd st) + 1) now n).
(** simulations/emerge/simulation/batch_manager.go:117-144 processCollectedBatch; [clock i] is the time at which
    batch i was finished. *)
Definition processCollectedBatch {A} (tasks : list A) (clock : nat -> Z) (st : Metrics * Stats) : Metrics * Stats :=
  match tasks with
  | [] => st
  | _ => let bs := splitIntoAPIBatches tasks in
         fold_left (fun s p => processOne (snd p) (clock (fst p)) s) (combine (seq 0 (length bs)) bs) st
  end.
End Metrics.
Arguments Metrics : clear implicits.
Arguments MSnap : clear implicits.

Section Queue.
Context {A : Type}.
(** The queue of capacity 100, its submitters and the processing goroutine as a transition system.  A state holds
    the queued batches, where the processor is, and three ghost lists: the batches ever submitted, those put
    in the queue, and the API batches finished. *)
Inductive Proc :=
| Idle                              (* batch_manager.go:75-79: waiting in the outer select *)
| Collecting (c : list A)           (* batch_manager.go:98-113: in the collection loop *)
| Sending (bs : list (list A))      (* batch_manager.go:125: API batches still to send *)
| Stopped.                          (* batch_manager.go:77-78: returned *)
Record BM := mkBM { bm_queue : list (list A); bm_proc : Proc; bm_cancelled : bool;
                    bm_submitted : list (list A); bm_accepted : list (list A); bm_done : list (list A) }.
(** simulations/emerge/simulation/batch_manager.go:49-54 NewBatchManager, with the processor started. *)
Definition bm0 : BM := mkBM [] Idle false [] [] [].
(** simulations/emerge/simulation/batch_manager.go:51 the capacity of the queue. *)
Definition queueCap : nat := 100.

Inductive Ev :=
| Submit (b : list A)   (* SubmitBatch by any workload *)
| Take                  (* a receive from the queue by the processor *)
| Window                (* the collection timer fires *)
| Default               (* the default case of the collection loop *)
| SendOne               (* one API batch is processed *)
| Cancel                (* the context is cancelled *)
| Quit.                 (* the processor chooses ctx.Done() *)
(** simulations/emerge/simulation/batch_manager.go:58-71 SubmitBatch, 74-87 ProcessBatches, 90-114
    collectSynchronizedBatches, 117-144 processCollectedBatch; an event that is not possible leaves the state. *)
Definition bmStep (s : BM) (e : Ev) : BM :=
  match e with
  | Submit b =>
    if (length (bm_queue s) <? queueCap)%nat
    then mkBM (bm_queue s ++ [b]) (bm_proc s) (bm_cancelled s) (bm_submitted s ++ [b]) (bm_accepted s ++ [b]) (bm_done s)
    else mkBM (bm_queue s) (bm_proc s) (bm_cancelled s) (bm_submitted s ++ [b]) (bm_accepted s) (bm_done s)
  | Take =>
    match bm_queue s, bm_proc s with
    | b :: q, Idle => mkBM q (Collecting b) (bm_cancelled s) (bm_submitted s) (bm_accepted s) (bm_done s)
    | b :: q, Collecting c => mkBM q (Collecting (c ++ b)) (bm_cancelled s) (bm_submitted s) (bm_accepted s) (bm_done s)
    | _, _ => s
    end
  | Window =>
    match bm_proc s with
    | Collecting c => mkBM (bm_queue s) (Sending (splitIntoAPIBatches c)) (bm_cancelled s) (bm_submitted s) (bm_accepted s) (bm_done s)
    | _ => s
    end
  | Default =>
    match bm_queue s, bm_proc s with
    | [], Collecting c =>
      if (MaxBatchSize <=? length c)%nat
      then mkBM [] (Sending (splitIntoAPIBatches c)) (bm_cancelled s) (bm_submitted s) (bm_accepted s) (bm_done s) else s
    | _, _ => s
    end
  | SendOne =>
    match bm_proc s with
    | Sending [] => mkBM (bm_queue s) Idle (bm_cancelled s) (bm_submitted s) (bm_accepted s) (bm_done s)
    | Sending (b :: r) => mkBM (bm_queue s) (Sending r) (bm_cancelled s) (bm_submitted s) (bm_accepted s) (bm_done s ++ [b])
    | _ => s
    end
  | Cancel => mkBM (bm_queue s) (bm_proc s) true (bm_submitted s) (bm_accepted s) (bm_done s)
  | Quit =>
    match bm_proc s with
    | Idle => if bm_cancelled s then mkBM (bm_queue s) Stopped true (bm_submitted s) (bm_accepted s) (bm_done s) else s
    | _ => s
    end
  end.
Definition bmRun (s : BM) (es : list Ev) : BM := fold_left bmStep es s.
End Queue.
Arguments Proc : clear implicits.
Arguments BM : clear implicits.
Arguments Ev : clear implicits.
