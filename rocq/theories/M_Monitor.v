(** Model of emerge/monitoring/convergence.go and emerge/monitoring/monitor.go: the single-threaded
    meaning of each method (the locking is in M_RWMutex.v).  internal/emerge/convergence.go and
    internal/emerge/metrics.go have the same code (only comments and the constructors' names differ).  [now] is the result of time.Now() in ns. *)
From Coq Require Import ZArith List Bool String.
From Verif Require Import Num M_Core.
Import ListNotations.
Open Scope num_scope.

Section Monitor.
Context {T : Type} {N : Num T}.

(** time.Duration.Seconds (Go standard library): float64(d/1e9) + float64(d%1e9)/1e9. *)
Definition durSeconds (d : Z) : T :=
  nofZ (Z.quot d 1000000000) + nofZ (Z.rem d 1000000000) / nofZ 1000000000.

(** The four sums of the linear-regression loops (emerge/monitoring/convergence.go:114-121,
    emerge/convergence/monitor.go:234-240): x = 0, 1, 2, ... *)
Record RegSums := mkRS { rs_x : T; rs_y : T; rs_xy : T; rs_x2 : T }.
Fixpoint regLoop (i : Z) (l : list T) (s : RegSums) : RegSums :=
  match l with
  | [] => s
  | y :: r =>
    let x := nofZ i in
    regLoop (i + 1) r (mkRS (rs_x s + x) (rs_y s + y) (rs_xy s + x * y) (rs_x2 s + x * x))
  end.
Definition regSums (l : list T) : RegSums := regLoop 0 l (mkRS n0 n0 n0 n0).
(** The last [k] elements: history[len(history)-k:]. *)
Definition lastn {A} (k : nat) (l : list A) : list A := skipn (List.length l - k) l.

(** emerge/monitoring/convergence.go:13-26 ConvergenceMonitor. *)
Record CM := mkCM {
  cm_hist : list T; cm_ts : list Z; cm_goal : State T; cm_at : T;
  cm_start : Z; cm_conv : option Z; cm_max : T; cm_min : T }.
(** emerge/monitoring/convergence.go:29-39 NewConvergence. *)
Definition NewConvergence (target : State T) (thr : T) (now : Z) : CM :=
  mkCM [] [] target thr now None n0 n1.
(** emerge/monitoring/convergence.go:42-65 Record. *)
Definition CMRecord (m : CM) (now : Z) (c : T) : CM :=
  mkCM (cm_hist m ++ [c]) (cm_ts m ++ [now]) (cm_goal m) (cm_at m) (cm_start m)
    (match cm_conv m with
     | None => if c >=? cm_at m then Some now else None
     | Some t => if c <? cm_at m then None else Some t
     end)
    (if c >? cm_max m then c else cm_max m)
    (if c <? cm_min m then c else cm_min m).
(** emerge/monitoring/convergence.go:68-72 IsConverged. *)
Definition CMIsConverged (m : CM) : bool := match cm_conv m with Some _ => true | None => false end.
(** emerge/monitoring/convergence.go:76-84 ConvergenceTime. *)
Definition CMConvergenceTime (m : CM) : Z := match cm_conv m with None => 0 | Some t => t - cm_start m end.
(** emerge/monitoring/convergence.go:87-95 CurrentCoherence. *)
Definition CMCurrent (m : CM) : T := last (cm_hist m) n0.
(** emerge/monitoring/convergence.go:99-131 ConvergenceRate. *)
Definition CMRate (m : CM) : T :=
  if (List.length (cm_hist m) <? 2)%nat then n0
  else
    let samples := if (List.length (cm_hist m) <? 10)%nat then List.length (cm_hist m) else 10%nat in
    let s := regSums (lastn samples (cm_hist m)) in
    let n := nofZ (Z.of_nat samples) in
    (n * rs_xy s - rs_x s * rs_y s) / (n * rs_x2 s - rs_x s * rs_x s).
(** The variance loops of Stability and Statistics. *)
Definition meanOf (l : list T) : T := nsum l / nofZ (Z.of_nat (List.length l)).
Definition varianceOf (l : list T) : T :=
  fold_left (fun v x => v + (x - meanOf l) * (x - meanOf l)) l n0 / nofZ (Z.of_nat (List.length l)).
(** emerge/monitoring/convergence.go:135-170 Stability. *)
Definition CMStability (m : CM) : T :=
  if (List.length (cm_hist m) <? 2)%nat then n1
  else
    let samples := if (List.length (cm_hist m) <? 20)%nat then List.length (cm_hist m) else 20%nat in
    nexp (- nsqrt (varianceOf (lastn samples (cm_hist m))) * nofZ 10).
(** emerge/monitoring/convergence.go:174-202 PredictConvergenceTime. *)
Definition CMPredict (m : CM) : Z :=
  match cm_conv m with
  | Some _ => 0%Z
  | None =>
    let rate := CMRate m in
    if rate <=? n0 then 0%Z
    else
      let remaining := cm_at m - CMCurrent m in
      if remaining <=? n0 then 0%Z
      else ntrunc (remaining / rate * nofZ 100000000)
  end.
(** emerge/monitoring/convergence.go:205-212 History. *)
Definition CMHistory (m : CM) : list T := cm_hist m.
(** emerge/monitoring/convergence.go:215-260 Statistics: the string-keyed map as a record; an absent
    key is None. *)
Record CMStats := mkStats {
  cs_samples : Z; cs_current : T; cs_max : T; cs_min : T; cs_converged : bool; cs_target : T;
  cs_convtime : option T; cs_mean : option T; cs_stddev : option T; cs_rate : T; cs_stab : T; cs_pred : option T }.
Definition CMStatistics (m : CM) : CMStats :=
  let ne := match cm_hist m with [] => false | _ => true end in
  mkStats (Z.of_nat (List.length (cm_hist m))) (CMCurrent m) (cm_max m) (cm_min m) (CMIsConverged m) (cm_at m)
    (match cm_conv m with Some t => Some (durSeconds (t - cm_start m)) | None => None end)
    (if ne then Some (meanOf (cm_hist m)) else None)
    (if ne then Some (nsqrt (varianceOf (cm_hist m))) else None)
    (CMRate m) (CMStability m)
    (if (0 <? CMPredict m)%Z then Some (durSeconds (CMPredict m)) else None).
(** emerge/monitoring/convergence.go:263-273 Reset. *)
Definition CMReset (m : CM) (now : Z) : CM := mkCM [] [] (cm_goal m) (cm_at m) now None n0 n1.

(** A history of mutating calls. *)
Inductive CMOp := CMRec (now : Z) (c : T) | CMRes (now : Z).
Definition cmStep (m : CM) (o : CMOp) : CM := match o with CMRec now c => CMRecord m now c | CMRes now => CMReset m now end.
Definition cmRun (m : CM) (l : list CMOp) : CM := fold_left cmStep l m.

(** emerge/monitoring/monitor.go:10-13 Monitor, New: the deque is its list of elements. *)
Definition Mon := list T.
(** emerge/monitoring/monitor.go:23-31 RecordSample. *)
Definition MonRecord (m : Mon) (c : T) : Mon := (if (100 <=? List.length m)%nat then tl m else m) ++ [c].
(** emerge/monitoring/monitor.go:34-43 History. *)
Definition MonHistory (m : Mon) : list T := m.
(** emerge/monitoring/monitor.go:46-54 Latest. *)
Definition MonLatest (m : Mon) : T := match m with [] => n0 | _ => last m n0 end.
(** emerge/monitoring/monitor.go:57-70 Average. *)
Definition MonAverage (m : Mon) : T := match m with [] => n0 | _ => nsum m / nofZ (Z.of_nat (List.length m)) end.
Definition monRun (l : list T) : Mon := fold_left MonRecord l [].
End Monitor.
Arguments RegSums : clear implicits.
Arguments CM : clear implicits.
Arguments CMOp : clear implicits.
Arguments CMStats : clear implicits.
