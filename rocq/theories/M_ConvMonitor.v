(** Model of emerge/convergence/monitor.go (the monitor of the goal-directed synchroniser). *)
From Coq Require Import ZArith List Bool String.
From Verif Require Import Num M_Core M_Monitor.
Import ListNotations.
Open Scope num_scope.

Section ConvMonitor.
Context {T : Type} {N : Num T}.

(** emerge/convergence/monitor.go:24-30 Sample. *)
Record Sample := mkSample { sm_ts : Z; sm_dist : T; sm_coh : T; sm_vel : T; sm_acc : T }.
(** emerge/convergence/monitor.go:14-21 Monitor; the stuck counter is an int32. *)
Record GMon := mkGMon {
  gm_hist : list Sample; gm_win : nat; gm_target : option (TargetPattern T); gm_conv : bool; gm_stuck : Z }.
(** emerge/convergence/monitor.go:33-41 NewMonitor. *)
Definition NewMonitor (w : Z) : GMon := mkGMon [] (Z.to_nat (if (w <=? 0)%Z then 10 else w)) None false 0.
(** emerge/convergence/monitor.go:44-46 SetTarget. *)
Definition SetTarget (m : GMon) (t : option (TargetPattern T)) : GMon :=
  mkGMon (gm_hist m) (gm_win m) t (gm_conv m) (gm_stuck m).
(** emerge/convergence/monitor.go:221-227 getRecentSamples. *)
Definition recent (m : GMon) : list Sample := lastn (gm_win m) (gm_hist m).
(** emerge/convergence/monitor.go:230-258 calculateTrend. *)
Definition calculateTrend (data : list T) : T :=
  if (List.length data <? 2)%nat then n0
  else
    let n := nofZ (Z.of_nat (List.length data)) in
    let s := regSums data in
    let denominator := n * rs_x2 s - rs_x s * rs_x s in
    if nabs denominator <? nlit 1 10000000000 then n0
    else (n * rs_xy s - rs_x s * rs_y s) / denominator.
(** atomic.Int32.Add(1). *)
Definition inc32 (z : Z) : Z := ((z + 1 + 2 ^ 31) mod 2 ^ 32 - 2 ^ 31)%Z.
(** emerge/convergence/monitor.go:186-218 updateConvergenceStatus. *)
Definition updateStatus (m : GMon) : GMon :=
  if (List.length (gm_hist m) <? 3)%nat then mkGMon (gm_hist m) (gm_win m) (gm_target m) false (gm_stuck m)
  else if (List.length (recent m) <? 3)%nat then mkGMon (gm_hist m) (gm_win m) (gm_target m) false (gm_stuck m)
  else
    let trend := calculateTrend (map sm_dist (recent m)) in
    mkGMon (gm_hist m) (gm_win m) (gm_target m) (trend <? - nlit 1 1000)
      (if nabs trend <? nlit 1 1000 then inc32 (gm_stuck m) else 0%Z).
(** emerge/convergence/monitor.go:49-89 RecordSample at time [now]. *)
Definition newSample (m : GMon) (now : Z) (cur : option (TargetPattern T)) (coh : T) : Sample :=
  let distance := PatternDistance cur (gm_target m) in
  match rev (gm_hist m) with
  | [] => mkSample now distance coh n0 n0
  | l :: _ =>
    let dt := durSeconds (now - sm_ts l) in
    if dt >? n0 then
      let velocity := (distance - sm_dist l) / dt in
      let acceleration := if (1 <? List.length (gm_hist m))%nat then (velocity - sm_vel l) / dt else n0 in
      mkSample now distance coh velocity acceleration
    else mkSample now distance coh n0 n0
  end.
Definition GRecord (m : GMon) (now : Z) (cur : option (TargetPattern T)) (coh : T) : GMon :=
  let h := gm_hist m ++ [newSample m now cur coh] in
  let h' := if (gm_win m * 2 <? List.length h)%nat then lastn (gm_win m) h else h in
  updateStatus (mkGMon h' (gm_win m) (gm_target m) (gm_conv m) (gm_stuck m)).
(** emerge/convergence/monitor.go:92-94 IsConverging, 97-99 IsStuck. *)
Definition IsConverging (m : GMon) : bool := gm_conv m.
Definition IsStuck (m : GMon) : bool := (5 <? gm_stuck m)%Z.
(** emerge/convergence/monitor.go:102-125 GetProgress. *)
Definition GetProgress (m : GMon) : T :=
  match gm_hist m with
  | [] => n0
  | s0 :: _ =>
    let initialDistance := sm_dist s0 in
    let currentDistance := sm_dist (last (gm_hist m) s0) in
    if initialDistance <=? n0 then n1
    else nmax n0 (nmin n1 (n1 - currentDistance / initialDistance))
  end.
(** emerge/convergence/monitor.go:128-156 GetConvergenceRate. *)
Definition GetConvergenceRate (m : GMon) : T :=
  if (List.length (gm_hist m) <? 2)%nat then n0
  else
    let vs := filter (fun v => negb (v =? n0)) (map sm_vel (recent m)) in
    match vs with [] => n0 | _ => nsum vs / nofZ (Z.of_nat (List.length vs)) end.
(** emerge/convergence/monitor.go:159-183 ShouldSwitchStrategy. *)
Definition ShouldSwitchStrategy (m : GMon) : bool :=
  if (List.length (gm_hist m) <? 3)%nat then false
  else if (List.length (recent m) <? 3)%nat then false
  else
    let stuck := List.length (filter (fun s => sm_vel s >=? - nlit 1 1000) (recent m)) in
    nofZ (Z.of_nat stuck) >? nofZ (Z.of_nat (List.length (recent m))) * nlit 7 10.
(** emerge/convergence/monitor.go:261-267 Reset. *)
Definition GReset (m : GMon) : GMon := mkGMon [] (gm_win m) (gm_target m) false 0.

(** A history of mutating calls. *)
Inductive GOp := GRec (now : Z) (cur : option (TargetPattern T)) (coh : T) | GRes.
Definition gStep (m : GMon) (o : GOp) : GMon :=
  match o with GRec now cur coh => GRecord m now cur coh | GRes => GReset m end.
Definition gRun (m : GMon) (l : list GOp) : GMon := fold_left gStep l m.
End ConvMonitor.
Arguments Sample : clear implicits.
Arguments GMon : clear implicits.
Arguments GOp : clear implicits.
