(** Model of emerge/swarm/limits.go. *)
From Coq Require Import ZArith List Bool String.
From Flocq Require Import IEEE754.BinarySingleNaN.
From Verif Require Import Num F64.
Import ListNotations.
Open Scope num_scope.

Section Limits.
Context {T : Type} {N : Num T}.

(** emerge/swarm/limits.go:8-12 CoherenceLimits. *)
Record CoherenceLimits := mkLim { lim_theo : T; lim_prac : T; lim_rec : T }.

(** emerge/swarm/limits.go:16-77 GetCoherenceLimits. *)
Definition GetCoherenceLimits (swarmSize : Z) : CoherenceLimits :=
  if (swarmSize <=? 0)%Z then mkLim n0 n0 n0
  else if (swarmSize =? 1)%Z then mkLim n1 n1 n1
  else if (swarmSize <? 5)%Z then mkLim (nlit 95 100) (nlit 85 100) (nlit 75 100)
  else if (swarmSize <? 10)%Z then mkLim (nlit 98 100) (nlit 92 100) (nlit 85 100)
  else if (swarmSize <? 20)%Z then mkLim (nlit 99 100) (nlit 95 100) (nlit 90 100)
  else if (swarmSize <? 50)%Z then mkLim (nlit 995 1000) (nlit 97 100) (nlit 92 100)
  else if (swarmSize <? 100)%Z then mkLim (nlit 998 1000) (nlit 98 100) (nlit 95 100)
  else mkLim (nlit 999 1000) (nlit 99 100) (nlit 97 100).

(** emerge/swarm/limits.go:81-97 GetMinimumSwarmSize. *)
Definition GetMinimumSwarmSize (t : T) : Z :=
  if t >=? nlit 99 100 then 100%Z
  else if t >=? nlit 97 100 then 50%Z
  else if t >=? nlit 95 100 then 20%Z
  else if t >=? nlit 90 100 then 10%Z
  else if t >=? nlit 85 100 then 5%Z
  else 2%Z.

(** emerge/swarm/limits.go:130-149 ValidateCoherenceTarget. *)
Definition ValidateCoherenceTarget (swarmSize : Z) (t : T) : T * string :=
  let limits := GetCoherenceLimits swarmSize in
  if t >? lim_theo limits then
    (lim_theo limits, "Target coherence exceeds theoretical maximum for this swarm size"%string)
  else if t >? lim_prac limits then (t, "Target coherence may not be achievable in reasonable time"%string)
  else if t >? lim_rec limits then (t, "Target coherence is ambitious for this swarm size"%string)
  else (t, ""%string).
End Limits.
Arguments CoherenceLimits : clear implicits.

(** emerge/swarm/limits.go:101-126 GetConvergenceTimeFactor (floats only: it returns
    math.Inf(1)). *)
Definition GetConvergenceTimeFactor (tr : Trig) (swarmSize : Z) (t : F) : F :=
  let N := FNum tr in
  let limits := GetCoherenceLimits swarmSize in
  if t >? lim_prac limits then finf
  else if lim_prac limits <=? n0 then n1
  else
    let utilization := t / lim_prac limits in
    if utilization <? nlit 8 10 then n1
    else if utilization <? nlit 9 10 then nofZ 2
    else if utilization <? nlit 95 100 then nofZ 4
    else nofZ 8.
