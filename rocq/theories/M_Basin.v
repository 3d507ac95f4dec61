(** Model of internal/emerge/basin.go. *)
From Coq Require Import ZArith List Bool.
From Verif Require Import Num M_Core.
Open Scope num_scope.

Section Basin.
Context {T : Type} {N : Num T}.

(** internal/emerge/basin.go:12-16 AttractorBasin. *)
Record Basin := mkBasin { ba_target : State T; ba_strength : T; ba_radius : T }.
(** internal/emerge/basin.go:19-32 NewAttractorBasin. *)
Definition NewBasin (target : State T) (strength radius : T) : Basin :=
  let s := if strength <? n0 then n0 else if strength >? n1 then n1 else strength in
  mkBasin target s radius.
(** internal/emerge/basin.go:40-46 DistanceToTarget. *)
Definition DistanceToTarget (b : Basin) (s : State T) : T :=
  nabs (nrem (st_phase s - st_phase (ba_target b)) n2pi).
(** internal/emerge/basin.go:35-37 IsInBasin. *)
Definition IsInBasin (b : Basin) (s : State T) : bool := DistanceToTarget b s <=? ba_radius b.
(** internal/emerge/basin.go:51-69 AttractionForce. *)
Definition AttractionForce (b : Basin) (s : State T) : T :=
  let distance := DistanceToTarget b s in
  if distance >? ba_radius b then n0
  else
    let normalizedDist := distance / ba_radius b in
    if (st_phase s <? n0) && (st_phase (ba_target b) >? n0)
    then ba_strength b * (n1 - normalizedDist) * nofZ 2
    else ba_strength b * (n1 - normalizedDist).
(** internal/emerge/basin.go:72-94 ConvergenceRate (the difference of the frequencies is taken to fit in an int64). *)
Definition BasinRate (b : Basin) (s : State T) : T :=
  if ba_radius b =? n0 then n0
  else
    let distance := DistanceToTarget b s in
    if distance >=? ba_radius b then n0
    else
      let force := AttractionForce b s in
      let freqDiff := nabs (nofZ (st_freq s - st_freq (ba_target b))) in
      let maxFreq := nmax (nofZ (st_freq s)) (nofZ (st_freq (ba_target b))) in
      let freqAlignment := if maxFreq >? n0 then n1 - freqDiff / maxFreq else n1 in
      force * freqAlignment.
(** internal/emerge/basin.go:97-112 OptimalAdjustment. *)
Definition OptimalAdjustment (b : Basin) (cur : State T) : T :=
  let diff := PhaseDifference (st_phase (ba_target b)) (st_phase cur) in
  let force := AttractionForce b cur in
  if force =? n0 then diff * nlit 1 100 else diff * force.
End Basin.
Arguments Basin : clear implicits.
