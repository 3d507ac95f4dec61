(** Model of emerge/scale/scale.go and of the names, keys and recommendations of emerge/goal/config.go
    and emerge/trait/trait.go.  A scale is the Go int itself; any other integer takes the default
    branches. *)
From Coq Require Import ZArith List Bool String.
From Verif Require Import Num M_GoalConfig.
Import ListNotations.
Open Scope Z_scope.

(** emerge/scale/scale.go:12 Tiny. *)
Definition Tiny : Z := 0.
(** emerge/scale/scale.go:17 Small. *)
Definition Small : Z := 1.
(** emerge/scale/scale.go:22 Medium. *)
Definition Medium : Z := 2.
(** emerge/scale/scale.go:27 Large. *)
Definition Large : Z := 3.
(** emerge/scale/scale.go:32 Huge. *)
Definition Huge : Z := 4.

(** A Go switch over the five scales with a default. *)
Definition onScale {A} (s : Z) (tiny small medium large huge dflt : A) : A :=
  if s =? Tiny then tiny else if s =? Small then small else if s =? Medium then medium
  else if s =? Large then large else if s =? Huge then huge else dflt.

(** emerge/scale/scale.go:36-51 String. *)
Definition ScaleString (s : Z) : string := (onScale s "tiny" "small" "medium" "large" "huge" "unknown")%string.
(** emerge/scale/scale.go:54-67 FromCount. *)
Definition FromCount (count : Z) : Z :=
  if count <=? 20 then Tiny else if count <=? 50 then Small else if count <=? 200 then Medium
  else if count <=? 1000 then Large else Huge.
(** emerge/scale/scale.go:70-85 DefaultAgentCount. *)
Definition DefaultAgentCount (s : Z) : Z := onScale s 20 50 200 1000 2000 50.
(** emerge/scale/scale.go:89-104 DefaultTargetCoherence. *)
Definition DefaultTargetCoherence {T} {N : Num T} (s : Z) : T :=
  onScale s (nlit 90 100) (nlit 85 100) (nlit 75 100) (nlit 65 100) (nlit 55 100) (nlit 75 100).
(** emerge/scale/scale.go:108-123 DefaultUpdateIntervalMs. *)
Definition DefaultUpdateIntervalMs (s : Z) : Z := onScale s 20 50 100 150 200 100.
(** emerge/scale/scale.go:127-142 DefaultConvergenceTimeFactor. *)
Definition DefaultConvergenceTimeFactor {T} {N : Num T} (s : Z) : T :=
  onScale s (nlit 10 10) (nlit 12 10) (nlit 15 10) (nlit 20 10) (nlit 30 10) (nlit 15 10).
(** emerge/scale/scale.go:145-160 MaxNeighbors. *)
Definition ScaleMaxNeighbors (s : Z) : Z := onScale s 9 15 20 10 5 3.
(** emerge/scale/scale.go:163-178 UpdateInterval. *)
Definition UpdateInterval (s : Z) : Z := onScale s 20 50 100 150 200 250.

(** emerge/goal/config.go:45-66 String. *)
Definition GoalString (g : Goal) : string :=
  match g with
  | MinimizeAPICalls => "Batch API Calls" | DistributeLoad => "Load Distribution"
  | ReachConsensus => "Consensus Building" | MinimizeLatency => "Low Latency"
  | SaveEnergy => "Energy Saving" | MaintainRhythm => "Periodic Tasks"
  | RecoverFromFailure => "Fault Recovery" | AdaptToTraffic => "Traffic Adaptation"
  | OtherGoal => "Custom Goal"
  end%string.
(** emerge/goal/config.go:69-90 ShortKey. *)
Definition GoalShortKey (g : Goal) : string :=
  match g with
  | MinimizeAPICalls => "B" | DistributeLoad => "L" | ReachConsensus => "C" | MinimizeLatency => "T"
  | SaveEnergy => "E" | MaintainRhythm => "R" | RecoverFromFailure => "F" | AdaptToTraffic => "A"
  | OtherGoal => "?"
  end%string.
(** emerge/goal/config.go:93-122 IsRecommendedForSize. *)
Definition IsRecommendedForSize (g : Goal) (agentCount : Z) : bool :=
  match g with
  | MinimizeAPICalls => true
  | DistributeLoad => 20 <=? agentCount
  | ReachConsensus => (50 <=? agentCount) && (agentCount <=? 1000)
  | MinimizeLatency => agentCount <=? 200
  | SaveEnergy => agentCount <=? 200
  | MaintainRhythm => true
  | RecoverFromFailure => 20 <=? agentCount
  | AdaptToTraffic => (20 <=? agentCount) && (agentCount <=? 1000)
  | OtherGoal => true
  end.
(** emerge/trait/trait.go:35-52 String. *)
Definition TraitString (t : Trait) : string :=
  match t with
  | Stability => "stability" | Speed => "speed" | Efficiency => "efficiency" | Throughput => "throughput"
  | Resilience => "resilience" | Precision => "precision" | OtherTrait => "unknown"
  end%string.
