(** Model of simulations/emerge/simulation/pattern/pattern.go.  Patterns and goal types are the Go ints. *)
From Coq Require Import ZArith List Bool String.
From Verif Require Import Num.
Import ListNotations.
Open Scope Z_scope.

(** simulations/emerge/simulation/pattern/pattern.go:9 Unset. *)
Definition Unset : Z := 0.
(** simulations/emerge/simulation/pattern/pattern.go:12 HighFrequency. *)
Definition HighFrequency : Z := 1.
(** simulations/emerge/simulation/pattern/pattern.go:15 Burst. *)
Definition Burst : Z := 2.
(** simulations/emerge/simulation/pattern/pattern.go:18 Steady. *)
Definition Steady : Z := 3.
(** simulations/emerge/simulation/pattern/pattern.go:21 Mixed. *)
Definition Mixed : Z := 4.
(** simulations/emerge/simulation/pattern/pattern.go:24 Sparse. *)
Definition Sparse : Z := 5.

(** A Go switch over the six patterns with a default. *)
Definition onPattern {A} (p : Z) (unset hf burst steady mixed sparse dflt : A) : A :=
  if p =? Unset then unset else if p =? HighFrequency then hf else if p =? Burst then burst
  else if p =? Steady then steady else if p =? Mixed then mixed else if p =? Sparse then sparse else dflt.
(** A Go switch over the goal numbers 0..7 with a default. *)
Definition onGoalInt {A} (g : Z) (a0 a1 a2 a3 a4 a5 a6 a7 dflt : A) : A :=
  if g =? 0 then a0 else if g =? 1 then a1 else if g =? 2 then a2 else if g =? 3 then a3
  else if g =? 4 then a4 else if g =? 5 then a5 else if g =? 6 then a6 else if g =? 7 then a7 else dflt.

(** simulations/emerge/simulation/pattern/pattern.go:28-45 String. *)
Definition PatternString (p : Z) : string :=
  (onPattern p "Auto" "High-Frequency" "Burst" "Steady" "Mixed" "Sparse" "Unknown")%string.
(** simulations/emerge/simulation/pattern/pattern.go:48-65 ShortKey. *)
Definition PatternShortKey (p : Z) : string := (onPattern p "" "h" "u" "y" "x" "z" "")%string.

Section Modifier.
Context {T : Type} {N : Num T}.
(** simulations/emerge/simulation/pattern/pattern.go:90-210, the modifier before the size adjustment, in
    tenths; arguments in the order unset, high-frequency, burst, steady, mixed, sparse, other. *)
Definition baseTenths (g p : Z) : Z :=
  onGoalInt g
    (onPattern p 10 13 13 10 12 7 10)
    (onPattern p 10 13 9 13 11 6 10)
    (onPattern p 10 10 6 13 9 6 10)
    (onPattern p 10 13 8 12 9 6 10)
    (onPattern p 10 6 12 9 8 13 10)
    (onPattern p 10 11 8 13 9 7 10)
    (onPattern p 10 12 11 10 13 6 10)
    (onPattern p 10 10 13 8 12 6 10)
    10.
(** simulations/emerge/simulation/pattern/pattern.go:90-210, as the decimal literal. *)
Definition baseModifier (g p : Z) : T := nlit (baseTenths g p) 10.
(** simulations/emerge/simulation/pattern/pattern.go:89-221 GetCoherenceModifier. *)
Definition GetCoherenceModifier (g agentCount p : Z) : T :=
  let m := baseModifier g p in
  let m := if (1000 <=? agentCount) && (p =? HighFrequency) then nmul m (nlit 9 10) else m in
  if (agentCount <=? 50) && (p =? Sparse) then nmul m (nlit 8 10) else m.
(** simulations/emerge/simulation/pattern/pattern.go:241-256 GetQualifier. *)
Definition GetQualifier (g agentCount p : Z) : string :=
  let m := GetCoherenceModifier g agentCount p in
  (if nle (nlit 13 10) m then "optimal" else if nle (nlit 12 10) m then "excellent"
   else if nle (nlit 10 10) m then "good" else if nle (nlit 8 10) m then "fair" else "poor")%string.
(** simulations/emerge/simulation/pattern/pattern.go:259-261 IsRecommended. *)
Definition IsRecommended (g agentCount p : Z) : bool := nle (nlit 12 10) (GetCoherenceModifier g agentCount p).
End Modifier.
(** simulations/emerge/simulation/pattern/pattern.go:264-285 BestPatternForGoal. *)
Definition BestPatternForGoal (g : Z) : Z :=
  onGoalInt g HighFrequency Steady Steady HighFrequency Sparse Steady Mixed Burst Steady.
