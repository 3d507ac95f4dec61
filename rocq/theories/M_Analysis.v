(** Model of internal/analysis (quality.go, diagnostics.go) and internal/sim/mathx.go.  The environment
    variable EMOJI is the argument [emoji].  The formatted text of a summary ([fmt.Sprintf]) is replaced by
    the chosen form and the numbers given to it; the fixed texts are kept as they are. *)
From Coq Require Import ZArith List Bool String.
From Verif Require Import Num.
Import ListNotations.
Open Scope num_scope.

Section Analysis.
Context {T : Type} {N : Num T}.

(** internal/sim/mathx.go:4-12 Clamp01. *)
Definition Clamp01 (v : T) : T := if v <? n0 then n0 else if v >? n1 then n1 else v.
(** internal/sim/mathx.go:15-20 Min. *)
Definition SimMin (a b : T) : T := if a <? b then a else b.
(** internal/sim/mathx.go:23-28 Max. *)
Definition SimMax (a b : T) : T := if a >? b then a else b.

(** The five-way switch on the coherence shared by internal/analysis/quality.go:22-48, 52-78 and 83-94. *)
Definition band {A} (c : T) (a0 a1 a2 a3 a4 : A) : A :=
  if c <? nlit 2 10 then a0 else if c <? nlit 4 10 then a1 else if c <? nlit 6 10 then a2
  else if c <? nlit 8 10 then a3 else a4.

(** internal/analysis/quality.go:21-49 describeSyncMode. *)
Definition describeSyncMode (c : T) (emoji : bool) : string :=
  (band c
    (if emoji then "(🌪️  Chaos - no coordination)" else "(Chaos - no coordination)")
    (if emoji then "(🌊 Groups forming - multiple rhythms)" else "(Groups forming - multiple rhythms)")
    (if emoji then "(⚡ Partial coordination - groups merging)" else "(Partial coordination - groups merging)")
    (if emoji then "(🎵 Good sync - single dominant rhythm)" else "(Good sync - single dominant rhythm)")
    (if emoji then "(✨ Excellent sync - unified rhythm)" else "(Excellent sync - unified rhythm)"))%string.
(** internal/analysis/quality.go:51-79 describeBatchMode. *)
Definition describeBatchMode (c : T) (emoji : bool) : string :=
  (band c
    (if emoji then "(🌪️  Chaos - no batching)" else "(Chaos - no batching)")
    (if emoji then "(🌊 Weak batching emerging)" else "(Weak batching emerging)")
    (if emoji then "(⚡ Moderate batching)" else "(Moderate batching)")
    (if emoji then "(📦 Good batching)" else "(Good batching)")
    (if emoji then "(🚀 Excellent batching!)" else "(Excellent batching!)"))%string.
(** internal/analysis/quality.go:8-19 DescribeSyncQuality. *)
Definition DescribeSyncQuality (c : T) (mode : string) (emoji : bool) : string :=
  if (mode =? "sync")%string then describeSyncMode c emoji
  else if (mode =? "batch")%string then describeBatchMode c emoji
  else describeSyncMode c emoji.
(** internal/analysis/quality.go:82-95 InterpretCoherenceLevel. *)
Definition InterpretCoherenceLevel (c : T) : string :=
  (band c "Very Low" "Low" "Moderate" "Good" "Excellent")%string.

(** internal/analysis/diagnostics.go:10-16 RunStats. *)
Record RunStats := mkStats { rs_initial : T; rs_final : T; rs_iter : Z; rs_max : Z; rs_stuck : Z }.
(** internal/analysis/diagnostics.go:19-99: the five forms of the summary with the fractions they print. *)
Inductive Summary := SumOK (final : T) | SumStuck (final target : T) | SumMinimal (initial final : T)
  | SumClose (final target : T) | SumFailed (final target : T).
(** internal/analysis/diagnostics.go:19-99 Diagnose.  Go's integer division truncates ([Z.quot]). *)
Definition Diagnose (s : RunStats) (target : T) (mode : string) : Summary * list string :=
  if rs_final s >=? target then (SumOK (rs_final s), [])
  else
    let gap := nabs (target - rs_final s) in
    let improvement := rs_final s - rs_initial s in
    if (Z.quot (rs_max s) 3 <? rs_stuck s)%Z then
      (SumStuck (rs_final s) target,
       app ["Increase swarm size (more agents = more pathways)"; "Reduce target coherence (try 0.6-0.7)";
         "Adjust frequency to 200-300ms"]%string
        (if (mode =? "batch")%string then
           ["Check network topology (ensure sufficient connections)";
            "Consider partial sync (0.65-0.75) for load spreading"]%string else []))
    else if improvement <? nlit 1 10 then
      (SumMinimal (rs_initial s) (rs_final s),
       ["Check agent connectivity (isolated agents?)"; "Increase influence strength";
        "Reduce stubbornness parameter"]%string)
    else if gap <? nlit 1 10 then
      (SumClose (rs_final s) target,
       ["Increase iterations (more time to converge)"; "Fine-tune coupling strength"]%string)
    else
      (SumFailed (rs_final s) target,
       ["Start with smaller swarm (5-10 agents)"; "Lower target to 0.5-0.6"; "Increase frequency to 300-500ms";
        "Check for competing attractors"]%string).

(** internal/analysis/diagnostics.go:102-115 AnalyzeConvergenceRate. *)
Definition AnalyzeConvergenceRate (iterations maxIterations : Z) : string :=
  let ratio := nofZ iterations / nofZ maxIterations in
  if ratio <? nlit 3 10 then "Fast convergence"%string else if ratio <? nlit 6 10 then "Normal convergence"%string
  else if ratio <? nlit 9 10 then "Slow convergence"%string else "Very slow convergence"%string.
End Analysis.
Arguments RunStats : clear implicits.
Arguments Summary : clear implicits.
