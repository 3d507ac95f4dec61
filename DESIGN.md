# Formal model of carlisia/bio-adapt in Rocq (Coq 8.16.1)

Status: plan, written before the proofs. Sections "Trusted base" and "Findings" are
kept current as the development grows.

## 1. Numbers

The library computes almost exclusively with Go `float64`. Two semantics are used, and
the *same* model text is interpreted in both:

* `Num.v` declares a class `Num T` listing the float operations the code uses
  (`+ - * /`, comparisons, `math.Min/Max/Abs/Mod/Sqrt/Sin/Cos/Atan2/Exp`, literals, multiples of
  `math.Pi`, `float64(int)`, truncation to `int`). Model functions are polymorphic in
  `Num T`.
* Instance `FNum` (file `F64.v`): IEEE-754 binary64 from Flocq (`BinarySingleNaN`, round to
  nearest even), with NaN, infinities, signed zeros, subnormals and rounding. `math.Sin`,
  `math.Cos`, `math.Atan2`, `math.Exp` are parameters of the instance (a record `Trig`), so
  theorems hold for every implementation of them or state what they need as hypotheses.
* Instance `RNum` (file `RealNum.v`): exact real arithmetic of the standard library. Used
  where the property is geometric (coherence, shortest arcs, regressions). Theorems over
  `RNum` say nothing about rounding; this is stated next to each.

Go's `int` is modelled by `Z` (no overflow; sizes in the theorems are far below 2^63 except
where noted); `time.Duration` and `time.Time` by `Z` nanoseconds.
`math.Mod` is modelled as the exact IEEE remainder with truncation (`fmod`), which is what
Go's implementation computes. No fused multiply-add is assumed (true on amd64).
`int(f)` for out-of-range `f` is implementation-specific in Go: the amd64 result is modelled.

## 2. State, errors, nil, concurrency

Functions that mutate through pointers return the new value. Errors are values of inductive
types, nil is `None`/a constructor, a run-time panic is an explicit outcome. Random numbers are
an explicit stream of draws that theorems quantify over. Go map iteration order is an explicit
list argument (any permutation). Goroutines, mutexes, channels and atomics become labelled
transition systems whose steps are the individual atomic operations; theorems quantify over all
step sequences.

## 3. File layout (`rocq/theories`)

* `Num.v`, `F64.v`, `RealNum.v` – numbers and library lemmas about them.
* `M_*.v` – the model only (definitions with citations).
* `S_*.v` – small independent specifications.
* `L_*.v` – lemmas and proofs.
* `S_Acc.v`, `L_Acc.v` – float accuracy: the assumption on sine, cosine and atan2, and error bounds of the
  basic operations. `P_Accuracy*.v` bound the distance between the float and the exact results.
* `P_*.v` – the property theorems (each `exact lemma`), their non-vacuity examples and
  `Print Assumptions`.

## 4. Properties

| id | model | proof idea |
|----|-------|-----------|
| C01 | `WrapPhase` over `Num` | floats: exactness of fmod, monotonicity of rounding; reals: congruence + uniqueness |
| C02 | `PhaseDifference`, `atan2` on reals | atan2 characterisation; refutation inside the special-case windows |
| C03, C04 | `MeasureCoherence(Weighted)` | reals: triangle inequality of the mean resultant vector, permutation induction; floats: running sums with weight-relative error (L_AccW) |
| C05 | `State.Validate/normalize` with fuelled loop | floats: post-condition; non-termination witness for huge phases |
| C06 | `PatternDistance`, `IdentifyGaps` | case analysis on reals; rounding-error bounds for floats |
| C07, C08 | agent record, op list | floats: invariant by induction on ops; budget inequality |
| C09 | `ProposeAdjustment` over arbitrary strategy/decision functions and draws | case analysis |
| C10 | five strategies | reals: contraction of circular distance; history induction for pulses |
| C11 | `Decide` | floats: fold invariant for all inputs; reals: arg-max |
| C12 | `Blend` | reals |
| C13 | LTS of load/compute/store steps | invariant over all schedules; lost-update trace |
| C14 | token manager | floats: invariant over op lists; NaN and infinity witnesses |
| C15 | array-like neighbor storage | refinement to a finite map with capacity |
| C16 | `UpdateContext` | reals + witness for density; floats (accuracy of local coherence and goal) |
| C17 | pool, `Reset`, `Clear` with nil fields | witness for panic, stale neighbors; counter invariant |
| C18 | `NewFromConfig`, `NewOptimizedFromConfig` | case analysis |
| C19 | `New` with both storages | characterisation, ID injectivity |
| C20, C21 | wiring as graph transformer over draw streams | invariants over loops; progress; refutation of the upper bound |
| C22 | two neighbor containers | refutation |
| C23 | topologies over capacity-20 storage | exact neighbor sets below capacity, refutation above |
| C24 | limit tables | floats, case analysis |
| C25, C26 | configuration records | floats; finite enumeration of presets lifted to all sizes; witnesses |
| C27 | run loop over measurement oracle | induction on fuel; witness for infinite time factor |
| C28, C29 | `needsResync`, event-loop LTS | floats; invariants over event lists |
| C30 | call-graph level model of what feeds the monitor | invariant: no library step records |
| C31 | measures | reals; floats (accuracy of both measures) |
| C32 | one round over populations and draws | floats for ranges, closed form of every move (`S_RoundMove`) and exact condition for coming closer over the reals; refutation |
| C33 | `switchStrategy` | fold invariant over any order |
| C34 | `DisruptAgents` | list counting; refutation for large swarms |
| C35 | worker pool LTS | safety invariant; refutation of "every job runs" |
| C36–C38, C40 | monitors | refinement to full sample list |
| C39 | RWMutex LTS (writer preference) | deadlock trace |
| C41–C43 | engine, patterns, basin | reals/floats, witnesses |
| C44 | random helpers | counting proof; float rounding |
| C45, C51, C52 | tables | finite case analysis + unbounded counts |
| C46–C48 | batch manager, metrics, workload | list induction, LTS conservation law |
| C49 | reset/processor/workload LTS | deadlock trace |
| C50 | simulation control state machine | invariant / witness |
| C53 | client builder | case analysis |
| C54 | activity display | case analysis / witness |
| C55 | coherence metrics | invariant |
| C56 | reset and disruption phases over R | Dirichlet sums, triangle inequality |
| C57–C60 | analysis words, diagnosis, rate, clamp | case analysis, error bound of rounded quotients |
| C61–C66 | display panels: counts, bars, colours, status words | exact float counting, error bounds, witnesses |
| C67–C68 | gauges and history chart | exact float percentages, list suffixes, witnesses |
| C69–C73 | swarm view: colours, grid, indicators, metric colours, waves | real analysis on the circle, grid induction, monotonicity, witnesses |
| C74–C75 | menu keys and welcome screen against key and rating tables | case analysis on the tables |
| C76–C77 | text display rate, scripted controller | induction over histories and schedules, step measure |
| C78 | test helpers: topologies, agents, swarms, doubles | induction over the orders of map iteration, witnesses |
| C79 | snapshots, statistics and their conversion for the displays (`M_Snapshot`) | induction over histories and control events, witnesses |
| C80 | `%.pf`, `%d` and the time texts (`M_Format`), read back by an independent reader (`S_Format`) | digit induction, round to nearest even, monotonicity of rounding |
| C81 | texts of the metrics, cost and summary panels (`M_MetricsText`) | float error bounds through the reader of C80, case analysis, witnesses |
| C82-C84 | the program as a transition system: main, signal goroutine, event handler, keys, timeout (`M_App`) | invariants over all schedules, removal of signals from a schedule, witness schedules |
| C85 | the flags (`M_App.startProgram`) | case analysis |
| C86 | `CMPredict` | reals: floor of the crossing time; floats: error bound; witnesses |
| C87 | periods in `measureSystemPattern`, `applyPatternCompletion`, `round` | closed form, invariant over all rounds for any number semantics, witnesses |
| C88 | aligning branch of `applyPatternCompletion` over any series of `round`s | induction over the series, closed form per agent, bound on the variance, witness for the refutation |
| C89 | `UpdateContext`, `ProposeAdjustment`, `Decide`, `ApplyAction` over any series of turns | floats for the energy-aware strategy; exact arithmetic, induction over the turns for the others |
| C90 | `addStochasticResonance` (`resonanceLoop`, `perturbCount`) inside a `round` | induction over the disturbances up to permutation; float count by rounding error |
| C91 | `Build`, `New`, `For`, `WithSize`, `Run` down to `blendFrequency` and `isPatternAchieved` | floats with any trigonometry accurate to 1/1000; invariant on the periods over any series of rounds |
| C92 | `round`, `syncLoop`, `Run` with everything they call | two populations alike in phases and periods stay alike (relational induction), any number type; the rest of each agent kept up to permutation |
| C93 | `ApplyAction`, the setters, `UpdateContext`, `ProposeAdjustment`, `Decide`, the costs of the four strategies | induction over histories; floats with one rounding per action; exact reals for the turns and the costs |
| C94 | `measureSystemPattern`, `PatternDistance`, `isPatternAchieved`, one look of `AchieveSynchronization`, the presets | floats against exact arithmetic: mean direction, resultant and arc with explicit error bounds; a fixed point of the round for the failing run |
| C95 | `MeasureCoherence`, `DisruptAgents`, the tick of `RunContinuous` (`needsResync`) | exact arithmetic: triangle inequality for the resultants of two groups, attained; floats: the same within the error of C03, and the monitor's comparisons with explicit margins |
| C96 | `RecordSample`, `GetConvergenceRate`, `ShouldSwitchStrategy`, `IsStuck` of the goal monitor, `Statistics` of the convergence monitor | induction over the calls against difference quotients of the calls alone; floats: the 70% comparison for windows below 90 |
| C97 | `Start`, `DisruptAgents`, `AchieveSynchronization` in any series; `RunContinuous` on top | invariant of the transition system of the continuous run for every schedule; the trap of C91 as an invariant over whole lifetimes; permutation invariance of one look in exact arithmetic |
| C98 | memory accesses and lock operations of the client's and the swarm's methods (`M_Race.v`); executions, happens-before order of the Go memory model and data race in `S_Race.v` | lock discipline implies happens-before (`L_Race.v`), each method obeys it on every path; the unlocked target of a continuous run by the chain go statement, channel, go statement; counterexamples by an invariant of the order |
| C99 | memory accesses and lock operations of the simulation's methods and goroutines (`M_RaceSim.v`, with `M_Race.v` for the swarm); `S_Race.v` as in C98 | the lock discipline theorem of `L_Race.v` per location; a rank of the locks against deadlock; accesses without a lock by who makes them; counterexamples by a lemma on goroutines that release nothing |
| C100 | memory accesses and lock operations of the methods of an agent, its neighbour storage, its token manager, the pool and the pulse strategy (`M_RaceAgent.v`); `S_Race.v` as in C98 | the lock discipline theorem of `L_Race.v`; fields without a lock by which calls write them; no method holds two locks, so none blocks another for ever; counterexamples as in C99 |
| C101 | the errors of both `Validate` methods with value and message, and their texts (`M_ValidationText.v`); orders of map iteration are any permutations; the texts of %v for floats and durations are parameters without a semicolon | cutting strings at characters that the parts do not contain; permutations of the list of wrong fields of C26 |

## 5. Not modelled

Widgets, emoji, headings and layout of the terminal (`simulations/display/display.go`, `text_display.go`; the numbers,
colours and status words shown are modelled in `M_Display.v`, the swarm grid with its legend in `M_GridText.v`, the lines of text with numbers in `M_MetricsText.v` and
`M_Format.v`, the menu and the welcome screen in `M_Menu.v`), what termdash and the
operating system do between a key or signal and the Go code that receives it, wall-clock accuracy, memory layout and cache behaviour, goroutine scheduling
fairness, entropy quality of `crypto/rand`.

`internal/emerge/convergence.go`, `metrics.go` and `pattern.go` have the same text as `emerge/monitoring/convergence.go`, `monitor.go` and `patterns.go` up to
comments and the names of two constructors (`NewConvergenceMonitor`, `NewMonitor`), so they have no second copy in the model.

## 6. Trusted base

* The Coq 8.16.1 kernel (and `vm_compute`), plus Flocq as a library of definitions and proofs
  (it adds no axiom of its own).
* Axioms: only those of the standard library's reals and classical logic, exactly as
  `Print Assumptions` prints after each theorem: `ClassicalDedekindReals.sig_not_dec`,
  `ClassicalDedekindReals.sig_forall_dec`, `FunctionalExtensionality.functional_extensionality_dep`,
  `Classical_Prop.classic`. Theorems about integers, lists and schedules are closed.
* The reading of the Go sources as the definitions in `M_*.v` (each cites file and lines), and
  the numeric conventions of section 1. `sync/atomic`, `sync.Mutex`, `sync.Map`, `sync.Pool` and
  channels are taken to behave as documented.
* Theorems named `float_accuracy` (and `C10_float_*`, `C27_success_is_true`) take as a hypothesis, not as an
  axiom, that the functions of package math are accurate: `trig_acc tr e` says sine and cosine are within `e`
  for arguments up to 2^29 and atan2 within `4 e`. `cr_acc` proves that correctly rounded functions satisfy it
  with `e = 2^-51`. Go's own implementation is not verified against it.

## 7. Findings (claims that are false of the code)

Each is a theorem `…_refuted`; the guarded positive statement is proved next to it.

* C01/C02/C05: see the notes in `MANIFEST.json`.
* C04 (floats): the weighted coherence squares the sums, so weights of 2^-600 give 0 and of 2^600 give
  infinity for agents in phase; accurate when the weights sum to between 2^-40 and 2^56.
* C07: NaN arguments are stored as they are; a custom resource manager can hand over a negative
  energy (`WithResourceManager` does not clamp).
* C13: `AtomicState.Update` is a load followed by a separate store. Concurrent setters of different
  attributes undo each other, and two concurrent actions can be paid from the same energy.
* C16: density is `-n` for an agent built by `New` (swarm size 0), above 1 when there are more
  neighbors than assumed, `+Inf` for swarm size 1.
* C17: `Pool.Get` panics whenever `sync.Pool` calls `New` (nil `state`); a recycled agent keeps its
  optimised neighbors, token balance, strategy and swarm sizes; the `news` counter equals `gets`.
* C18: `NewOptimizedFromConfig` accepts unknown component names, applies no zero-value defaults,
  and takes the energy from `MaxTokens` while `NewFromConfig` takes it from `InitialEnergy`.
  (The field comments say phase 0 and frequency 0 mean "random"; the code uses phase 0 and 100ms.)
  The default configuration sets the influence to 0.5, `New` without a configuration to 0.1.
* C21: `MaxNeighbors` is checked for the agent that connects, not for the one connected to: an agent
  may end with all others as neighbors. The minimal wiring of very large swarms gives up after 2n
  attempts and may leave an agent below `MinNeighbors`.
* C22: the wiring writes `Neighbors()` (a `sync.Map`), while `IsConnectedTo` and `UpdateContext` read the
  20-slot storage. No connection made by the swarm is ever seen by the agents' own updates.
* C19: `NewSwarmFromConfig` does not clamp the goal coherence to the practical limit; above 100 agents a custom
  agent builder is ignored and `ForEachAgent` sees no agent.
* C23: `WithTopology` runs before the agents exist: Ring and Star always fail, FullyConnected connects nothing.
  `ConnectTo` drops the 21st neighbor silently, so the full and star topologies are incomplete from
  22 agents on; `FullyConnected` never returns an error.
* C24: `GetMinimumSwarmSize` disagrees with the limit table for targets in (0.98, 0.99) and above 0.99; a NaN
  target passes `ValidateCoherenceTarget`.
* C25: throughput tuning of MinimizeLatency leaves [0,1]; repeated Speed tuning reaches interval 0; sub-millisecond
  intervals become 0 for 21..50 agents; `Validate` accepts NaN.
* C26: NaN fields survive normalisation and validation. The automatic configuration asks for 8 neighbours each at 9 agents
  and for 2 at 10; the coupling rises from 0.6 to 0.7 between 99 and 100 agents.
* C36–C38: NaN samples break the run bookkeeping; maximum and minimum start at 0 and 1, so samples outside [0,1] are
  misreported; the rate is that of the last ten samples only; a float average can exceed every sample.
* C40: trimming the history moves the baseline sample, so `GetProgress` falls from above 0.5 to below 0.1 while
  every sample is closer to the target than the one before; a NaN distance gives NaN progress.
* C41: the default templates match a swarm at 750ms with goal 250ms and the engine then proposes a period of -250ms;
  interpolation inherits the wrong sign of `PhaseDifference` in its special-case windows.
* C27: a goal configuration that passes `Validate` may have an iteration factor below 1, and `NewSwarmFromConfig`
  keeps a coherence above the practical limit (time factor `+Inf`, converted to the smallest int): the round budget is
  then not positive and `Run` fails without a single measurement.
* C31: `MeasurePhaseConvergence` is 3 for an agent at phase 0 and the accepted goal phase 4*pi.
* C32: the round pulls every agent forward (`WrapPhase(target - phase)`), so one whose target is slightly behind is moved away
  from it; when the population is crowded two thirds of the agents random-walk. `adjustmentScale *= 0.2` runs
  inside the loop over the agents, so the pull is divided by five again at every third agent: in a crowded population of 300
  the last pulled agent moves less than 10^-60.
* C33: `Validate` does not look at the recency bonus; with -2 no strategy is selected at all. Two of the five
  strategies share a name and therefore one statistics entry.
* C28: the stuck threshold is dead code (its condition repeats one that has already returned); the default minimum viable
  coherence 0.2 exceeds low targets, so a steady swarm above such a target is resynchronised at every tick.
* C29: a synchronisation that fails (for instance by exhausting its budget) ends `RunContinuous`; a negative check
  interval makes it panic.
* C30: nothing calls `Record` on the swarm's convergence monitor: `IsConverged()` is always false and
  `CurrentCoherence()` always 0.
* C34: above 100 agents `DisruptAgents` changes nothing, because the agents are not in the map it ranges over.
* C35: a worker may choose the closed quit channel while jobs are waiting, so jobs submitted before `Stop` can be lost.
* C39: `Statistics` and `PredictConvergenceTime` take the read lock again while holding it; a writer that arrives in
  between deadlocks both for ever.
* C42: every gap reported by `Detect` spans adjacent indices, and `Complete` returns an empty list for those; `Detect`
  panics when there are fewer frequencies than phases need; `Similarity` is NaN for patterns of amplitude 0 or period 0
  (every single-phase pattern) and exceeds 1 for negative periods.
* C43: the attraction force is doubled when the state's phase is negative and the target's positive: it exceeds the
  strength and the adjustment overshoots. A basin of radius 0 has force NaN at its own target, and in the special
  window of `PhaseDifference` the adjustment goes the long way round.
* C51: `GetCoherenceModifier` returns 0.48 for the sparse pattern with at most 50 agents (documented minimum 0.5), and
  `BestPatternForGoal` is not the best for batching and latency from 1000 agents on and for energy saving up to 50.
* C52: the rhythm goal advertises the key R, which the controller binds to Reset; with the automatic pattern the pattern
  shown is not the one in use; events are dropped when ten are waiting.
* C53: `WithCoherenceOption` accepts NaN.
* C47: `SubmitBatch` drops a batch when 100 are queued; queued batches are abandoned on cancellation.
* C48: `Workload.Reset` drops pending tasks and restarts the task numbering, so task IDs are used twice.
* C54: `lastRequestTime` is never set, so a mixed workload is always shown as quiet.
* C55: `UpdateCoherence` has no caller; the reported peak coherence and time to converge are always 0.
* C49: `BatchManager.Reset` receives from the queue after a separate length check. If the processor takes the last batch in
  between, Reset waits for ever with the simulation's mutex held; workloads, display and processor stop too.
* C50: `Resume` without `Pause` (the space bar while running) starts a second run whose predecessor can no longer be
  cancelled; `Pause` before `Start` does not stop the run; a goroutine scheduled late reads the context of a later
  `Resume`, giving two runs.
* C57: a NaN coherence fails every `<` comparison and is described as Excellent.
* C60: `Min(a, b)` and `Max(a, b)` return the second argument when one of them is NaN, so the result depends on the order.
* C61: the load panel maps phases from [-pi, pi) to four servers, but agents keep theirs in [0, 2pi): servers 1 and 2
  are always empty, server 4 gets three quarters, and with nine or more agents BALANCED is never shown. A phase below
  -pi would panic.
* C62, C63, C65: the consensus, latency and schedule panels read the phase as a number on a line, so agents just below
  2pi and just above 0 are shown as disagreeing, as slowest and fastest, and as late although they are early.
* C65: the bar of the largest group has 14 cells instead of 15 for groups of 11, 13, 22, ... jobs.
* C66: a swarm in perfect agreement at phase 3 is shown as wholly degraded.
* C67: the latency and rhythm gauges compare truncated percentages, so they are green although the target is missed by
  up to one percent. The energy gauge is green at exactly 70 % asleep while the panel says HIGH DRAIN. With steady agents
  the utilisation gauge shows 0 % while the panel advises SCALE UP. Shares of exactly 29, 57 and 58 % are shown one lower.
  Without agents the gauge shows -2^63.
* C69: for a mean phase below 0 (the range of Atan2 is [-pi, pi]) the distance to an agent can exceed 2pi and comes out
  negative, so an agent far from the mean is green. At low coherence the three groups are a sixth, a third and a half
  of the circle; red is never used.
* C70: agents that fall on the centre of the grid are not drawn; at coherence 1 this happens to a whole arc of phases.
  The legend says "Synced" of agents with a phase below 1/2: a swarm in perfect agreement at phase 2 shows none.
* C71: an agent 0.7 after phase 0 is yellow, one 0.7 before it is red; the consensus indicator ignores wrap-around.
* C75: the mixed pattern for "recover from failure" is rated optimal but explained by the reason against it. For four pairs
  of goal and pattern the table gives the same reason for and against.
* C77: `Runner.Run` (simulations/emerge/ui/runner.go:96-102) accepts only the keyboard controller, and says so after the
  welcome screen and the start of the simulation, so a scripted controller cannot drive it.
* C78: the test topologies fill a container that agents made by the constructors never read, so in the swarms of the
  tests nobody sees a neighbour. The test agents start at phase 0, in agreement; their local goal is random although the
  helper says that all randomization is disabled. `TestSwarm` fails above 100 agents. The goal double does not blend along
  the circle, and the resource double grants negative amounts.
* C79 (also): peak coherence and time to converge of the summary are always 0.
* C79: "Collecting: N tasks" is the number of queued batches: 1 while 250 tasks wait, 0 while 99 are being collected. The
  unused getters of the batch manager return 0 and ten per batch. The final coherence of the summary is measured afresh, so
  it can differ from the one displayed while paused.
* C80: the panel rounds and the gauge truncates: a coherence of 0.996 is 100 % here and 99 % there. "90%" is shown both
  yellow and green. A duration just below a minute is "60.0s" or "60s". The clock of the text display rounds half minutes
  to even: 90 s and 150 s are both "02m".
* C81: without agents the panels print "+Inf%" and "NaN%". The recovery time is the time since the last batch, not since
  the disruption; before the first batch it is 9223372036.9 s. Cutting the types to eleven bytes makes LoadBalancer1 and
  LoadBalancer2 look alike. Both summaries say that the agents learned to batch, and "0.0s" to converge, whatever happened.
* C82: `go handleSignals(cancel)` keeps the first cancel function. After one switch of goal, scale or pattern the program
  ignores interrupt and terminate signals for good.
* C83: a quit key pressed just after a switch key dies with the old run's channel. While Reset hangs (C49) no key works.
* C84: a switch request overtaken by the timeout is lost and the program ends.
* C85: `-interval 0` (or negative) crashes the program.
* C37 in floats: a constant coherence of 0.1 has a positive rate and a stability below 1; a strictly rising coherence can
  have a negative rate.
* C86: `PredictConvergenceTime` assumes a sample every 100 ms and ignores the recorded times. Ten equal samples of 0.1 give
  a prediction of -2^63 ns, because the tiny rounded rate makes the time overflow.
* C87: rounds pull the periods to the best template's (250 ms), not to the target's, and shift all agents alike. Once the
  mean is within 5 % of the target no period ever changes again, however far apart the agents are.
* C88: the aligning branch (goal_directed.go:261, 301) only pulls forward. Every way to the target shrinks to at most
  1 - 1.026 base of itself per round, so a series ends after at most 2 to 4 rounds (C88_lasts). But agents just past the
  target are sent round the circle: nine agents of coherence 0.77 end below 0.30 for every draw (C88_breaks_refuted). The
  branch tests the spread around the agents' own mean, not around the target, so agents all at one wrong phase are never
  aligned (C88_together_refuted), and with the default settings no population at all is (C88_default_never_refuted).
* C89: ProposeAdjustment (agent.go:383-437) never reads the global goal's phase or frequency, the agent's influence or its goal manager
  (C89_global_phase_ignored_refuted); the built-in strategies do not read its coherence either (C89_global_ignored_refuted).
  UpdateContext stores the constant stability 0.5 (agent.go:379) and no progress, so keeping still always scores 5. The
  energy-aware strategy's benefit is a multiple of the progress: it never moves (C89_energy_aware_refuted). Nudging scores less
  than 5 unless the goal is near: at rate 0.3, an agent half a radian away never moves (C89_half_radian_refuted). Inside the
  threshold the approach is geometric (C89_approach).
* C90: addStochasticResonance (goal_directed.go:421-449) draws its agents with replacement. Of twenty agents at ten percent, one alone may be hit
  twice and end 0.75 of the magnitude away instead of at most 0.5 (C90_replacement_refuted).
* C91: the documentation promises that an undisturbed swarm "will always reach the goal" (docs/emerge/faq.md:200,
  docs/emerge/emerge_protocol.md:182). Build (client/emerge/custom.go:52-79) asks for a period of 1 s. The agents start at 100 to
  150 ms, and the completion engine only ever moves a period towards its templates' 200 and 250 ms (or the agents' own mean). So the period
  term of the pattern distance stays above 0.22, and every goal but AdaptToTraffic wants less (C91_goals). Such a client never
  succeeds, however long it runs (C91_client_refuted). It gives up after at most 1000 rounds (C91_client_gives_up). Guards: one agent does not
  start at exactly 100 ms, nothing outside the synchronisation touches the agents, trigonometry accurate to 1/1000. A swarm whose goal is
  the agents' own period can succeed (C27_nil_happens).
* C92: the documentation says that stubbornness limits influence (docs/architecture.md:177, docs/emerge/architecture.md:249), that it slows
  convergence (docs/emerge/concepts/coherence.md:102), and that a depleted agent cannot adjust its phase (docs/emerge/concepts/energy.md:79-88). A
  synchronisation reads and writes phases and periods only (C92_run_blind, C92_run_keeps). An agent without energy and with stubbornness 1
  refuses everything when asked (C92_spent_refuses), yet a round moves it and charges nothing (C92_autonomy_refuted). Which of its
  strategies the synchroniser has selected changes nothing either (C92_strategy_blind).
* C93: energy does not recover (docs/emerge/concepts/energy.md:27-36): it only falls, whatever is called, unless SetEnergy is
  (C93_no_recovery_refuted). An exhausted agent stays where it is for ever (C93_exhausted_refuted). There is no maximum
  (C93_no_maximum_refuted), and a negative cost creates energy (C93_created_refuted). Actions that cost less than half an ulp of the energy can be
  repeated without limit (C93_unlimited_refuted); from four times that on, the number is bounded (C93_actions_bounded). A pulse costs at most
  4 * PI, never the documented 20 to 50 units (C93_documented_costs_refuted).
* C94: more coherence than asked for counts as distance (`PatternDistance` takes the absolute difference). A swarm that stands exactly at the goal's
  phase and period is turned down at every look when 0.3 (1 - goal coherence) exceeds the preset's distance (C94_preset_refuted): for MinimizeAPICalls
  below 0.83, for ReachConsensus below 0.9. Two synchronised agents with a goal coherence of 0.7 (the library's limit for two is 0.85) can stay where they are
  for the whole budget of 300 rounds and the run then fails (C94_synchronised_fails_refuted). Above that bound one look is enough (C94_preset).
* C95: "Agent Failures: up to 50%" (docs/emerge/disruption.md:308) does not hold of the agents that are left. Half of a swarm of coherence R can fail and
  leave exactly 2R - 1, whatever the agents left (C95_half_refuted); from R = 1/2 nothing may be left (C95_lost_refuted). And "automatically detects
  disruptions" (318-323) is not so for small ones: the monitor compares with 0.98 of the target and 0.03 of the last value, so a disruption of k agents in n with
  2k/n below those margins asks for nothing (C95_unnoticed_refuted; one of a hundred synchronised agents is such a case). Below 0.979 of a target of 0.91 it
  always asks (C95_tick_alarm).
* C96: "the average convergence rate" leaves out every sample without change, so a pause does not slow the reported rate (C96_rate_refuted). A window of one or
  two samples never reports convergence or being stuck and never advises a switch (C96_small_window_refuted). "More than 70%" is met by exactly 70% at 63 of 90
  samples, because 90 * 0.7 rounds below 63 (C96_switch_refuted); below 90 samples the float test is exact (C96_switch_float).
* C101: the text of a validation error is not the same in every run: the wrong probabilities, positive and concurrency parameters are collected by ranging
  over maps (swarm.go:289-304, 349-371, 376-389; C101_same_text_refuted), and a swarm of one agent with neighbours names `MaxNeighbors` twice
  (swarm.go:313, 327; C101_once_refuted). Positive: the text determines exactly which fields are wrong (C101_readable, C101_state_readable,
  C101_text_tells_fields), contains every error in full (C101_text_has_all) and the fields are those of C26 and C05 (C101_fields, C101_state_fields).
* C100: agents are not safe for every use from several goroutines: `SetDecisionMaker` writes a field that `ProposeAdjustment` reads without a lock
  (agent.go:246-248, 424; C100_decider_refuted), returning an agent to a pool writes the name that `ConnectTo` reads (pool.go:116, agent.go:280;
  C100_name_refuted), and a `Pulse` strategy shared by two agents keeps the time of its last pulse without a lock (pulse.go:30, 44; C100_strategy_refuted).
  Positive: the neighbours and what `New` sets up are never touched in a race (C100_agents_safe); the decision maker and the name are safe as long as no
  call replaces them (C100_decider_safe, C100_name_safe), a strategy is safe when it is not a pulse or is asked by one goroutine (C100_strategy_safe); no
  calls ever block each other for good (C100_no_deadlock).
* C99: the simulation's shared state: a workload counts its tasks and keeps the state of a burst without a lock (agent.go:417, 337-414), while `Reset`
  writes and `Snapshot` reads them under the lock (C99_counter_refuted, C99_burst_refuted, C99_burst_reset_refuted). The swarm goroutine reads `s.swarmCtx` without a lock while
  `Resume` replaces it, and the swarm goroutine of `Resume` sets the target that the one of `Start` may still be setting
  (C99_pause_resume_refuted). Positive: everything else is never touched in a race (C99_sim_safe); the two unlocked fields are safe
  when only one goroutine uses them (C99_counter_safe, C99_burst_safe); the locks are taken in one order and never stop the simulation (C99_locks_no_deadlock).
* C98: "All client methods are thread-safe" (docs/client/emerge.md:209): two goroutines in `Start` race on `gds.targetPattern`, which
  `AchieveSynchronization` writes without the lock the struct has for it (goal_directed.go:81; the same for `Monitor.SetTarget`)
  (C98_client_safe_refuted). `RunContinuous` returns on cancellation without waiting for the goroutine it started, so calling it and then `Start` in one
  and the same goroutine races too (C98_continuous_then_start_refuted). Positive: with Start called from at most one goroutine there is no data race on any
  path (C98_client_safe); a continuous run never races with itself or with any call but Start (C98_continuous_safe); calls never deadlock, several Starts
  included (C98_no_deadlock).
* C97: "The method blocks until the context is canceled or an error occurs" (client/emerge/emerge.go:39): a run that reaches its goal returns nil
  (C97_blocks_refuted). A client of the library with any goal but AdaptToTraffic, whose agents do not all start at 100 ms, never succeeds in its whole
  lifetime, however often it is started and disrupted in between (C97_client_life_refuted). RunContinuous on it makes a single attempt and then returns the
  error with the context alive, against "This method only exits when the context is canceled" and "continuous recovery attempts"
  (C97_client_continuous_refuted, C97_one_attempt). Positive: a run that succeeded succeeds again at the first look and moves nobody (C97_again).
  `Client.Stop` has an empty body, as its comment says, so it has no definition in the model.
* C19: on a machine with more than 16 processors a swarm of 1000 agents gets fewer workers than one of 999 (C19_worker_count_refuted).
* Notes without a refuted claim: the boost a template proposes for a coherence gap ignores the coherence already there (C41_template_boost); a restart of a
  continuous run forgets the peak (C28_restart_peak); at the huge scale the simulation's target for consensus is above the default, elsewhere below
  (C53_sim_target_consensus).
