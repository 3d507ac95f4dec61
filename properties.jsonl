{"id": "C01", "title": "WrapPhase normalises every finite phase into [0, 2*pi)", "statement": "core.WrapPhase(x) returns, for every finite float64 x, a finite float64 r with 0 <= r < 2*math.Pi, and r differs from x by an integer number of turns up to at most one rounding of the single addition it performs; NaN and infinities give NaN. Wrapping an already twice-wrapped value changes nothing. In exact arithmetic the result is the unique representative of x in [0, 2*pi) and wrapping is idempotent.", "quantifier": "every float64 value (including subnormals, -0, huge magnitudes, NaN and infinities)", "why_tests_cant": "2^64 inputs; the dangerous ones are tiny negative numbers where adding 2*pi rounds to exactly 2*pi, and huge values; a sample cannot exclude an input that yields r = 2*pi or r < 0.", "anchors": ["emerge/core/phase.go:WrapPhase"]}
{"id": "C02", "title": "PhaseDifference is the signed shortest arc", "statement": "core.PhaseDifference(a,b) is in [-pi, pi], its magnitude is the shortest circular distance between a and b, adding it to b gives a modulo full turns, and swapping the arguments negates it. (The source special-cases the pairs within 1e-10 of (0, 3*pi/2) and (3*pi/2, 0); the claim must be checked there too.)", "quantifier": "every pair of phases", "why_tests_cant": "The domain is a two-dimensional continuum; the exceptional windows have width 1e-10 and random tests never land there.", "anchors": ["emerge/core/phase.go:PhaseDifference"]}
{"id": "C03", "title": "MeasureCoherence is the Kuramoto order parameter", "statement": "core.MeasureCoherence(phases) lies in [0,1]; it is 0 for no phases, 1 for one phase; it is 1 exactly when all phases agree modulo full turns; it does not depend on the order of the phases, on adding full turns to any phase, or on rotating all phases by the same angle; n equally spaced phases give 0.", "quantifier": "every finite list of phases of any length, every permutation and every rotation", "why_tests_cant": "Lists of unbounded length over a continuum; swarm code feeds it phases in Go map iteration order, so order independence must hold for all permutations.", "anchors": ["emerge/core/phase.go:MeasureCoherence", "emerge/swarm/swarm.go:MeasureCoherence"]}
{"id": "C04", "title": "Weighted coherence", "statement": "core.MeasureCoherenceWeighted(phases, weights) lies in [0,1] for non-negative weights, ignores excess entries of the longer list, returns 0 when the weights sum to 0, agrees with MeasureCoherence for equal positive weights, and is invariant under scaling all weights.", "quantifier": "every pair of lists, every non-negative weight vector", "why_tests_cant": "Unbounded lists over a continuum; the doc does not restrict weights and negative weights break the bound.", "anchors": ["emerge/core/phase.go:MeasureCoherenceWeighted"]}
{"id": "C05", "title": "State validation and normalisation", "statement": "core.State.NormalizeAndValidate either reports an error or leaves a state with phase in [0,2*pi), coherence in [0,1] and positive frequency, which Validate accepts; states already in range are left alone; it terminates for every finite phase.", "quantifier": "every State value including NaN, infinities and huge finite phases", "why_tests_cant": "Termination of the repeated +/-2*pi loops depends on float absorption at large magnitudes, which only a proof over all floats (or a hanging test) exposes.", "anchors": ["emerge/core/state.go:Validate", "emerge/core/state.go:NormalizeAndValidate", "emerge/core/state.go:normalize"]}
{"id": "C06", "title": "Pattern distance and gap identification", "statement": "core.PatternDistance is MaxFloat64 for a nil pattern, otherwise in [0,1] for coherences in [0,1] and 0 for equal patterns; core.IdentifyGaps reports a phase, frequency or coherence gap exactly when that component is out of its tolerance, in that order, and an empty result means all tolerances hold; severities are in [0,1].", "quantifier": "every pair of patterns", "why_tests_cant": "Continuum of inputs with threshold boundaries; severity of the frequency gap is an unclamped ratio.", "anchors": ["emerge/core/pattern.go:PatternDistance", "emerge/core/pattern.go:IdentifyGaps"]}
{"id": "C07", "title": "Agent attribute invariants survive every call history", "statement": "Whatever sequence of constructor options and public setters/ApplyAction calls is made on an agent with non-NaN, finite arguments, Phase() and LocalGoal() stay in [0,2*pi), Energy() stays >= 0, Influence() and Stubbornness() stay in [0,1].", "quantifier": "every finite sequence of API calls with arbitrary float arguments", "why_tests_cant": "Histories are unbounded; each setter clamps separately and options write through different paths.", "anchors": ["emerge/agent/agent.go:New", "emerge/agent/agent.go:SetPhase", "emerge/agent/agent.go:SetEnergy", "emerge/agent/agent.go:SetInfluence", "emerge/agent/agent.go:ApplyAction", "emerge/agent/agent.go:WithPhase"]}
{"id": "C08", "title": "ApplyAction energy accounting", "statement": "agent.ApplyAction fails with an insufficient-energy error exactly when the action costs more than the agent's energy, and with an unknown-type error for unsupported types; on any error phase, goal, frequency and energy are unchanged; on success the energy drops by exactly the cost (never below 0), the phase moves by the action value for phase actions and not at all for maintain, and the reported cost is what the resource manager actually granted. Total energy spent never exceeds the initial energy.", "quantifier": "every agent state, every action, every sequence of actions with non-negative costs", "why_tests_cant": "Budget exhaustion depends on the whole history of actions; NaN and negative costs are inputs nobody tests.", "anchors": ["emerge/agent/agent.go:ApplyAction", "internal/resource/token.go:Request"]}
{"id": "C09", "title": "ProposeAdjustment gating", "statement": "ProposeAdjustment returns (maintain action, false) whenever the stubbornness draw refuses or the chosen action is unaffordable; an action returned with true costs no more than the energy the agent had and applying it right away cannot fail for lack of energy; an agent with stubbornness 1 never accepts; with zero confidence nothing is accepted.", "quantifier": "every agent state, random draw, strategy, decision maker and goal", "why_tests_cant": "Depends on two random draws and arbitrary user-supplied strategy/decision-maker implementations.", "anchors": ["emerge/agent/agent.go:ProposeAdjustment"]}
{"id": "C10", "title": "Built-in strategies move toward the target and bill what they propose", "statement": "Applying the action proposed by the phase-nudge, frequency-lock, energy-aware or pulse strategy shrinks the circular distance to the target phase by the documented factor; the proposed cost is the documented multiple of the adjustment; confidences are in [0,1] for coherences in [0,1]; every proposed action type is one that ApplyAction accepts; the adaptive strategy never indexes out of range, whatever its selector returns; pulses are at least one period apart.", "quantifier": "every state pair, context, rate, amplitude, selector function and call history", "why_tests_cant": "Continuum inputs, arbitrary selector functions and time-dependent histories.", "anchors": ["emerge/strategy/phase_nudge.go", "emerge/strategy/frequency_lock.go", "emerge/strategy/energy_aware.go", "emerge/strategy/pulse.go", "emerge/strategy/adaptive.go"]}
{"id": "C11", "title": "Decision maker picks a best option", "statement": "SimpleDecisionMaker.Decide returns one of the offered options, whose benefit/max(cost,0.1) ratio is maximal, the first such in order; the confidence is in [0,1] for any float inputs (NaN and infinities included); with no options it returns a maintain action.", "quantifier": "every list of options with arbitrary float benefit and cost", "why_tests_cant": "Unbounded option lists and non-finite benefits.", "anchors": ["emerge/decision/simple.go:Decide"]}
{"id": "C12", "title": "Goal blending follows the shortest arc", "statement": "WeightedManager.Blend with weight 0 returns the local phase and coherence, with weight 1 the global ones (modulo full turns), in between a phase on the shortest arc at the given fraction and a convex combination of coherences; the phase is in [0,2*pi); the frequency is always the local one.", "quantifier": "every pair of states and every weight", "why_tests_cant": "Continuum of states and weights, wrap-around at the 0/2*pi seam.", "anchors": ["emerge/goal/manager.go:Blend"]}
{"id": "C13", "title": "Concurrent attribute updates", "statement": "Readers of an agent concurrent with writers never see a torn mixture of two updates; every value read was stored whole by some writer; the range invariants of C07 hold at every instant of every schedule; but independent concurrent setters of different attributes must not undo each other, and two concurrent actions must not be paid from the same energy.", "quantifier": "every interleaving of any number of goroutines performing any updates", "why_tests_cant": "Schedules are unbounded and the race window is two machine instructions wide.", "anchors": ["emerge/agent/atomic_state.go:Update", "emerge/agent/atomic_state.go:Load", "emerge/agent/atomic_state.go:Store", "emerge/agent/agent.go:ApplyAction"]}
{"id": "C14", "title": "Token manager never over-allocates", "statement": "For a token manager of capacity max, Available() is always between 0 and max; Request(x) grants exactly min(x, available) and nothing for x <= 0; Release never lifts the pool above max; tokens granted minus tokens returned equals the drop of the pool unless a release is capped; all of this holds for every interleaving of concurrent callers.", "quantifier": "every sequence (and hence every interleaving of mutex-protected calls) of Request/Release with arbitrary float arguments", "why_tests_cant": "Unbounded histories and special float values; NaN or an infinite capacity can poison the pool.", "anchors": ["internal/resource/token.go:NewTokenManager", "internal/resource/token.go:Request", "internal/resource/token.go:Release"]}
{"id": "C15", "title": "Neighbor storage is a bounded map", "statement": "The neighbor storage behaves as a finite map from IDs to agents bounded by its capacity: Store overwrites or inserts and refuses only new IDs when full, Load returns the latest stored agent, Delete removes exactly that ID, Range/All visit each stored neighbor exactly once, Count is the number of stored IDs, Clear empties it.", "quantifier": "every operation sequence, every capacity", "why_tests_cant": "The swap-with-last deletion and the linear scan make correctness depend on the entire history.", "anchors": ["emerge/agent/neighbor_storage.go"]}
{"id": "C16", "title": "Context reflects the connected neighbors", "statement": "After UpdateContext, the local coherence is the order parameter of the agent with its connected neighbors' phases and lies in [0,1], density is neighbors/possible neighbors and lies in [0,1], and the local goal is on the arc from the agent's phase to the neighbors' mean direction.", "quantifier": "every neighborhood and every swarm-size setting", "why_tests_cant": "Depends on the whole connection history and on the default swarm-size fields.", "anchors": ["emerge/agent/agent.go:UpdateContext", "emerge/agent/agent.go:calculateLocalCoherence"]}
{"id": "C17", "title": "Agent pooling hands out clean agents", "statement": "GetFromPool/PutToPool: an agent obtained from the pool behaves like a new agent (default attributes, no neighbors) whatever was done to it before being returned; the statistics satisfy in-use = gets - puts and news <= gets.", "quantifier": "every history of gets, uses and puts", "why_tests_cant": "sync.Pool may return a fresh zero object or any recycled one; tests see only one of the two.", "anchors": ["emerge/agent/pool.go"]}
{"id": "C18", "title": "Agent construction from configuration", "statement": "NewFromConfig fails exactly for unknown component type names, and otherwise yields an agent whose attributes are those of the configuration (clamped into range); the optimised constructor agrees with it.", "quantifier": "every configuration value", "why_tests_cant": "Combinatorial space of type names, zero-value conventions and option order.", "anchors": ["emerge/agent/builder.go:NewFromConfig", "emerge/agent/agent.go:NewOptimizedFromConfig"]}
{"id": "C19", "title": "Swarm construction", "statement": "swarm.New(size, goal) without options succeeds exactly when 1 <= size <= 1,000,000 and the goal is valid; the swarm then has exactly size agents with pairwise different IDs, Agent(id) finds exactly the agents listed by Agents(), for every size on both sides of the storage switch at 100; the stored goal coherence never exceeds the practical limit for that size.", "quantifier": "every size and goal", "why_tests_cant": "Unbounded sizes; two storage implementations with a hidden switch.", "anchors": ["emerge/swarm/swarm.go:New", "emerge/swarm/swarm.go:Agents", "emerge/swarm/swarm.go:Agent", "emerge/swarm/swarm.go:createDefaultAgents", "emerge/swarm/swarm.go:createOptimizedAgents"]}
{"id": "C20", "title": "Random wiring is symmetric and irreflexive", "statement": "After the swarm wires its agents, no agent is its own neighbor and a is a neighbor of b exactly when b is a neighbor of a, for every outcome of every random draw.", "quantifier": "every swarm size, configuration and random draw sequence, both wiring algorithms", "why_tests_cant": "The random draw space is exponential in the number of pairs.", "anchors": ["emerge/swarm/swarm.go:establishMinimalConnections", "emerge/swarm/swarm.go:establishProbabilisticConnections", "emerge/swarm/swarm.go:ensureMinimumConnectivity"]}
{"id": "C21", "title": "Neighbor bounds of the random wiring", "statement": "In the probabilistic wiring every agent ends with at least MinNeighbors neighbors whenever the swarm is larger than MinNeighbors, the retry loop can always make progress, and no agent has more than MaxNeighbors neighbors.", "quantifier": "every swarm size, configuration and random draw sequence", "why_tests_cant": "Worst-case draws have astronomically small probability but are allowed behaviours; the reverse edge insertion bypasses the upper bound.", "anchors": ["emerge/swarm/swarm.go:connectToNeighbors", "emerge/swarm/swarm.go:ensureMinimumConnectivity"]}
{"id": "C22", "title": "Agents see the connections the swarm made", "statement": "After a swarm has connected a and b, a.IsConnectedTo(b) holds and a's context (UpdateContext) takes b into account.", "quantifier": "every wired swarm", "why_tests_cant": "Two separate neighbor containers exist; the relevant claim is about which container each API reads for all call orders.", "anchors": ["emerge/agent/agent.go:Neighbors", "emerge/agent/agent.go:IsConnectedTo", "emerge/agent/agent.go:UpdateContext", "emerge/swarm/swarm.go:connectToNeighbors"]}
{"id": "C23", "title": "Predefined topologies", "statement": "The fully-connected, ring and star topology builders give every agent exactly the neighbors the topology's definition prescribes, for every number of agents, and return an error when there are too few agents.", "quantifier": "every number of agents and every enumeration order", "why_tests_cant": "The number of agents is unbounded and each agent's neighbor list has a silent hidden capacity.", "anchors": ["internal/topology/full.go", "internal/topology/ring.go", "internal/topology/star.go", "emerge/agent/agent.go:ConnectTo"]}
{"id": "C24", "title": "Coherence limits are coherent", "statement": "For every positive size recommended <= practical <= theoretical <= 1, limits do not decrease with size from 2 on; ValidateCoherenceTarget never raises the target, never exceeds the theoretical limit and is idempotent; a swarm of GetMinimumSwarmSize(t) agents can practically reach t; the convergence time factor is at least 1 and monotone in the target.", "quantifier": "every integer size and every float target", "why_tests_cant": "Interval boundaries of two independent step tables must agree for all targets.", "anchors": ["emerge/swarm/limits.go"]}
{"id": "C25", "title": "Goal configuration presets are valid", "statement": "swarm.For(goal).WithSize(n) passes Validate for every goal and every n; tuning a valid preset for any trait keeps it valid.", "quantifier": "every goal, trait, size and chain of tunings", "why_tests_cant": "The chain of tunings is unbounded and the parameters are multiplied without clamping.", "anchors": ["emerge/swarm/config.go:For", "emerge/swarm/config.go:TuneFor", "emerge/swarm/config.go:WithSize", "emerge/swarm/config.go:Validate"]}
{"id": "C26", "title": "Swarm configuration normalisation", "statement": "config.Swarm.NormalizeAndValidate(size) succeeds exactly when size > 0 and size does not exceed a positive MaxSwarmSize; the normalised configuration satisfies every documented constraint (probabilities in [0,1], 0 <= MinNeighbors <= MaxNeighbors <= size-1, positive batch/worker counts), normalising again changes nothing, and every auto-scaled or batching configuration passes.", "quantifier": "every configuration, every size", "why_tests_cant": "Unbounded integers and floats (NaN included), interacting defaulting rules.", "anchors": ["internal/config/swarm.go", "internal/config/validation.go"]}
{"id": "C27", "title": "Synchronisation run terminates and reports honestly", "statement": "Run performs at most 1000 measurement rounds; it returns nil only if the success criterion held at the last measurement before returning, the context's error if cancelled, and an error after the round budget otherwise; the round budget is positive for every accepted swarm.", "quantifier": "every sequence of measured patterns, every cancellation point, every target", "why_tests_cant": "Schedules of measurements and cancellation are unbounded; the round budget is a float-to-int conversion of a possibly infinite product.", "anchors": ["emerge/swarm/goal_directed.go:AchieveSynchronization", "emerge/swarm/goal_directed.go:isPatternAchieved", "emerge/swarm/limits.go:GetConvergenceTimeFactor"]}
{"id": "C28", "title": "Resynchronisation decision", "statement": "During continuous operation a measurement below the minimum viable coherence, below target*margin, or dropped from the recent peak by more than the large-drop ratio always requests resynchronisation; a steady measurement at or above target never does; every configured threshold (including the stuck threshold) influences the decision.", "quantifier": "every monitoring history and threshold configuration", "why_tests_cant": "Depends on peak/last/stable-count history over arbitrarily long runs.", "anchors": ["emerge/swarm/swarm_continuous_run.go:needsResync", "emerge/swarm/swarm_continuous_run.go:DefaultRecoveryConfig"]}
{"id": "C29", "title": "Continuous operation", "statement": "RunContinuous keeps at most one synchronisation active at a time, starts restarts more than 500ms apart, never stops by itself, and exits only when the context is cancelled.", "quantifier": "every interleaving of ticks, completions, failures and cancellation", "why_tests_cant": "Unbounded event schedules.", "anchors": ["emerge/swarm/swarm_continuous_run.go:RunContinuous"]}
{"id": "C30", "title": "Reported convergence status", "statement": "After a swarm or client run that succeeded, IsConverged() is true and Coherence()/CurrentCoherence() reports the measured coherence.", "quantifier": "every run of the library", "why_tests_cant": "The claim is about all calls that feed the monitor anywhere in the library, i.e. all executions.", "anchors": ["emerge/swarm/swarm.go:IsConverged", "emerge/swarm/swarm.go:CurrentCoherence", "client/emerge/emerge.go:IsConverged", "client/emerge/emerge.go:Coherence", "emerge/monitoring/convergence.go:Record"]}
{"id": "C31", "title": "Phase convergence and variance measures", "statement": "MeasurePhaseConvergence(target) lies in [0,1] and is 1 exactly when all agents are at the target; MeasurePhaseVariance is non-negative, and 0 when all phases agree.", "quantifier": "every agent population and every target phase accepted by the goal validator", "why_tests_cant": "Continuum of phases, unbounded population; goal phases are accepted unnormalised.", "anchors": ["emerge/swarm/phase_convergence.go"]}
{"id": "C32", "title": "Pattern-completion round", "statement": "One synchronisation round keeps every agent's phase in [0,2*pi) and frequency positive, and an agent that is out of the tolerance window moves toward the target along the shorter arc.", "quantifier": "every population, target, random draw and iteration", "why_tests_cant": "Random draws and populations are unbounded.", "anchors": ["emerge/swarm/goal_directed.go:applyPatternCompletion"]}
{"id": "C33", "title": "Strategy switching", "statement": "When the loop is stuck it always selects one of the registered strategies, never crashes, and with no exploration noise selects one of maximal score.", "quantifier": "every performance table, every last-used time, every random draw, every map iteration order", "why_tests_cant": "Go map iteration order and random exploration.", "anchors": ["emerge/swarm/goal_directed.go:switchStrategy"]}
{"id": "C34", "title": "Disruption", "statement": "DisruptAgents(p) randomises the phases of floor(p*n) of the n agents (all of them for p >= 1, none for p <= 0), whatever the swarm size, leaving the others untouched.", "quantifier": "every fraction, swarm size and iteration order", "why_tests_cant": "Map iteration order and the two storage back-ends.", "anchors": ["emerge/swarm/swarm.go:DisruptAgents"]}
{"id": "C35", "title": "Worker pool", "statement": "Every function submitted before Stop is executed exactly once; Stop never blocks and may be called once.", "quantifier": "every schedule of submitters, workers and Stop", "why_tests_cant": "Unbounded schedules; select chooses randomly between the quit and work channels.", "anchors": ["emerge/swarm/swarm.go:WorkerPool"]}
{"id": "C36", "title": "Convergence monitor bookkeeping", "statement": "After any sequence of Record/Reset, IsConverged is true exactly when the latest sample since the last Reset reached the threshold, ConvergenceTime measures from the reset to the first sample of the current unbroken run at or above threshold, History is exactly the samples since the last Reset in order, and Statistics' min/max/mean are those of the history.", "quantifier": "every sequence of samples (NaN included) and resets", "why_tests_cant": "Unbounded histories with re-convergence.", "anchors": ["emerge/monitoring/convergence.go"]}
{"id": "C37", "title": "Convergence statistics are statistically correct", "statement": "ConvergenceRate is the least-squares slope of the history (zero for fewer than two samples, exact on linear data, positive on strictly increasing data, invariant under adding a constant); Stability is in (0,1] and equals 1 exactly for a constant window.", "quantifier": "every history", "why_tests_cant": "Real-valued algebraic identities over unbounded lists.", "anchors": ["emerge/monitoring/convergence.go:ConvergenceRate", "emerge/monitoring/convergence.go:Stability"]}
{"id": "C38", "title": "Rolling monitor keeps the most recent samples", "statement": "monitoring.Monitor's History is always exactly the most recent 100 samples in recording order (all of them if fewer), Latest is the last one, Average lies between the smallest and the largest retained sample.", "quantifier": "every sequence of samples", "why_tests_cant": "Unbounded histories.", "anchors": ["emerge/monitoring/monitor.go"]}
{"id": "C39", "title": "Monitor calls never deadlock", "statement": "Concurrent calls of the convergence monitor's methods by any number of goroutines always complete.", "quantifier": "every schedule of readers and writers", "why_tests_cant": "Needs a writer to arrive between two nested read-lock acquisitions; tests almost never hit that window.", "anchors": ["emerge/monitoring/convergence.go:Statistics", "emerge/monitoring/convergence.go:PredictConvergenceTime"]}
{"id": "C40", "title": "Goal-directed convergence monitor", "statement": "The sample history is bounded and holds the most recent samples; GetProgress is in [0,1]; a swarm that keeps approaching its target never reports shrinking progress; IsStuck is reported after more than five consecutive flat checks and cleared by Reset; ShouldSwitchStrategy never fires on fewer than three samples.", "quantifier": "every history of samples", "why_tests_cant": "Unbounded histories; the baseline sample is dropped when the history is trimmed.", "anchors": ["emerge/convergence/monitor.go"]}
{"id": "C41", "title": "Pattern completion engine", "statement": "The engine's best template has minimal distance among templates below the threshold whatever the map order; interpolation never moves more than half of the gap and only toward the target; waveform morphing never indexes out of range, has the length of the longer input and stays between the two waveforms.", "quantifier": "every template table, iteration order, pattern and waveform", "why_tests_cant": "Go map order and unbounded waveforms.", "anchors": ["emerge/completion/engine.go"]}
{"id": "C42", "title": "Pattern detection, completion and similarity", "statement": "For monitoring.TargetPattern: every gap found by Detect can be filled by Complete; Detect and Complete never panic; a pattern's similarity with itself is 1 and similarity is always in [0,1].", "quantifier": "every phase and frequency list", "why_tests_cant": "Unbounded lists, 0/0 on constant patterns.", "anchors": ["emerge/monitoring/patterns.go"]}
{"id": "C43", "title": "Attractor basin", "statement": "AttractionForce is between 0 and the basin's strength, zero outside the radius, largest at the target; OptimalAdjustment points toward the target and does not overshoot it.", "quantifier": "every basin and phase", "why_tests_cant": "Continuum; a boost for one half of the circle breaks the bound.", "anchors": ["internal/emerge/basin.go"]}
{"id": "C44", "title": "Random helpers", "statement": "random.Float64 is in [0,1) and every multiple of 2^-53 is equally likely; random.Phase is strictly below 2*pi; random.Intn(n) is in [0,n) and exactly uniform (each result has the same number of accepted source values) and fails only for n <= 0 or n > 2^31-1.", "quantifier": "every value the entropy source can deliver and every n", "why_tests_cant": "2^64 source values; statistical tests cannot show exact uniformity nor exclude rounding up to 2*pi.", "anchors": ["internal/random/random.go", "simulations/emerge/simulation/agent.go:secureRandIntn"]}
{"id": "C45", "title": "Scale, goal and trait tables", "statement": "scale.FromCount(s.DefaultAgentCount()) = s for every scale, FromCount is monotone in the count, target coherences are valid and within the practical limit of the scale's size; every goal has a distinct name and short key.", "quantifier": "every scale, goal and every integer agent count", "why_tests_cant": "FromCount ranges over all integers.", "anchors": ["emerge/scale/scale.go", "emerge/goal/config.go", "emerge/trait/trait.go"]}
{"id": "C46", "title": "Batch splitting and cost accounting", "statement": "When collected tasks are split into API batches, concatenating the batches gives the tasks in order, each batch has 1..100 tasks and all but the last exactly 100; the metrics count every task and batch exactly once, the cost without batching is never below the cost with batching, the reported savings are their difference, and the size histogram sums to the number of batches.", "quantifier": "every list of tasks, every sequence of batches", "why_tests_cant": "Unbounded sizes and histories.", "anchors": ["simulations/emerge/simulation/batch_manager.go", "simulations/emerge/simulation/metrics.go"]}
{"id": "C47", "title": "No submitted task is lost or processed twice", "statement": "Every task handed to the batch manager is processed exactly once, in submission order, whatever the interleaving of submitters, the collection window timer and the processor.", "quantifier": "every schedule", "why_tests_cant": "Needs the bounded queue to be full at the moment of submission.", "anchors": ["simulations/emerge/simulation/batch_manager.go:SubmitBatch", "simulations/emerge/simulation/batch_manager.go:ProcessBatches", "simulations/emerge/simulation/agent.go:sendBatch"]}
{"id": "C48", "title": "Workload task bookkeeping", "statement": "Every generated task is either pending or was handed over exactly once; task IDs of a workload are never reused; a workload only sends when it has pending tasks.", "quantifier": "every history of task arrivals, batching decisions and resets", "why_tests_cant": "Unbounded histories; counters are reset.", "anchors": ["simulations/emerge/simulation/agent.go"]}
{"id": "C49", "title": "Resetting the simulation never hangs", "statement": "Reset of the simulation while it is running always completes.", "quantifier": "every schedule of reset, processor and workload goroutines", "why_tests_cant": "Needs the processor to take the last queued batch between a length check and a blocking receive.", "anchors": ["simulations/emerge/simulation/batch_manager.go:Reset", "simulations/emerge/simulation/simulation.go:Reset"]}
{"id": "C50", "title": "Pause stops the swarm, Resume restarts it once", "statement": "After Pause no synchronisation run is active; after Resume exactly one is; while paused the reported coherence and phases stay frozen.", "quantifier": "every sequence of Start/Pause/Resume/Reset/Disrupt and every interleaving with agent updates", "why_tests_cant": "Unbounded control histories.", "anchors": ["simulations/emerge/simulation/simulation.go:Pause", "simulations/emerge/simulation/simulation.go:Resume", "simulations/emerge/ui/runner.go"]}
{"id": "C51", "title": "Request-pattern scoring", "statement": "GetCoherenceModifier always lies between 0.5 and 1.5 as documented, and BestPatternForGoal is a pattern with the largest modifier for that goal at every agent count.", "quantifier": "every goal, pattern and agent count", "why_tests_cant": "Agent counts are unbounded and scale the modifier.", "anchors": ["simulations/emerge/simulation/pattern/pattern.go"]}
{"id": "C52", "title": "Keyboard control", "statement": "Every goal's and pattern's advertised short key (in either case) selects that goal or pattern in the keyboard controller, and no key triggers two events.", "quantifier": "every key", "why_tests_cant": "Agreement of three independent tables.", "anchors": ["simulations/display/controller.go", "emerge/goal/config.go:ShortKey", "simulations/emerge/simulation/pattern/pattern.go:ShortKey"]}
{"id": "C53", "title": "Client builder", "statement": "Build succeeds for every goal, scale and target coherence in (0,1], uses the scale's default coherence when none (or a non-positive one) is given, and yields a client whose Size is the scale's agent count; WithCoherenceOption rejects values outside (0,1].", "quantifier": "every goal, scale and coherence value", "why_tests_cant": "Continuum of coherences times enumerations, NaN included.", "anchors": ["client/emerge/custom.go", "client/emerge/builder.go", "client/emerge/emerge.go"]}
{"id": "C54", "title": "Activity shown for a workload", "statement": "The snapshot of a workload shows burst mode exactly during a burst, active for a high-frequency workload and for a sparse one with pending tasks, steady for the steady pattern, and active for a mixed workload that made a request in the last 200 ms.", "quantifier": "every workload state and pattern", "why_tests_cant": "The field the mixed case depends on is never written; every history has to be considered.", "anchors": ["simulations/emerge/simulation/agent.go:Snapshot"]}
{"id": "C55", "title": "Coherence metrics", "statement": "The metrics report the highest coherence seen and the time at which it first reached 0.7.", "quantifier": "every history of batches, coherence updates and resets", "why_tests_cant": "Unbounded histories; needs to know that no code path records a coherence.", "anchors": ["simulations/emerge/simulation/metrics.go", "simulations/emerge/simulation/simulation.go:Statistics"]}
{"id": "C56", "title": "Reset prepares the worst case of each goal, Disrupt moves a fifth", "statement": "After Reset the coherence is below 0.00001 for the goals that want synchrony (minimise API calls, consensus) with at least two agents, exactly 1 for distribute load, save energy and adapt to traffic, within 0.00001 of (n mod 2)/n for minimise latency and recover from failure, and at most 4/(3n) for maintain rhythm. Disrupt moves exactly the first floor(n/5) agents by 3.14159, leaves the others alone, and changes the coherence by at most 0.4; on a synchronised swarm it leaves a coherence within 0.00001 of 1 - 2*floor(n/5)/n.", "quantifier": "every goal, every number of agents, every phase assignment before", "why_tests_cant": "Unbounded agent counts and phases; geometric sums.", "anchors": ["simulations/emerge/simulation/simulation.go:Reset", "simulations/emerge/simulation/simulation.go:Disrupt"]}
{"id": "C57", "title": "Words for a coherence level", "statement": "A coherence is described by one of five words, chosen by how many of the marks 0.2, 0.4, 0.6 and 0.8 it reaches; a higher coherence never gets a lower word; the variants with and without symbols distinguish the same cases.", "quantifier": "every coherence value and mode", "why_tests_cant": "All floats including the neighbours of the marks and NaN.", "anchors": ["internal/analysis/quality.go"]}
{"id": "C58", "title": "Diagnosis of a run", "statement": "A run is reported as successful exactly when its final coherence reaches the target; otherwise at least two suggestions are given and the diagnosis is: stuck if more than a third of the iterations were stuck, else minimal progress if the gain is below 0.1, else close if less than 0.1 is missing, else partial.", "quantifier": "every run statistics, target and mode", "why_tests_cant": "Unbounded numeric inputs.", "anchors": ["internal/analysis/diagnostics.go"]}
{"id": "C59", "title": "Convergence rate words", "statement": "The rate word depends only on the exact fraction of the allowed iterations used: below 3/10 fast, below 6/10 normal, below 9/10 slow, else very slow.", "quantifier": "all iteration counts up to 2^40", "why_tests_cant": "The comparison is made on rounded quotients; only exhaustive reasoning shows that no pair of counts is on the wrong side.", "anchors": ["internal/analysis/diagnostics.go:AnalyzeConvergenceRate"]}
{"id": "C60", "title": "Clamp, minimum and maximum", "statement": "Clamp01 returns the point of the unit interval nearest to its argument; Min and Max return one of their arguments and bound both.", "quantifier": "all floats", "why_tests_cant": "All floats including NaN and infinities.", "anchors": ["internal/sim/mathx.go"]}
{"id": "C61", "title": "Load panel", "statement": "The panel counts each agent in the server of its quarter of the circle, draws 20 cells per n/4+1 agents, marks a server red when it has more, and shows BALANCED when the standard deviation of the four loads is at most 2.", "quantifier": "all agent lists with phases in [0,2pi)", "why_tests_cant": "Unbounded agent counts, rounding of shares and of the deviation.", "anchors": ["simulations/display/display.go:displayLoadDistribution", "simulations/display/display.go:calculateLoadVariance"]}
{"id": "C62", "title": "Consensus panel", "statement": "The panel shows the share of the largest group of agents in the same state and announces consensus when it is at least 95 percent; agents in nearly the same state count as agreeing.", "quantifier": "all non-empty agent lists", "why_tests_cant": "Map iteration order, unbounded counts, rounded percentages.", "anchors": ["simulations/display/display.go:displayConsensusProgress"]}
{"id": "C63", "title": "Latency histogram", "statement": "Every agent is counted on the line whose label contains its latency; bars are thirtieths of the agents; agents in nearly the same state are on neighbouring lines.", "quantifier": "all non-empty agent lists with phases in [0,2pi)", "why_tests_cant": "Unbounded counts and rounding.", "anchors": ["simulations/display/display.go:displayLatencyHistogram"]}
{"id": "C64", "title": "Energy and traffic panels", "statement": "Each agent is counted once; the bar shows the share in twentieths; EFFICIENT is shown exactly above 70 percent asleep; the scaling advice is up exactly above 80, down exactly below 30 percent.", "quantifier": "all agent lists up to 2^40", "why_tests_cant": "The thresholds are tested on rounded percentages; only a proof covers all pairs of counts.", "anchors": ["simulations/display/display.go:displayEnergyPattern", "simulations/display/display.go:displayTrafficLoad"]}
{"id": "C65", "title": "Schedule panel", "statement": "Each job is early, on time or late according to its drift; the largest group has a bar of 15 cells and the others are in proportion.", "quantifier": "all non-empty agent lists with phases in [0,2pi)", "why_tests_cant": "Rounding of 15/m for all m.", "anchors": ["simulations/display/display.go:displayScheduleAlignment"]}
{"id": "C66", "title": "Health panel", "statement": "Each agent is healthy, degraded or failed; bars are twentieths; none is failed unless disrupted; FULLY RESILIENT is shown exactly when undisrupted and all agents are healthy, and a swarm in agreement is healthy.", "quantifier": "all non-empty agent lists, disrupted or not", "why_tests_cant": "Unbounded counts and rounding.", "anchors": ["simulations/display/display.go:displaySystemHealth"]}
{"id": "C67", "title": "Goal gauges", "statement": "The gauge shows a percentage between 0 and 100; its value is the coherence or the share of agents rounded down, its colour follows the thresholds of the goal, and it agrees with the panel of the same goal.", "quantifier": "all coherences and targets in [0,1], all non-empty agent lists up to 2^40", "why_tests_cant": "Rounding at thresholds and unbounded counts.", "anchors": ["simulations/display/display.go:updateGoalGauges"]}
{"id": "C68", "title": "History chart", "statement": "The chart holds the coherence and target of the last fifty updates made while not paused, in order, and draws every one of them.", "quantifier": "all sequences of updates", "why_tests_cant": "Sequences of any length.", "anchors": ["simulations/display/display.go:updateHistory", "simulations/display/display.go:updateChart"]}
{"id": "C69", "title": "Agent colours in the swarm view", "statement": "The magnitude used is the coherence of the swarm; from magnitude 0.3 on, an agent is coloured by its distance to the mean phase along the circle; below 0.3 colours tell three groups of phases apart.", "quantifier": "all phases in [0,2pi) and all means", "why_tests_cant": "Continuous phases and wrap-around.", "anchors": ["simulations/display/display.go:calculateMeanField", "simulations/display/display.go:getAgentColor"]}
{"id": "C70", "title": "Swarm grid", "statement": "Drawing the swarm never panics; the grid is always 13 by 25 with its centre marked; every other cell is blank or shows one of the first twenty agents, and each of these is drawn.", "quantifier": "all phase lists and coherences", "why_tests_cant": "Indices computed from trigonometric functions of arbitrary inputs.", "anchors": ["simulations/display/display.go:updateSwarmDisplay", "simulations/display/display.go:createEmptyGrid", "simulations/display/display.go:getAgentCharacter"]}
{"id": "C71", "title": "Synchronisation indicators", "statement": "The indicator of an agent depends on its distance along the circle to the positions wanted by the goal; at most ten agents are listed and the rest counted.", "quantifier": "all goals and phases in [0,2pi)", "why_tests_cant": "Continuous phases and wrap-around.", "anchors": ["simulations/display/display.go:updateAgentsDisplay"]}
{"id": "C72", "title": "Metric colours", "statement": "A higher coherence never gets a worse colour (for load distribution: never a better one); energy and savings colours change exactly at their thresholds.", "quantifier": "all goals, floats and agent lists", "why_tests_cant": "Float comparisons at thresholds for all inputs.", "anchors": ["simulations/display/display.go:updateMetricsDisplay"]}
{"id": "C73", "title": "Batching waves", "statement": "The waves have eight rows and one column for each of the first 35 agents; a column is filled from the bottom to its height, which is between 0 and 8.", "quantifier": "all phase lists", "why_tests_cant": "Unbounded lists, float sine.", "anchors": ["simulations/display/display.go:displayBatchingWaves"]}
{"id": "C74", "title": "Menu keys", "statement": "Every key shown in the menu does what its entry says, and every key that does something is shown (Esc and space apart); an entry is highlighted exactly when the choice it leads to is the current goal, a recommended scale or a good pattern.", "quantifier": "all goals, scales, patterns, keys and controller configurations", "why_tests_cant": "Menu, key table and rating tables live in three files; only sample keys can be pressed.", "anchors": ["simulations/display/display.go:updateInstructionsWidget", "simulations/display/controller.go:handleKeyboard"]}
{"id": "C75", "title": "Welcome screen assessment", "statement": "The mark, word, colour and reason shown for a pattern and a scale agree with each other and with the rating; a reason in favour is shown exactly for a good rating.", "quantifier": "all goals, patterns and scales", "why_tests_cant": "A table of 76 reasons with defaults, checked against a separate table of ratings.", "anchors": ["simulations/display/display.go:ShowWelcome", "simulations/display/display.go:getPatternReason", "simulations/display/display.go:getBestWorstDescriptions"]}
{"id": "C76", "title": "Text display rate", "statement": "Two lines of the text display are at least the interval apart, and an update is suppressed only when a line was printed less than the interval ago.", "quantifier": "all sequences of updates with a non-decreasing clock", "why_tests_cant": "Unbounded sequences of clock readings.", "anchors": ["simulations/display/text_display.go:Update"]}
{"id": "C77", "title": "Scripted controller", "statement": "The events received are a prefix of the script in its order, none lost; at most ten wait; the time slept is at least the delays of everything handed over; the script goroutine stops only when all was received or, without a consumer, at ten waiting events.", "quantifier": "all scripts, delays and schedules", "why_tests_cant": "Unbounded scripts and interleavings of producer and consumer.", "anchors": ["simulations/display/controller.go:AutomatedController.run"]}
{"id": "C78", "title": "Helpers of the tests", "statement": "The test topologies store exactly the pairs of a complete graph, a ring and a star; the test agent has the documented fixed attributes and no randomness; TestSwarm and BenchmarkSwarm build populated, connected swarms of the requested size; the doubles conserve energy and blend along the circle.", "quantifier": "all sizes, goals, draws and orders of map iteration", "why_tests_cant": "The helpers are what the tests themselves rely on; a hidden mistake there makes the tests pass for the wrong reason.", "anchors": ["internal/testutil/emerge/testutil.go:TestSwarm", "internal/testutil/emerge/testutil.go:FullyConnectedTopology", "internal/testutil/emerge/testutil.go:RingTopology", "internal/testutil/emerge/testutil.go:StarTopology"]}
{"id": "C79", "title": "Snapshots and statistics", "statement": "A snapshot lists one line per workload with its own counters, shows the current phases and coherence while running and those of the moment of the pause while paused, and agrees with the final statistics and with what the displays receive; the number of collecting tasks is the number of tasks waiting.", "quantifier": "all simulations, histories of batches, instants and sequences of control events", "why_tests_cant": "Histories, queues and interleavings of pause with changes are unbounded.", "anchors": ["simulations/emerge/simulation/simulation.go:Snapshot", "simulations/emerge/simulation/simulation.go:Statistics", "simulations/emerge/ui/runner.go:convertSnapshot"]}
{"id": "C80", "title": "Numbers and times as text", "statement": "A number printed with p digits is the decimal with p digits nearest to it; texts of larger numbers and times are not smaller; different displays of one value agree.", "quantifier": "all finite binary64 numbers, all digits, all durations", "why_tests_cant": "2^64 floats and 2^63 durations; rounding cases are rare.", "anchors": ["simulations/display/display.go:formatDuration", "simulations/display/text_display.go:formatTime"]}
{"id": "C81", "title": "Texts of the panels", "statement": "Every number in the goal panels, the cost panel and the summaries is within half a digit of the quantity it names, in range, and the words agree with the colours; recovery time, names and the success message describe the run.", "quantifier": "all goals, snapshots and coherences in [0,1]", "why_tests_cant": "Real-valued inputs and unbounded agent lists; texts go to a terminal.", "anchors": ["simulations/display/display.go:updateMetricsDisplay", "simulations/display/display.go:updateCostDisplay", "simulations/display/display.go:ShowSummary", "simulations/display/text_display.go:ShowSummary"]}
{"id": "C82", "title": "An interrupt or terminate signal ends the simulation program", "statement": "Whenever the program receives an interrupt or terminate signal, its current run is cancelled and the program ends without starting another run.", "quantifier": "every schedule of signals, keys, timeouts and goroutine steps, every configuration", "why_tests_cant": "The signal goroutine, the event handler and main race over the life of several runs; tests send a signal at one moment, at most.", "anchors": ["simulations/emerge/main.go:main", "simulations/emerge/main.go:handleSignals", "simulations/emerge/ui/runner.go:Run"]}
{"id": "C83", "title": "The quit key ends the simulation program", "statement": "After q, Q or Escape is pressed the program starts no further run and ends, whatever else happens.", "quantifier": "every reachable state, every continuation", "why_tests_cant": "The key goes through a bounded channel to a handler that may be busy or about to restart; the outcome depends on the interleaving.", "anchors": ["simulations/emerge/ui/runner.go:handleEvents", "simulations/display/controller.go:ProcessKey", "simulations/emerge/main.go:main"]}
{"id": "C84", "title": "Every switch request starts exactly one new run with that change", "statement": "Each restart of the program answers one key of its own that asked for another goal, scale or pattern, in the order pressed; the new run differs in exactly what was asked for and starts with nothing left over; a request made in an idle run is honoured.", "quantifier": "every schedule, every configuration", "why_tests_cant": "Unbounded sequences of keys, runs and interleavings.", "anchors": ["simulations/emerge/main.go:main", "simulations/emerge/ui/runner.go:handleEvents", "simulations/emerge/ui/runner.go:Run"]}
{"id": "C85", "title": "Every combination of flags gives a listing, a message or a running program", "statement": "The flags -list, -scale, -interval and -timeout never crash the program: a known scale runs with the given timing, an unknown one is reported, and a timeout of zero or less means no timeout.", "quantifier": "all strings and all int64 durations", "why_tests_cant": "main is not called by tests; the durations are unbounded.", "anchors": ["simulations/emerge/main.go:main", "simulations/emerge/ui/runner.go:runUpdates", "simulations/emerge/config.go:ParseScale"]}
{"id": "C86", "title": "Predicted time to convergence", "statement": "PredictConvergenceTime is zero when converged, not improving or at the target, never negative, and otherwise the time after which the present trend reaches the threshold.", "quantifier": "every history of coherences and sample times, exact and float", "why_tests_cant": "Rounding, overflow and sampling times are unbounded.", "anchors": ["emerge/monitoring/convergence.go:PredictConvergenceTime", "internal/emerge/convergence.go:PredictConvergenceTime"]}
{"id": "C87", "title": "Periods in a synchronisation round", "statement": "A round measures the mean period of the agents and moves every period closer to the target's, so that in the end all agents have the target's period.", "quantifier": "every population, target, schedule of traversals and number of rounds", "why_tests_cant": "Unbounded populations, runs and int64 sums; tests use agents of one period.", "anchors": ["emerge/swarm/goal_directed.go:measureSystemPattern", "emerge/swarm/goal_directed.go:applyPatternCompletion", "emerge/completion/engine.go:CompletePattern", "emerge/core/pattern.go:IdentifyGaps"]}
{"id": "C88", "title": "Alignment of a synchronised swarm", "statement": "When the agents are synchronised at different phases, the rounds pull them together at the target phase within a few rounds, without breaking the coherence.", "quantifier": "every population, target phase, draw, order of traversal and number of rounds; the settings of every goal", "why_tests_cant": "Needs every population and every draw; tests start from random phases, which practically never meet the condition.", "anchors": ["emerge/swarm/goal_directed.go:applyPatternCompletion", "emerge/swarm/phase_convergence.go:MeasurePhaseVariance", "emerge/swarm/goal_constants.go"]}
{"id": "C89", "title": "An agent left to itself", "statement": "An agent that repeatedly updates its context, asks for a proposal and applies what it accepts moves towards its neighbors and the global goal until it is in step with them.", "quantifier": "every agent, strategy rate, neighborhood, global goal, draw and number of turns", "why_tests_cant": "The tests make single calls and accept any outcome; whether the agent ever moves depends on the weighing of the strategy against keeping still, over all distances and sequences of turns.", "anchors": ["emerge/agent/agent.go:UpdateContext", "emerge/agent/agent.go:ProposeAdjustment", "emerge/agent/agent.go:ApplyAction", "emerge/decision/simple.go:Decide", "emerge/strategy/phase_nudge.go:Propose", "emerge/strategy/frequency_lock.go:Propose", "emerge/strategy/energy_aware.go:Propose"]}
{"id": "C90", "title": "Noise for a stuck swarm", "statement": "When the rounds are stuck, a round disturbs the configured share of the agents (at least one), each by at most half the noise magnitude, and changes nothing else about them; a round that is not stuck disturbs nobody.", "quantifier": "every population, configuration, order of traversal and random draw", "why_tests_cant": "Random picks and draws over unbounded populations; the tests never inspect who was disturbed.", "anchors": ["emerge/swarm/goal_directed.go:addStochasticResonance", "emerge/swarm/goal_directed.go:AchieveSynchronization"]}
{"id": "C91", "title": "A client reaches its goal", "statement": "A client built with the library's own settings and left undisturbed reaches its goal: its synchronisation ends with success, given enough rounds.", "quantifier": "every goal, scale, target coherence, random draw and series of undisturbed rounds", "why_tests_cant": "A claim about unboundedly many rounds; the tests accept a timeout or lower the coherence target instead.", "anchors": ["client/emerge/custom.go:Build", "emerge/swarm/goal_directed.go:AchieveSynchronization", "emerge/completion/engine.go:blendFrequency", "docs/emerge/emerge_protocol.md", "docs/emerge/faq.md"]}
{"id": "C92", "title": "An agent's own attributes limit what a synchronisation does to it", "statement": "Energy, stubbornness, strategy, local goal and influence of an agent limit how far the synchronisation moves it: a stubborn agent is moved less, a depleted agent not at all, and moves are paid for.", "quantifier": "every population, configuration, goal, order of traversal, random draw and number of rounds", "why_tests_cant": "A comparison of all pairs of populations that differ in these attributes; tests look at one population.", "anchors": ["emerge/swarm/goal_directed.go:AchieveSynchronization", "emerge/swarm/goal_directed.go:applyPatternCompletion", "docs/emerge/architecture.md", "docs/emerge/concepts/coherence.md", "docs/emerge/concepts/energy.md"]}
{"id": "C93", "title": "Energy over an agent's life", "statement": "Every action uses energy in the documented amounts, so an agent cannot act for ever; energy recovers over time up to a maximum; a depleted agent cannot act until it has recovered.", "quantifier": "every history of calls and turns, every strategy, energy and cost; exact and float", "why_tests_cant": "Histories are unbounded; rounding absorbs small costs only after particular magnitudes.", "anchors": ["emerge/agent/agent.go:ApplyAction", "emerge/agent/agent.go:SetEnergy", "emerge/agent/agent.go:ProposeAdjustment", "emerge/strategy/pulse.go:Propose", "emerge/strategy/phase_nudge.go:Propose", "emerge/strategy/energy_aware.go:Propose", "docs/emerge/concepts/energy.md"]}
{"id": "C94", "title": "A swarm that stands at the goal is recognised", "statement": "The float test for success agrees with the exact distance, coherence and phase convergence up to a stated error; a swarm whose agents all have the goal's phase and period is recognised at the first look.", "quantifier": "every population up to 2^40 agents, every phase, period and coherence, every preset; correctly rounded or less accurate trigonometry", "why_tests_cant": "The test combines a mean direction, a mean period and a resultant; its error depends on the size and on the coherence itself, and the thresholds are met exactly only at particular floats.", "anchors": ["emerge/swarm/goal_directed.go:isPatternAchieved", "emerge/swarm/goal_directed.go:measureSystemPattern", "emerge/swarm/goal_directed.go:AchieveSynchronization", "emerge/core/pattern.go:PatternDistance", "emerge/swarm/phase_convergence.go:MeasurePhaseConvergence", "emerge/swarm/goal_constants.go"]}
{"id": "C95", "title": "What coherence says about the parts of a swarm, and which disruptions are noticed", "statement": "The coherence of a swarm bounds that of the agents left when some fail, and moving k of n agents changes it by at most 2k/n; the monitor of a continuous run asks for a new synchronisation whenever a disruption brings the swarm below its goal.", "quantifier": "every list of phases, every split into surviving and failed agents, every disruption, every target of at least 0.21", "why_tests_cant": "Failures and disruptions are random subsets of arbitrary phases; the worst split and the exact border between noticed and unnoticed are not met by sampling.", "anchors": ["emerge/core/coherence.go:MeasureCoherence", "emerge/swarm/swarm.go:DisruptAgents", "emerge/swarm/swarm.go:MeasureCoherence", "emerge/swarm/swarm_continuous_run.go:needsResync", "docs/emerge/disruption.md"]}
{"id": "C96", "title": "Velocity, rate and switch advice of the goal monitor; the statistics of the convergence monitor", "statement": "Each sample's velocity is the change of distance per second since the call before; the convergence rate is the mean of the velocities in the window; a switch of strategy is advised exactly when more than 70% of the samples in the window show no progress; the reported statistics are the mean, spread and prediction of the kept history.", "quantifier": "every sequence of calls with every time stamp, pattern and window size", "why_tests_cant": "The window drops samples, clocks may stand still, and 70% of a count is compared in floats; the wrong cases lie at particular window sizes and in histories with pauses.", "anchors": ["emerge/convergence/monitor.go:RecordSample", "emerge/convergence/monitor.go:GetConvergenceRate", "emerge/convergence/monitor.go:ShouldSwitchStrategy", "emerge/monitoring/convergence.go:Statistics", "emerge/completion/engine.go"]}
{"id": "C97", "title": "The lifetime of a client: repeated Start, disruptions, continuous runs", "statement": "Start blocks until the context is cancelled or an error occurs; a client that reached its goal stays there when started again; RunContinuous keeps making recovery attempts and only exits when the context is cancelled.", "quantifier": "every series of Starts and disruptions, every schedule of a continuous run, every scale, goal, target coherence and random draw of a client", "why_tests_cant": "The claim is about unbounded series of runs with arbitrary disturbances in between and about every interleaving of the monitor with the synchronisation; that no attempt can ever succeed is an invariant, not an observation.", "anchors": ["client/emerge/emerge.go:Start", "client/emerge/emerge.go:Stop", "emerge/swarm/swarm_continuous_run.go:RunContinuous", "emerge/swarm/goal_directed.go:AchieveSynchronization", "emerge/swarm/swarm.go:DisruptAgents"]}
{"id": "C98", "title": "Client methods from several goroutines", "statement": "All client methods are thread-safe: no execution of any number of goroutines calling the methods of one client has a data race, and no such calls deadlock; the synchronisations a continuous run starts one after another do not race with each other or with the monitoring calls.", "quantifier": "every number of goroutines, every series of calls in each, every interleaving allowed by the locks and channels, every swarm size, storage kind, number of passes and path through the methods", "why_tests_cant": "The race detector only sees the interleavings that occur in a test run and only the accesses on the paths taken; the claim is about the happens-before order of every possible execution.", "anchors": ["client/emerge/emerge.go:Start", "emerge/swarm/goal_directed.go:AchieveSynchronization", "emerge/convergence/monitor.go:SetTarget", "emerge/swarm/swarm_continuous_run.go:RunContinuous", "emerge/swarm/swarm.go:DisruptAgents"]}
{"id": "C99", "title": "The simulation's shared state", "statement": "The goroutines of a running simulation - its workloads, its batch manager, its swarm, and whoever starts, resets, disrupts, pauses, resumes or looks at it - never race on its state, its metrics, its batch statistics, the tasks of its workloads, the number of tasks made and the state of a burst, and its locks never stop it.", "quantifier": "every number of goroutines, every series of simulation operations in each, every interleaving allowed by the locks, every number of workloads, tasks and batches, every swarm size and storage kind", "why_tests_cant": "The race detector sees only interleavings that occur; lock-order deadlocks need a particular schedule. The claim is about every possible execution.", "anchors": ["simulations/emerge/simulation/simulation.go:Reset", "simulations/emerge/simulation/simulation.go:Resume", "simulations/emerge/simulation/agent.go:createTask", "simulations/emerge/simulation/agent.go:Snapshot", "simulations/emerge/simulation/batch_manager.go:Reset", "simulations/emerge/simulation/metrics.go:RecordBatch"]}
{"id": "C100", "title": "Agents used from several goroutines", "statement": "Any methods of any agents - reading and setting their values, connecting and disconnecting them, updating their context, proposing and applying adjustments, taking them from and returning them to a pool - can be called from any number of goroutines without a data race and without the calls blocking each other for ever.", "quantifier": "every number of agents and goroutines, every series of calls in each, both neighbour storages, every way agents share strategies, every interleaving allowed by the locks", "why_tests_cant": "The race detector sees only interleavings that occur in a run. Two agents that share a strategy object race only when both are asked at the same time.", "anchors": ["emerge/agent/agent.go:ProposeAdjustment", "emerge/agent/agent.go:SetDecisionMaker", "emerge/agent/agent.go:ConnectTo", "emerge/agent/neighbor_storage.go:Store", "emerge/agent/pool.go:Reset", "emerge/strategy/pulse.go:Propose"]}
{"id": "C101", "title": "What a validation error says", "statement": "The text of the error that validating a swarm configuration or a target state returns tells exactly which fields are wrong, contains every single error in full, names every wrong field once, never claims that nothing is wrong, and is the same whenever the same configuration is validated.", "quantifier": "every configuration and size, every target state, every order in which Go may range over the maps of fields, every way numbers and durations are printed without a semicolon", "why_tests_cant": "Any subset of nineteen fields can be wrong at once, and the order of ranging over a map changes from run to run.", "anchors": ["internal/config/validation.go:Error", "internal/config/swarm.go:Validate", "internal/config/swarm.go:validateProbabilities", "emerge/core/state.go:Validate"]}
