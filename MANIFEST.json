{
 "claims": [
  {
   "property": "C01",
   "status": "proved",
   "theorems": [
    "C01_wrap_float_turns",
    "C01_wrap_float",
    "C01_wrap_float_nonfinite",
    "C01_wrap_float_stable",
    "C01_wrap_float_idempotent_refuted",
    "C01_wrap_exact",
    "C01_wrap_exact_unique",
    "C01_wrap_exact_idempotent"
   ],
   "note": "Float level for every binary64 (any sin/cos/atan2) and exact-real level. Wrapping once is not idempotent in floats (C01_wrap_float_idempotent_refuted); the property as stated (stable after two wraps) is proved. Float wrapping is by whole turns of 2*pi up to 2^-49 for arguments up to 12 (C01_wrap_float_turns)."
  },
  {
   "property": "C02",
   "status": "partial",
   "theorems": [
    "C02_float_accuracy",
    "C02_float_magnitude",
    "C02_phase_difference",
    "C02_phase_difference_range",
    "C02_phase_difference_magnitude",
    "C02_antisymmetric",
    "C02_shortest_arc_refuted",
    "C02_shortest_arc_float_refuted",
    "C02_antisymmetric_refuted"
   ],
   "note": "Exact-real semantics. Range and magnitude (up to 2e-10) hold everywhere, the full claim holds outside the two special-cased windows. REFUTED inside them: (0, 3pi/2) gives -pi/2, a quarter turn the wrong way (also at float level); antisymmetry is also refuted at exact antipodes, where both orders give +pi. Float accuracy: with sin, cos within e and atan2 within 4e, the float result outside the special-cased squares is the arc within 8e + (|a|+|b|+1)/2^52 (C02_float_accuracy); correctly rounded functions meet this with e = 2^-51. The magnitude is the arc for all phases up to 5e-10, inside the special-cased squares too (C02_float_magnitude)."
  },
  {
   "property": "C03",
   "status": "proved",
   "theorems": [
    "C03_float_accuracy",
    "C03_float_order",
    "C03_coherence_bounds",
    "C03_coherence_empty",
    "C03_coherence_one_iff",
    "C03_coherence_single",
    "C03_coherence_order",
    "C03_coherence_turns",
    "C03_coherence_rotation",
    "C03_coherence_equally_spaced"
   ],
   "note": "Exact-real semantics, and for floats: with sin and cos within e the float coherence of n phases is within 2e + (n+5)/2^51 of the exact one (C03_float_accuracy), and reordering changes it by at most twice that (C03_float_order)."
  },
  {
   "property": "C04",
   "status": "partial",
   "theorems": [
    "C04_float_accuracy",
    "C04_float_scale_refuted",
    "C04_weighted_bounds",
    "C04_weighted_excess",
    "C04_weighted_zero",
    "C04_weighted_equal",
    "C04_weighted_scale",
    "C04_negative_weights_refuted"
   ],
   "note": "All clauses in exact-real semantics (C04_negative_weights_refuted shows why non-negative weights are required). Floats: C04_float_accuracy, within 5/2 e + (n+3) 2^-49 of the exact value when the weights sum to between 2^-40 and 2^56. REFUTED for floats outside such sizes: equal weights of 2^-600 give 0 and of 2^600 give infinity for two agents in phase, so the value is not invariant under scaling (C04_float_scale_refuted)."
  },
  {
   "property": "C05",
   "status": "partial",
   "theorems": [
    "C05_normalize_ok",
    "C05_error_iff",
    "C05_in_range_unchanged",
    "C05_validate_iff",
    "C05_terminates_iff",
    "C05_termination_refuted"
   ],
   "note": "Float level. Everything holds except termination: REFUTED for finite phases above 2^56 in magnitude (2*pi is absorbed); C05_terminates_iff gives the exact set of terminating inputs."
  },
  {
   "property": "C06",
   "status": "partial",
   "theorems": [
    "C06_float_distance",
    "C06_float_gaps",
    "C06_float_severity",
    "C06_float_sine_wave",
    "C06_distance_nil",
    "C06_distance_range",
    "C06_distance_zero_iff",
    "C06_gaps_exact",
    "C06_gaps_empty_iff",
    "C06_gap_values",
    "C06_gap_severity",
    "C06_gap_severity_refuted",
    "C06_sine_wave"
   ],
   "note": "Exact-real semantics. All clauses proved except the bound on the frequency severity, REFUTED (ratio is not clamped); proved when the current period is at most twice the target. Floats (P_AccuracyPattern): with library functions accurate to e, the distance of patterns with phases up to 2^28 and periods up to 2^53 ns is within (8e + |phases|/2^52 + 5e-10)/7 + 3e-14 of the exact one (C06_float_distance); gaps are reported exactly as in real arithmetic outside equally narrow margins around the thresholds (C06_float_gaps), severities and the sine wave are as accurate (C06_float_severity, C06_float_sine_wave)."
  },
  {
   "property": "C07",
   "status": "proved",
   "theorems": [
    "C07_invariant",
    "C07_setter_effect",
    "C07_new_defaults",
    "C07_custom_resource_manager_refuted",
    "C07_nan_refuted"
   ],
   "note": "Float level, any options and calls with finite arguments (token-manager resources). C07_nan_refuted and C07_custom_resource_manager_refuted show what happens outside that domain."
  },
  {
   "property": "C08",
   "status": "partial",
   "theorems": [
    "C08_insufficient_iff",
    "C08_unknown_type_iff",
    "C08_error_unchanged",
    "C08_success_effect",
    "C08_energy_exact",
    "C08_budget",
    "C08_energy_float",
    "C08_granted_refuted",
    "C08_nan_cost_refuted"
   ],
   "note": "Error conditions, unchanged state on error and the success effect for every number type; energy accounting exactly in reals and with one rounding in floats. REFUTED: the reported cost is the requested, not the granted amount (C08_granted_refuted); a NaN cost destroys the energy (C08_nan_cost_refuted)."
  },
  {
   "property": "C09",
   "status": "proved",
   "theorems": [
    "C09_accept_iff",
    "C09_reject_maintain",
    "C09_accepted_affordable",
    "C09_stubborn_never",
    "C09_zero_confidence_never"
   ],
   "note": "For an arbitrary strategy and decision maker; acceptance characterised exactly. The stubbornness and confidence clauses use the library's own random draw at float level."
  },
  {
   "property": "C10",
   "status": "partial",
   "theorems": [
    "C10_float_phase_nudge",
    "C10_float_frequency_lock",
    "C10_float_pulse",
    "C10_float_energy_aware",
    "C10_phase_nudge",
    "C10_frequency_lock",
    "C10_energy_aware",
    "C10_pulse",
    "C10_confidence_and_type",
    "C10_rates_clamped",
    "C10_toward_target_refuted",
    "C10_adaptive_in_range",
    "C10_adaptive_default",
    "C10_adaptive_nil_selector_refuted",
    "C10_pulse_spacing"
   ],
   "note": "Exact-real semantics. REFUTED inside the PhaseDifference special-case window (moves away from the target) and for a nil selector (panic); everything else proved. Float accuracy of the four moving strategies: the arc left is (1-rate) times the old one within 16e + 2^-45, the cost within 2^-48 of its formula (C10_float_*)."
  },
  {
   "property": "C11",
   "status": "partial",
   "theorems": [
    "C11_best_option",
    "C11_confidence",
    "C11_confidence_value",
    "C11_no_options",
    "C11_maximal_refuted"
   ],
   "note": "Float level, all inputs. First-maximum proved whenever some score exceeds -MaxFloat64, otherwise the first option; REFUTED only for scores -Inf against -MaxFloat64."
  },
  {
   "property": "C12",
   "status": "partial",
   "theorems": [
    "C12_float_accuracy",
    "C12_blend",
    "C12_blend_all",
    "C12_blend_one",
    "C12_shortest_arc_refuted"
   ],
   "note": "Exact-real semantics. Proved outside the PhaseDifference special-case window; REFUTED inside it (weight 1 misses the global phase). Float accuracy: the blended phase leaves (1-w) of the arc within 16e + 2^-45 and the coherence is the weighted mean within 2^-49 (C12_float_accuracy)."
  },
  {
   "property": "C13",
   "status": "partial",
   "theorems": [
    "C13_reads_are_whole",
    "C13_ranges_always",
    "C13_single_writer",
    "C13_lost_update_refuted",
    "C13_double_spend_refuted"
   ],
   "note": "Proved for every interleaving: reads return whole latest writes, written values are one update of one read value, C07 ranges hold at every instant, a single writer loses nothing. REFUTED: independent setters undo each other (lost update) and two actions can be paid from the same energy (double spend), because Update is Load then Store."
  },
  {
   "property": "C14",
   "status": "partial",
   "theorems": [
    "C14_invariant",
    "C14_request",
    "C14_release",
    "C14_conservation",
    "C14_nan_refuted"
   ],
   "note": "Float level for finite capacity and non-NaN arguments, exact conservation in reals. REFUTED for NaN arguments and for infinite capacity with an infinite request (pool becomes NaN). Calls are mutex-protected, so a history is any interleaving."
  },
  {
   "property": "C15",
   "status": "proved",
   "theorems": [
    "C15_refines_bounded_map"
   ],
   "note": "Refinement of the storage to a bounded finite map for every operation sequence and capacity."
  },
  {
   "property": "C16",
   "status": "partial",
   "theorems": [
    "C16_float_coherence",
    "C16_float_context",
    "C16_context",
    "C16_no_neighbors",
    "C16_local_coherence",
    "C16_density_refuted"
   ],
   "note": "Coherence = order parameter of the neighbors (own phase not included), in [0,1]; goal on the arc to the mean direction; density n/possible in [0,1] when n <= possible (exact arithmetic). REFUTED: density is -n for a default agent (swarm size 0), >1 with more neighbors than assumed, +Inf for swarm size 1. Float accuracy (P_AccuracyCtx): with library functions accurate to e, the float local coherence of n neighbors is within 2e+(n+9)/2^51 of the order parameter (C16_float_coherence); when the coherence rho is at least 4(e+(n+5)/2^52), the float goal is own phase plus (1+rho)/2 times the turn to the mean direction, up to a stated error (C16_float_context)."
  },
  {
   "property": "C17",
   "status": "partial",
   "theorems": [
    "C17_reset_attributes",
    "C17_stats",
    "C17_news_counts_every_get_refuted",
    "C17_fresh_get_panics_refuted",
    "C17_leftovers_refuted"
   ],
   "note": "Reset attributes and statistics proved for every history. REFUTED: a Get that is not served by a recycled agent panics (nil state); recycled agents keep optimised neighbors, tokens, strategy, swarm sizes; news = gets always."
  },
  {
   "property": "C18",
   "status": "partial",
   "theorems": [
    "C18_error_iff",
    "C18_attributes",
    "C18_ranges",
    "C18_optimized_attributes",
    "C18_optimized_accepts_unknown_refuted",
    "C18_constructors_disagree_refuted",
    "C18_constructors_agree",
    "C18_default_agent",
    "C18_default_influence_refuted",
    "C18_randomized"
   ],
   "note": "Error iff an unknown name, attributes of NewFromConfig and of NewOptimizedFromConfig, ranges for finite configurations: proved. REFUTED: the constructors agree (unknown names, zero values, MaxTokens vs InitialEnergy); agreement proved for fully specified configurations. C18_default_agent compares the agents of the default configuration, of the test configuration and of New; C18_default_influence_refuted: the default configuration sets the influence to 0.5, New to 0.1."
  },
  {
   "property": "C19",
   "status": "proved",
   "theorems": [
    "C19_error_iff",
    "C19_result",
    "C19_no_panic",
    "C19_completes",
    "C19_ids",
    "C19_from_config",
    "C19_from_config_limit_refuted",
    "C19_foreach_empty",
    "C19_builder",
    "C19_worker_count",
    "C19_worker_count_refuted"
   ],
   "note": "Proved for every size, goal, draw and map order: New without options fails exactly outside 1..1,000,000 or for an invalid goal, the swarm has exactly size agents under distinct IDs, lookup agrees with the listing on both sides of the storage switch, the stored coherence is at most the practical limit; construction never panics and completes once enough draws are supplied (termination of the rejection sampling is probabilistic in the code, the draws are a parameter). Extra: the options and NewSwarmFromConfig (which does NOT apply the limit: C19_from_config_limit_refuted); a custom agent builder is ignored above 100 agents (C19_builder)."
  },
  {
   "property": "C20",
   "status": "proved",
   "theorems": [
    "C20_symmetric_irreflexive",
    "C20_neighbors"
   ],
   "note": "Symmetric, irreflexive, duplicate-free and only over the swarm's agents, for both algorithms, every configuration and every draw sequence (finished wiring; see C21 for termination)."
  },
  {
   "property": "C21",
   "status": "partial",
   "theorems": [
    "C21_minimum",
    "C21_progress",
    "C21_edge_bound",
    "C21_minimal_terminates",
    "C21_maximum_refuted",
    "C21_maximum_everybody_refuted",
    "C21_minimal_below_refuted"
   ],
   "note": "Lower bound and progress of the retry loop proved for MinNeighbors <= MaxNeighbors (what validation guarantees); total-entry bound; minimal wiring terminates. REFUTED: MaxNeighbors does not bound the degree (reverse insertion), and the minimal wiring may stop below MinNeighbors."
  },
  {
   "property": "C22",
   "status": "partial",
   "theorems": [
    "C22_invisible_refuted",
    "C22_refuted",
    "C22_neighbor_count",
    "C22_connect_to",
    "C22_connect_self",
    "C22_neighbor_count_max",
    "C22_disconnect",
    "C22_connect_full_refuted"
   ],
   "note": "REFUTED for every connection the swarm makes: wiring fills the sync.Map container, IsConnectedTo and UpdateContext read the other one. Proved: NeighborCount/Neighbors see the wiring; ConnectTo is visible up to 20 neighbors, the 21st is dropped."
  },
  {
   "property": "C23",
   "status": "partial",
   "theorems": [
    "C23_full",
    "C23_full_truncated",
    "C23_full_refuted",
    "C23_ring",
    "C23_ring_error",
    "C23_star",
    "C23_star_error",
    "C23_star_refuted",
    "C23_full_too_few_refuted",
    "C23_option_ring_star_refuted",
    "C23_option_full_refuted"
   ],
   "note": "Ring for every n >= 2, fully connected for n <= 21, star for n <= 21, errors of ring and star: proved. REFUTED: from 22 agents on the 20-slot storage silently drops neighbors; FullyConnected never reports too few agents; given as an option to swarm.New the topologies run before any agent exists, so Ring and Star always make New fail (C23_option_ring_star_refuted) and FullyConnected yields a swarm without connections (C23_option_full_refuted)."
  },
  {
   "property": "C24",
   "status": "partial",
   "theorems": [
    "C24_limits_ordered",
    "C24_limits_monotone",
    "C24_limits_edges",
    "C24_validate_target",
    "C24_validate_idempotent",
    "C24_validate_warning",
    "C24_validate_nan_refuted",
    "C24_minimum_size_iff",
    "C24_minimum_size_refuted",
    "C24_minimum_size_monotone",
    "C24_time_factor_ge_1",
    "C24_time_factor_monotone",
    "C24_time_factor_infinite"
   ],
   "note": "Limits ordered and monotone, target validation, time factor: proved for binary64. REFUTED: GetMinimumSwarmSize is not the inverse of the limits table in some windows; a NaN target passes."
  },
  {
   "property": "C25",
   "status": "partial",
   "theorems": [
    "C25_validate_iff",
    "C25_validate_nan_refuted",
    "C25_presets",
    "C25_presets_ordered",
    "C25_presets_apart",
    "C25_one_tuning",
    "C25_tuning_refuted",
    "C25_tune_keeps",
    "C25_chain",
    "C25_chain_refuted",
    "C25_chain_scale_refuted",
    "C25_withsize_keeps",
    "C25_withsize_refuted"
   ],
   "note": "REFUTED as stated: throughput tuning of MinimizeLatency gives a base scale 0.85*1.2 > 1 (C25_tuning_refuted); repeated Speed tunings drive the update interval to 0 (C25_chain_refuted); repeated Throughput tunings exceed scale 1 (C25_chain_scale_refuted); a sub-millisecond interval is truncated to 0 for 21..50 agents (C25_withsize_refuted); Validate accepts NaN (C25_validate_nan_refuted). Proved: every preset at every size is valid (C25_presets); exactly one goal/trait pair fails after one tuning, in either order with WithSize (C25_one_tuning); Validate is exact on configurations without NaN (C25_validate_iff); one tuning (C25_tune_keeps), unbounded chains of the non-escalating traits (C25_chain), and WithSize (C25_withsize_keeps) keep any valid configuration valid under the stated guards."
  },
  {
   "property": "C26",
   "status": "partial",
   "theorems": [
    "C26_success_iff",
    "C26_result_ok",
    "C26_nan_refuted",
    "C26_idempotent",
    "C26_keeps_valid",
    "C26_clamps",
    "C26_autoscale_ok",
    "C26_autoscale_iff",
    "C26_batching",
    "C26_batching_coupling",
    "C26_agent_from_swarm",
    "C26_autoscale_neighbours",
    "C26_autoscale_monotone_refuted",
    "C26_autoscale_coupling",
    "C26_coupling_falls_refuted"
   ],
   "note": "Normalisation succeeds exactly for accepted sizes, result well-formed, idempotent, keeps valid configurations: proved for NaN-free configurations. REFUTED: NaN fields pass normalisation and validation. C26_autoscale_neighbours gives the numbers of neighbours the automatic configuration asks for at every size; they drop from 8 to 2 between 9 and 10 agents (C26_autoscale_monotone_refuted). C26_autoscale_coupling gives the coupling at every size (exact reals); it rises from 0.6 to 0.7 between 99 and 100 agents (C26_coupling_falls_refuted)."
  },
  {
   "property": "C27",
   "status": "partial",
   "theorems": [
    "C27_success_is_true",
    "C27_target_inert",
    "C27_recorded",
    "C27_nil",
    "C27_cancel",
    "C27_cancel_prompt",
    "C27_fail",
    "C27_rounds_bounded",
    "C27_budget_iff",
    "C27_budget_new",
    "C27_budget_preset",
    "C27_budget_config_refuted",
    "C27_budget_from_config_refuted"
   ],
   "note": "Proved for every configuration, target, event schedule (ticks with arbitrary interleaved changes by other goroutines, cancellation) and starting state: nil only if the documented criterion held at the last measurement (C27_nil), the context error exactly when cancelled before the budget (C27_cancel, C27_cancel_prompt), otherwise the failure after exactly the budget of unsuccessful rounds (C27_fail), never more than 1000 rounds (C27_rounds_bounded). Positive budget: exact condition (C27_budget_iff), proved for every swarm New accepts with default options and for every preset. REFUTED for the remaining part: a goal configuration that passes Validate can have an iteration factor below 1 (budget 0), and NewSwarmFromConfig keeps a coherence above the practical limit, giving int(+Inf) as the budget; Run then fails without a single round. A nil result is true of the exact quantities up to rounding: the exact order parameter and mean arc meet the criterion within the stated float error (C27_success_is_true)."
  },
  {
   "property": "C28",
   "status": "partial",
   "theorems": [
    "C28_stuck_threshold_ignored_refuted",
    "C28_below_minimum",
    "C28_below_margin",
    "C28_large_drop",
    "C28_large_drop_refuted",
    "C28_steady",
    "C28_steady_run",
    "C28_default_ok",
    "C28_steady_default_refuted",
    "C28_thresholds_matter",
    "C28_sudden_drop",
    "C28_peak_follows",
    "C28_quiet_count",
    "C28_first_peak",
    "C28_restart_peak"
   ],
   "note": "Every configuration, history and measurement, float semantics: below the minimum viable coherence or below target*margin always requests (C28_below_minimum, C28_below_margin); a drop from the remembered peak beyond the large ratio requests when small <= large (C28_large_drop, true of the default configuration); a measurement at or above the target and not below peak or previous measurement never requests (C28_steady), and a run of any number of equal measurements from the initial state of RunContinuous never requests (C28_steady_run); the default configuration meets the provisos for targets >= 0.2 (C28_default_ok); the other four thresholds influence the decision (C28_thresholds_matter). The memory is the previous measurement: a fall against it by the small ratio requests after any history (C28_sudden_drop), a rise becomes the peak at once (C28_peak_follows). REFUTED: the stuck threshold influences nothing (C28_stuck_threshold_ignored_refuted, any arithmetic); large drops are missed for a custom small > large; with the default configuration and target 0.1 a steady 0.15 requests at every tick because the minimum viable coherence is 0.2."
  },
  {
   "property": "C29",
   "status": "partial",
   "theorems": [
    "C29_at_most_one",
    "C29_restarts_apart",
    "C29_exit",
    "C29_exit_error",
    "C29_cancel_exits",
    "C29_no_panic",
    "C29_negative_interval_refuted",
    "C29_never_stops_refuted",
    "C29_failing_swarm_refuted",
    "C29_replaced_cancelled"
   ],
   "note": "Every schedule of ticks, completions, failures and cancellation: at most one synchronisation runs (C29_at_most_one), any two starts are more than 500ms apart (C29_restarts_apart), it returns only with the context's error after the context ended or after a synchronisation failed (C29_exit), the returning branch is enabled once the context ended (C29_cancel_exits), no panic for non-negative check intervals (C29_no_panic). Every replaced synchronisation was cancelled (C29_replaced_cancelled). REFUTED: 'never stops by itself' - a failed synchronisation ends it with the context alive (C29_never_stops_refuted; a real swarm whose synchronisation always fails: C29_failing_swarm_refuted); a negative check interval panics."
  },
  {
   "property": "C30",
   "status": "partial",
   "theorems": [
    "C30_never_reported_refuted",
    "C30_success_not_reported_refuted"
   ],
   "note": "REFUTED: no code path of the library records into the swarm's convergence monitor, so after any history of library operations IsConverged() is false and CurrentCoherence() is 0 (C30_never_reported_refuted, any arithmetic); C30_success_not_reported_refuted exhibits a successful run of a swarm built by New whose measured coherence reaches the goal. There is no positive part to prove."
  },
  {
   "property": "C31",
   "status": "partial",
   "theorems": [
    "C31_variance_float_accuracy",
    "C31_float_accuracy",
    "C31_convergence_is_mean_distance",
    "C31_convergence_range_and_one",
    "C31_variance_is_mean_square",
    "C31_variance_nonneg_and_zero",
    "C31_convergence_float",
    "C31_convergence_unnormalised_refuted",
    "C31_variance_float"
   ],
   "note": "Exact reals, phases and target in [0,2pi): convergence = 1 - mean arc distance / pi, in [0,1], 1 exactly when every agent is at the target; variance = mean squared arc deviation from the direction of the mean vector, >= 0, 0 exactly when all phases agree. float64: both stay in range and terminate (variance under the documented ranges of Sin, Cos, Atan2). REFUTED for goal phases as accepted by the validator: with target 4*pi the convergence of an agent at phase 0 is 3 (C31_convergence_unnormalised_refuted). Float accuracy: the float convergence of n agents is within (n+8)/2^50 of 1 - mean arc / pi (C31_float_accuracy). The float variance is within 7(4E/rho+4e)+(n+16)/2^48 of the mean squared arc to the mean direction, E=e+(n+1)/2^52, for coherence rho>=4E (C31_variance_float_accuracy)."
  },
  {
   "property": "C32",
   "status": "partial",
   "theorems": [
    "C32_round_range",
    "C32_rounds_range",
    "C32_presets_moderate",
    "C32_toward",
    "C32_presets_calm",
    "C32_moves_away",
    "C32_direction_refuted",
    "C32_exact",
    "C32_closer_iff",
    "C32_align_away",
    "C32_fades"
   ],
   "note": "Range half, float64: every round keeps every phase in [0,2pi) and every frequency positive, for every population up to 2^53, every target of moderate phase, every draw and every interference that does the same, and so does any sequence of rounds (C32_round_range, C32_rounds_range); the settings of every goal qualify. Direction half REFUTED (exact reals): with the default settings one agent at phase 0 whose target lies 0.09 behind it moves forward, away from the target, for every draw (C32_moves_away, C32_direction_refuted), because goal_directed.go:298 takes the forward difference WrapPhase(target - phase). Positive: every agent makes exactly one of six moves, each given in closed form with its range (C32_exact); a move D forward brings it closer exactly when 0 < D < 2 phi (target ahead) or 2 phi - 2 pi < D (target behind) (C32_closer_iff); in an aligning round an agent whose target is behind moves away up to an explicit angle and otherwise takes the long way round (C32_align_away); with the target ahead, outside the window, the agent ends strictly closer when the population is being aligned, or when the completion adjustment lies between 0 and the arc and the agent is not one of those that random-walk (C32_toward); all presets qualify. In a crowded population the pull is divided by five again at every third agent, so late agents practically stay (C32_fades, C32_fades_300)."
  },
  {
   "property": "C33",
   "status": "partial",
   "theorems": [
    "C33_never_crashes",
    "C33_initial_complete",
    "C33_score_real",
    "C33_bonus_used",
    "C33_bonus_untried",
    "C33_selects_maximal",
    "C33_no_noise",
    "C33_presets_sane",
    "C33_default_sane",
    "C33_always_selects",
    "C33_selects_refuted",
    "C33_success",
    "C33_failure",
    "C33_shared_entry"
   ],
   "note": "Never crashes: any configuration, any complete table, any draws. With non-negative bonus and noise and a positive window (default and all presets) one of the five strategies is selected after any number of switches, its score is maximal and it is the first of maximal score; without noise the score does not depend on the draw. REFUTED in general: Validate accepts a bonus of -2, for which no strategy is selected (C33_selects_refuted). The score in plain numbers: success rate, plus age/window up to the bonus (the whole bonus for a strategy never used), plus noise (C33_bonus_used, C33_bonus_untried)."
  },
  {
   "property": "C34",
   "status": "partial",
   "theorems": [
    "C34_disrupt",
    "C34_count_real",
    "C34_count_float",
    "C34_count_rounding_refuted",
    "C34_new_phase",
    "C34_new_swarm",
    "C34_large_swarm_refuted",
    "C34_large_swarm_exists",
    "C34_monitors"
   ],
   "note": "Map storage (New with at most 100 agents): exactly min(max 0 count, n) agents of any Range order get fresh random phases in [0,2*pi), everything else is untouched (C34_disrupt, C34_new_swarm, C34_new_phase). Count: floor(p*n) with clamping in exact arithmetic (C34_count_real); in floats between floor and ceiling of p*n, 0 for p<=0, n for p>=1, none for NaN (C34_count_float; the rounded product can add one: C34_count_rounding_refuted). Both monitors forget everything measured before (C34_monitors). REFUTED above 100 agents: nothing changes at all (C34_large_swarm_refuted, non-vacuous by C34_large_swarm_exists)."
  },
  {
   "property": "C35",
   "status": "partial",
   "theorems": [
    "C35_conservation",
    "C35_at_most_once",
    "C35_rest_means_done",
    "C35_comes_to_rest",
    "C35_stop",
    "C35_job_lost_refuted",
    "C35_no_workers_refuted",
    "C35_negative_refuted"
   ],
   "note": "Every schedule: the submitted functions are exactly those waiting, running and finished (C35_conservation), each runs at most once (C35_at_most_once); without Stop a pool with workers comes to rest only when everything submitted has run exactly once, after a bounded number of steps (C35_rest_means_done, C35_comes_to_rest); Stop never blocks, succeeds the first time and panics afterwards (C35_stop). REFUTED: for every worker count a function submitted before Stop may never run (C35_job_lost_refuted); with 0 workers Submit blocks for ever."
  },
  {
   "property": "C36",
   "status": "partial",
   "theorems": [
    "C36_cover",
    "C36_bookkeeping",
    "C36_nan_refuted",
    "C36_statistics",
    "C36_max_refuted"
   ],
   "note": "REFUTED for NaN samples (the run flag and extrema mishandle them) and for the maximum/minimum outside [0,1] (they start at 0 and 1). Proved for every sequence of non-NaN samples: IsConverged, ConvergenceTime, History; statistics for samples in [0,1]."
  },
  {
   "property": "C37",
   "status": "partial",
   "theorems": [
    "C37_float_rate",
    "C37_float_sign",
    "C37_constant_refuted",
    "C37_increasing_refuted",
    "C37_linear_refuted",
    "C37_float_stability",
    "C37_stability_refuted",
    "C37_least_squares",
    "C37_short",
    "C37_linear",
    "C37_increasing",
    "C37_shift",
    "C37_full_history_refuted",
    "C37_stability"
   ],
   "note": "REFUTED for the whole history: the rate looks at the last ten samples and stability at the last twenty. Proved over the reals for that window: unique least-squares slope, zero below two samples, exact on linear data, positive on increasing data, shift invariant; stability in (0,1] and 1 exactly for a constant window. Floats: for coherences in [0,1] the rate is the least-squares slope up to 2^-46 and has its sign beyond that (C37_float_rate, C37_float_sign); stability is exact up to 2^-42 and the error of math.Exp (C37_float_stability). REFUTED in floats: ten samples of 0.1 have a positive rate and a stability below 1, a strictly rising history has a negative rate, and the rate of points on a line is not its slope (C37_constant_refuted, C37_stability_refuted, C37_increasing_refuted, C37_linear_refuted)."
  },
  {
   "property": "C38",
   "status": "partial",
   "theorems": [
    "C38_window",
    "C38_average",
    "C38_average_float_refuted"
   ],
   "note": "Window and Latest proved for every sequence; Average between smallest and largest proved over the reals, REFUTED in binary64 (three samples 0.1 average above 0.1)."
  },
  {
   "property": "C39",
   "status": "partial",
   "theorems": [
    "C39_flat_progress",
    "C39_readers_progress",
    "C39_schedules_finite",
    "C39_exclusion",
    "C39_deadlock_refuted"
   ],
   "note": "Model of sync.RWMutex with writer preference and any number of goroutines. Methods that lock once (all but two) always make progress, as do readers alone, every schedule is finite and writers exclude everybody (C39_flat_progress, C39_readers_progress, C39_schedules_finite, C39_exclusion). REFUTED: Statistics and PredictConvergenceTime take the read lock again while holding it; a Record that arrives in between deadlocks both for ever (C39_deadlock_refuted)."
  },
  {
   "property": "C40",
   "status": "partial",
   "theorems": [
    "C40_history",
    "C40_stuck",
    "C40_few_samples",
    "C40_reset",
    "C40_trend",
    "C40_progress_range",
    "C40_progress_monotone",
    "C40_progress_refuted",
    "C40_progress_nan_refuted"
   ],
   "note": "History, IsStuck as exactly six flat checks in a row (below 2^31 samples), few-sample and Reset claims proved for any number type; progress in [0,1] for finite distances and monotone while nothing is trimmed (binary64). REFUTED: trimming drops the baseline so progress shrinks while the swarm approaches; NaN distance gives NaN progress."
  },
  {
   "property": "C41",
   "status": "partial",
   "theorems": [
    "C41_best_template",
    "C41_best_template_order",
    "C41_interpolate_phase",
    "C41_interpolate_frequency",
    "C41_interpolate_coherence",
    "C41_interpolate_phase_refuted",
    "C41_template_refuted",
    "C41_morph",
    "C41_morph_between",
    "C41_morph_between_refuted",
    "C41_template_boost"
   ],
   "note": "Best template (any order, NaN distances included, binary64), interpolation of phase/frequency/coherence (reals, non-negative severity), waveform morphing (any number type: never out of range, length; between over the reals for weights in [0,1]) proved. REFUTED: inside the special-cased windows of PhaseDifference interpolation moves away from the target; with a matching template the adjustment exceeds the gap (-250ms period); weights above 1 and rounding leave the range when morphing."
  },
  {
   "property": "C42",
   "status": "partial",
   "theorems": [
    "C42_detect_panics_iff",
    "C42_detect_no_panic",
    "C42_detect_exact",
    "C42_complete_no_panic",
    "C42_gap_filled_refuted",
    "C42_jump_is_arc",
    "C42_complete_interpolates",
    "C42_detect_panics_refuted",
    "C42_similarity_range",
    "C42_amplitude_ok",
    "C42_similarity_range_built",
    "C42_self_similarity",
    "C42_self_similarity_flat_refuted",
    "C42_single_phase_refuted",
    "C42_similarity_above_one_refuted",
    "C42_identify_best",
    "C42_identify_order",
    "C42_template_matches_base",
    "C42_period",
    "C42_period_empty"
   ],
   "note": "Complete never panics; Detect panics exactly when a jump has no frequency at its start and otherwise reports exactly the jumps of more than a quarter turn; Complete interpolates along the short arc (exact reals, C42_complete_interpolates). Floats: similarity is in [0,1] for finite phases, non-negative amplitudes with one positive, and a positive period (C42_similarity_range, ..._built with the amplitude computed by NewTargetPattern); self-similarity is then exactly 1; Identify returns the best score, whatever the map order. The period is the truncated mean of the intervals, between the smallest and the largest (C42_period). REFUTED: no gap found by Detect is ever filled (Complete returns an empty list for all of them), Detect panics with too few frequencies, a pattern with amplitude 0 or period 0 has similarity NaN with itself, negative periods give more than 1. Missing: nothing else of the statement."
  },
  {
   "property": "C43",
   "status": "partial",
   "theorems": [
    "C43_float_distance",
    "C43_float_force",
    "C43_float_adjustment",
    "C43_distance_is_arc",
    "C43_force_shape",
    "C43_in_basin",
    "C43_pulled_in_basin",
    "C43_force_range",
    "C43_force_largest_at_target",
    "C43_strength_clamped",
    "C43_force_above_strength_refuted",
    "C43_adjustment_toward",
    "C43_overshoot_refuted",
    "C43_wrong_way_refuted",
    "C43_rate_range",
    "C43_force_range_float",
    "C43_zero_radius_refuted",
    "C43_negative_radius",
    "C43_strength_clamped_float"
   ],
   "note": "Exact reals: distance to target is the shorter arc (C43_distance_is_arc), the force is zero exactly outside the basin, non-increasing in the distance and largest at the target (C43_force_shape, C43_force_largest_at_target), the constructor clamps the strength to [0,1]; the adjustment points toward the target outside the short window next to half a turn (C43_adjustment_toward). Floats: distance, force and convergence rate lie in their ranges for finite phases and positive radius (C43_force_range_float, C43_rate_range). REFUTED: the force is doubled for a state of negative phase and a target of positive phase, so it exceeds the configured strength and the adjustment overshoots the target (C43_force_above_strength_refuted, C43_overshoot_refuted); in the special window of PhaseDifference the adjustment goes the wrong way round (C43_wrong_way_refuted); a basin of radius 0 has force NaN at its own target (C43_zero_radius_refuted). Floats: distance, force and adjustment are the exact ones up to explicit error bounds (C43_float_distance, C43_float_force, C43_float_adjustment)."
  },
  {
   "property": "C44",
   "status": "proved",
   "theorems": [
    "C44_float64",
    "C44_float64_uniform",
    "C44_phase",
    "C44_intn_range",
    "C44_intn_panics_iff",
    "C44_intn_uniform",
    "C44_intn_retry",
    "C44_secure_intn_range",
    "C44_secure_float32",
    "C44_secure_float32_below_one_refuted",
    "C44_secure_intn_uniform_refuted"
   ],
   "note": "Float level plus exact counting of source values. The simulation's own helpers: range proved, secureRandFloat32 can return exactly 1 and secureRandIntn is biased (refutations)."
  },
  {
   "property": "C45",
   "status": "proved",
   "theorems": [
    "C45_time_factor",
    "C45_round_trip",
    "C45_round_trip_other",
    "C45_from_count_monotone",
    "C45_from_count_fits",
    "C45_tables_monotone",
    "C45_update_interval",
    "C45_target_valid",
    "C45_target_within_limit",
    "C45_goal_names",
    "C45_goal_keys",
    "C45_trait_names",
    "C45_scale_names",
    "C45_recommended",
    "C45_tiny_fully_connected_refuted",
    "C45_neighbors"
   ],
   "note": "Scales are the Go ints: FromCount(DefaultAgentCount s) = s for the five scales, FromCount monotone on all integers and equal to the smallest scale whose default swarm is big enough; target coherences valid for every integer and within the recommended (hence practical) limit at the default size; goal, trait and scale names and goal keys pairwise distinct (in the keys, single characters). Also recorded: the comment 'Fully connected' on the tiny scale is false (C45_tiny_fully_connected_refuted), and UpdateInterval agrees with DefaultUpdateIntervalMs exactly on the declared scales. The neighbour limit is between 3 and 20 and below the agent count (C45_neighbors)."
  },
  {
   "property": "C46",
   "status": "proved",
   "theorems": [
    "C46_split",
    "C46_counts",
    "C46_histogram",
    "C46_costs_exact",
    "C46_costs_float",
    "C46_average",
    "C46_since_reset",
    "C46_no_cost",
    "C46_percent"
   ],
   "note": "Splitting, exactly-once counts, histogram by documented ranges, exact costs over the reals and float64 costs (with <= without, savings and percentage in range) for every history; resets start afresh. Integer counters are modelled without wrap-around."
  },
  {
   "property": "C47",
   "status": "partial",
   "theorems": [
    "C47_conserved",
    "C47_exactly_once",
    "C47_api_sizes",
    "C47_progress",
    "C47_drop_refuted",
    "C47_cancel_refuted"
   ],
   "note": "REFUTED: when 100 batches are queued the next one is dropped, and after cancellation the processor may return with batches still queued. Proved for every schedule: tasks put in the queue are never lost, duplicated or reordered; exactly-once in submission order when no submission finds the queue full; API batches have 1 to 100 tasks; processing always progresses."
  },
  {
   "property": "C48",
   "status": "partial",
   "theorems": [
    "C48_reset_fresh",
    "C48_ids_across_agents",
    "C48_types",
    "C48_no_panic",
    "C48_bookkeeping",
    "C48_no_reset",
    "C48_reset_loses_refuted",
    "C48_reset_id_refuted",
    "C48_poll",
    "C48_random",
    "C48_task_numbers",
    "C48_intervals",
    "C48_burst"
   ],
   "note": "REFUTED: a reset drops pending tasks and restarts the task counter, so IDs are reused. Proved: every created task is exactly once handed over, pending, in hand or cleared by a reset; without resets order and distinct IDs, also across the agents of a swarm; only non-empty batches are sent, exactly near phase 0; no panics; documented task numbers, intervals and burst lengths. C48_reset_fresh: a workload that has been reset looks like a new one."
  },
  {
   "property": "C49",
   "status": "partial",
   "theorems": [
    "C49_reset_hangs_refuted",
    "C49_reset_hangs_iff",
    "C49_hang_blocks_all",
    "C49_no_theft_completes",
    "C49_fair"
   ],
   "note": "REFUTED: C49_reset_hangs_refuted gives, for every number of workloads, a schedule after which Reset never returns under any continuation; C49_reset_hangs_iff characterises the hanging states exactly; C49_hang_blocks_all: everything else stops too. Positive: C49_fair: in every schedule in which everybody keeps getting turns Reset returns within a bounded number of rounds or reaches such a hanging state; C49_no_theft_completes: it always returns when the processor takes no batch between length check and receive."
  },
  {
   "property": "C50",
   "status": "partial",
   "theorems": [
    "C50_pause_stops",
    "C50_live_current",
    "C50_resume_count",
    "C50_resume_one",
    "C50_paused_frozen",
    "C50_double_resume_refuted",
    "C50_pause_before_start_refuted",
    "C50_late_goroutine_refuted",
    "C50_runs_unbounded_refuted"
   ],
   "note": "REFUTED for arbitrary call sequences: C50_double_resume_refuted, C50_pause_before_start_refuted, C50_late_goroutine_refuted, C50_runs_unbounded_refuted. Proved: C50_paused_frozen (all histories); C50_pause_stops and C50_live_current for one Start and alternating Pause/Resume, all interleavings; C50_resume_count gives the exact number of active runs after a Resume (one for each goroutine that begins, including those launched earlier and not yet scheduled), C50_resume_one the case of one."
  },
  {
   "property": "C51",
   "status": "partial",
   "theorems": [
    "C51_unknown_pattern",
    "C51_words",
    "C51_range",
    "C51_lower_bound_refuted",
    "C51_best_iff",
    "C51_best_is_optimal",
    "C51_recommended_iff"
   ],
   "note": "All integers for goal, count and pattern, float64 values. The score is at most 1.3 and at least 0.48; it is at least 0.5 exactly outside the sparse pattern with at most 50 agents under five goals (C51_range). The best pattern has the largest score exactly outside three cases (C51_best_iff). REFUTED: the documented lower bound 0.5 (0.6*0.8 = 0.48, C51_lower_bound_refuted) and the optimality of BestPatternForGoal at every count (batching and latency from 1000 agents, energy saving up to 50 agents). C51_words gives the word for every goal and pattern in swarms of 51 to 999 agents; C51_unknown_pattern: an unset or unknown pattern neither helps nor harms."
  },
  {
   "property": "C52",
   "status": "partial",
   "theorems": [
    "C52_one_event",
    "C52_drop_refuted",
    "C52_goal_keys",
    "C52_rhythm",
    "C52_rhythm_refuted",
    "C52_scale_keys",
    "C52_pattern_keys",
    "C52_auto_pattern_refuted",
    "C52_change_agrees",
    "C52_runner",
    "C52_runner_calls",
    "C52_parse_scale"
   ],
   "note": "REFUTED: the rhythm goal advertises the key R, which the controller binds to Reset (its real key is m); with the automatic pattern the pattern shown is not the one the workloads use and its key is ignored; an event is dropped when ten are waiting. Proved: a key produces at most one event, every other goal key, every scale key and every pattern key selects what it advertises, and the runner acts on each event as documented."
  },
  {
   "property": "C53",
   "status": "partial",
   "theorems": [
    "C53_error_iff",
    "C53_no_panic",
    "C53_completes",
    "C53_result",
    "C53_option",
    "C53_option_nan_refuted",
    "C53_options",
    "C53_simulation_builder",
    "C53_shortcuts",
    "C53_simulation_succeeds",
    "C53_workloads",
    "C53_sim_target",
    "C53_sim_target_low",
    "C53_sim_target_consensus"
   ],
   "note": "REFUTED: WithCoherenceOption accepts NaN (Build then fails). Proved for all goals, all integers used as scale and all float64 coherences: Build fails exactly for a coherence above 1 or NaN, never panics, always can complete, and gives the scale's agent count, the goal configuration of that size and the requested (or default) coherence, lowered only to the practical limit; WithCoherenceOption rejects exactly the numbers outside (0,1]; the simulation builder agrees and makes one workload per agent."
  },
  {
   "property": "C54",
   "status": "partial",
   "theorems": [
    "C54_activity",
    "C54_mixed_refuted",
    "C54_mixed_witness_refuted"
   ],
   "note": "REFUTED: a mixed workload is always shown quiet, because the time of its last request is never recorded. Proved for all other patterns."
  },
  {
   "property": "C55",
   "status": "partial",
   "theorems": [
    "C55_coherence",
    "C55_peak_refuted"
   ],
   "note": "REFUTED: nothing records a coherence, so the reported peak and time to converge are always 0. Proved: the recording function itself keeps the maximum and the first time at or above 0.7."
  },
  {
   "property": "C56",
   "status": "proved",
   "theorems": [
    "C56_reset_range",
    "C56_reset_spread",
    "C56_reset_together",
    "C56_reset_opposed",
    "C56_reset_drift",
    "C56_disrupt_who",
    "C56_disrupt_count",
    "C56_disrupt_bounded",
    "C56_disrupt_synced"
   ],
   "note": "Exact reals. C56_reset_spread / _together / _opposed / _drift give the coherence after Reset for every goal and agent count; C56_disrupt_who, _count, _bounded, _synced describe Disrupt. The order in which the map is visited does not matter for coherence (C03)."
  },
  {
   "property": "C57",
   "status": "partial",
   "theorems": [
    "C57_level",
    "C57_sync_words",
    "C57_batch_words",
    "C57_monotone",
    "C57_emoji",
    "C57_nan_refuted"
   ],
   "note": "REFUTED for NaN: C57_nan_refuted (a NaN coherence is called Excellent). For every other float: C57_level, C57_sync_words and C57_batch_words identify the word with the number of marks (0.2, 0.4, 0.6, 0.8) reached, C57_monotone orders them, and C57_emoji shows that the emoji variant distinguishes the same five cases."
  },
  {
   "property": "C58",
   "status": "proved",
   "theorems": [
    "C58_success",
    "C58_suggestions",
    "C58_diagnosis"
   ],
   "note": "Success is reported exactly when the target is reached (floats); otherwise two to five suggestions, and the diagnosis follows the stated case distinction (exact reals)."
  },
  {
   "property": "C59",
   "status": "proved",
   "theorems": [
    "C59_rate",
    "C59_no_iterations"
   ],
   "note": "Exact fractions for all iteration counts up to 2^40 in absolute value (floats), and the case of no allowed iterations."
  },
  {
   "property": "C60",
   "status": "partial",
   "theorems": [
    "C60_clamp",
    "C60_clamp_nan",
    "C60_clamp_nearest",
    "C60_min_max",
    "C60_min_nan_refuted"
   ],
   "note": "REFUTED for NaN arguments of the minimum and maximum (C60_min_nan_refuted: the result depends on the order of the arguments). Proved for every other float; the clamp returns the nearest point of the unit interval (reals) and passes NaN through."
  },
  {
   "property": "C61",
   "status": "partial",
   "theorems": [
    "C61_load",
    "C61_never_balanced_refuted",
    "C61_centred",
    "C61_quarters",
    "C61_panic_refuted"
   ],
   "note": "REFUTED: C61_never_balanced_refuted (agents keep their phases in [0,2pi), the panel expects [-pi,pi): servers 1 and 2 stay empty and with nine or more agents BALANCED is never shown), C61_panic_refuted (a phase below -pi panics). C61_load gives counts, bars, colours and status exactly (floats, up to 2^20 agents); C61_centred proves the quarters for phases in [-pi,pi) and C61_quarters what happens in [0,2pi)."
  },
  {
   "property": "C62",
   "status": "partial",
   "theorems": [
    "C62_vote",
    "C62_consensus",
    "C62_wraparound_refuted"
   ],
   "note": "REFUTED: C62_wraparound_refuted (two agents within 1/50 of each other across phase 0 count as disagreeing). C62_consensus and C62_vote give the panel exactly: the largest group of agents in the same half-radian interval."
  },
  {
   "property": "C63",
   "status": "partial",
   "theorems": [
    "C63_latency",
    "C63_label",
    "C63_wraparound_refuted"
   ],
   "note": "REFUTED: C63_wraparound_refuted. C63_latency gives counts and bars exactly (floats, up to 2^40 agents; the first line is always empty), C63_label the correctness of the labels (reals)."
  },
  {
   "property": "C64",
   "status": "proved",
   "theorems": [
    "C64_energy",
    "C64_traffic",
    "C64_no_agents"
   ],
   "note": "C64_energy and C64_traffic are exact for up to 2^40 agents (floats); C64_no_agents covers the empty swarm."
  },
  {
   "property": "C65",
   "status": "partial",
   "theorems": [
    "C65_schedule",
    "C65_full_bar_refuted",
    "C65_early_is_late_refuted"
   ],
   "note": "REFUTED: C65_full_bar_refuted (eleven jobs on time get fourteen cells), C65_early_is_late_refuted (a job just before phase 0 is late; no job is ever early). C65_schedule gives counts exactly and bars up to one cell."
  },
  {
   "property": "C66",
   "status": "partial",
   "theorems": [
    "C66_health",
    "C66_agreement_refuted"
   ],
   "note": "REFUTED for agreement: C66_agreement_refuted (a perfectly synchronised swarm at phase 3 is shown as wholly degraded). C66_health gives the panel exactly."
  },
  {
   "property": "C67",
   "status": "partial",
   "theorems": [
    "C67_range",
    "C67_percent",
    "C67_share",
    "C67_consensus",
    "C67_health",
    "C67_api_and_load",
    "C67_latency",
    "C67_latency_refuted",
    "C67_energy",
    "C67_traffic",
    "C67_values",
    "C67_energy_disagrees_refuted",
    "C67_utilisation_disagrees_refuted",
    "C67_no_agents_refuted"
   ],
   "note": "REFUTED: C67_latency_refuted (green although the target is missed: truncated percents), C67_energy_disagrees_refuted and C67_utilisation_disagrees_refuted (gauge and panel of the same goal disagree), C67_no_agents_refuted (-2^63 without agents). Positive, on floats: C67_range, C67_percent, C67_share (rounded down, one lower at exactly 29/57/58 percent), and the exact colour thresholds C67_consensus, C67_health, C67_api_and_load, C67_latency, C67_energy."
  },
  {
   "property": "C68",
   "status": "proved",
   "theorems": [
    "C68_history",
    "C68_at_most_fifty",
    "C68_series",
    "C68_every_point_drawn"
   ],
   "note": "C68_history: the chart holds exactly the last fifty updates made while not paused; C68_at_most_fifty, C68_series and C68_every_point_drawn."
  },
  {
   "property": "C69",
   "status": "partial",
   "theorems": [
    "C69_magnitude",
    "C69_mean_phase",
    "C69_color",
    "C69_negative_mean_refuted",
    "C69_groups"
   ],
   "note": "REFUTED: C69_negative_mean_refuted (a negative mean phase makes a far agent green). C69_magnitude: the magnitude is the coherence; C69_color: colour by arc for means in [0,pi]; C69_groups: the exact groups below 0.3 (a sixth, a third, a half). Exact reals."
  },
  {
   "property": "C70",
   "status": "partial",
   "theorems": [
    "C70_drawn",
    "C70_legend",
    "C70_synced_refuted",
    "C70_wrap_refuted",
    "C70_grid",
    "C70_near_centre",
    "C70_hidden_refuted",
    "C70_character"
   ],
   "note": "REFUTED: C70_hidden_refuted (an agent on the centre cell is not drawn). C70_grid holds for every number type: no panic, 13x25, centre marked, a cell is blank exactly when none of the first twenty agents falls on it; C70_drawn says the same of the text written to the panel, and C70_legend that the legend explains each character in its colour; C70_near_centre bounds the cells for coherences in [0,1] (exact reals). C70_synced_refuted and C70_wrap_refuted: 'Synced' in the legend means a phase between 0 and 1/2; a swarm in agreement at phase 2 shows none, and an agent just before a full turn is shown as far."
  },
  {
   "property": "C71",
   "status": "partial",
   "theorems": [
    "C71_green",
    "C71_yellow",
    "C71_energy",
    "C71_consensus",
    "C71_one_sided_refuted",
    "C71_load",
    "C71_consensus_refuted",
    "C71_listed"
   ],
   "note": "REFUTED: C71_one_sided_refuted (yellow only on one side of phase 0), C71_consensus_refuted (wrap-around ignored). C71_green and C71_load give the exact green and red arcs; C71_listed the listing. Exact reals."
  },
  {
   "property": "C72",
   "status": "proved",
   "theorems": [
    "C72_monotone",
    "C72_load_antitone",
    "C72_savings",
    "C72_energy"
   ],
   "note": "On floats: C72_monotone, C72_load_antitone, C72_savings, C72_energy (exact thresholds)."
  },
  {
   "property": "C73",
   "status": "proved",
   "theorems": [
    "C73_height",
    "C73_waves"
   ],
   "note": "C73_waves for every number type; C73_height on floats for a sine within [-1,1]."
  },
  {
   "property": "C74",
   "status": "proved",
   "theorems": [
    "C74_goal_keys",
    "C74_one_goal",
    "C74_scale_keys",
    "C74_pattern_keys",
    "C74_action_keys",
    "C74_no_hidden_keys",
    "C74_scale_name",
    "C74_scale_counts"
   ],
   "note": "C74_goal_keys, C74_scale_keys, C74_pattern_keys, C74_action_keys go through the key table and the configuration change of C50 for every configuration; C74_no_hidden_keys is the converse; C74_one_goal, C74_scale_name. The menu judges the largest scale by 5000 agents instead of 2000, which changes no highlight (C74_scale_counts)."
  },
  {
   "property": "C75",
   "status": "partial",
   "theorems": [
    "C75_reasons_map",
    "C75_same_reason_refuted",
    "C75_mark",
    "C75_auto_good",
    "C75_explained",
    "C75_reason",
    "C75_reason_refuted",
    "C75_scale",
    "C75_best_worst"
   ],
   "note": "C75_mark, C75_auto_good, C75_explained, C75_scale, C75_best_worst hold for all goals, patterns and scales; C75_reason holds for all pairs but one. REFUTED: 'Recover from failure' with the mixed pattern is rated Optimal but explained by the reason against it (C75_reason_refuted). C75_reasons_map: the table holds no key twice and misses only four reasons; C75_same_reason_refuted: for exactly four pairs it gives the same reason for and against."
  },
  {
   "property": "C76",
   "status": "proved",
   "theorems": [
    "C76_apart",
    "C76_fresh",
    "C76_second"
   ],
   "note": "C76_apart and C76_fresh for every sequence of updates with a non-decreasing clock and a non-negative interval; C76_second for the interval of one second the constructor sets."
  },
  {
   "property": "C77",
   "status": "proved",
   "theorems": [
    "C77_script",
    "C77_progress"
   ],
   "note": "Every schedule of the script goroutine and its consumer: C77_script (order, no loss, at most ten waiting, delays kept), C77_progress (at most three steps per event, rest only when all is received, stops at ten without consumer)."
  },
  {
   "property": "C78",
   "status": "partial",
   "theorems": [
    "C78_full",
    "C78_ring",
    "C78_star",
    "C78_too_few",
    "C78_full_count",
    "C78_unseen_refuted",
    "C78_test_agent",
    "C78_test_swarm",
    "C78_test_swarm_error",
    "C78_random_goal_refuted",
    "C78_benchmark",
    "C78_mock_resources",
    "C78_mock_negative_refuted",
    "C78_mock_blend_refuted",
    "C78_mock_blend",
    "C78_mock_decider",
    "C78_mock_strategy"
   ],
   "note": "REFUTED in part: the topologies store the right pairs (C78_full, C78_ring, C78_star) but in a container which agents made by the constructors never read, so nobody sees a neighbour (C78_unseen_refuted, C78_test_swarm); the local goal of a test agent is random (C78_random_goal_refuted); TestSwarm fails above 100 agents (C78_test_swarm_error); the goal double does not blend along the circle (C78_mock_blend_refuted); negative requests create energy (C78_mock_negative_refuted). Proved: the sets of pairs for all orders, the fixed attributes, population for all sizes accepted, conservation for amounts that are not negative (real arithmetic)."
  },
  {
   "property": "C79",
   "status": "partial",
   "theorems": [
    "C79_agents",
    "C79_taken",
    "C79_live",
    "C79_paused",
    "C79_display",
    "C79_display_final",
    "C79_consistent",
    "C79_elapsed",
    "C79_pulse",
    "C79_counts",
    "C79_summary_exact",
    "C79_collecting",
    "C79_collecting_refuted",
    "C79_getters_refuted",
    "C79_final_coherence_refuted",
    "C79_peak_refuted"
   ],
   "note": "Positive: one line per workload with its own counters, live and paused snapshots, conversion for the displays, agreement of snapshot and summary, elapsed time, BATCH SENT pulse, counts and exact costs. REFUTED: 'Collecting: N tasks' counts queued batches (1 for 250 waiting tasks, 0 while 99 are collected); the getters PendingCount and CurrentBatchSize return 0 and ten per batch; FinalCoherence of the summary differs from the coherence displayed while paused; the peak coherence and time to converge of the summary are always 0 (C79_peak_refuted)."
  },
  {
   "property": "C80",
   "status": "partial",
   "theorems": [
    "C80_nearest",
    "C80_monotone",
    "C80_unreadable",
    "C80_integer",
    "C80_percent",
    "C80_gauge",
    "C80_gauge_refuted",
    "C80_word_refuted",
    "C80_duration",
    "C80_time",
    "C80_duration_monotone",
    "C80_time_monotone",
    "C80_minute_refuted",
    "C80_time_refuted"
   ],
   "note": "Positive: every printed number is the nearest decimal with the given digits, texts are monotone, durations and clock texts are exact to half a unit. REFUTED: panel and gauge show different percentages for one coherence (0.996: 100 and 99); '90%' appears with two different words and colours; '60.0s' before the minute is over; '02m' for 90 s and for 150 s."
  },
  {
   "property": "C81",
   "status": "partial",
   "theorems": [
    "C81_spread",
    "C81_load",
    "C81_rounds",
    "C81_latency",
    "C81_energy",
    "C81_drift",
    "C81_traffic",
    "C81_no_agents_refuted",
    "C81_words",
    "C81_flags",
    "C81_recovery",
    "C81_recovery_refuted",
    "C81_costs",
    "C81_summary",
    "C81_line",
    "C81_coherence",
    "C81_success_refuted",
    "C81_converge_refuted",
    "C81_names",
    "C81_names_refuted",
    "C81_insight"
   ],
   "note": "Positive: each number of the goal panels, costs and summaries within half a digit of the value it stands for, words and colours one to one, status flags, names of agents distinct for seven goals, colour of the insight. REFUTED: without agents '+Inf%' and 'NaN%'; the recovery time counts from the last batch (292 years when there was none); names of DistributeLoad agents coincide after cutting; the summary reports success and 0.0s to converge for a run where nothing happened."
  },
  {
   "property": "C82",
   "status": "partial",
   "theorems": [
    "C82_first_run",
    "C82_later_runs",
    "C82_after_switch_refuted",
    "C82_race_refuted"
   ],
   "note": "REFUTED: after the first restart signals have no effect at all, because handleSignals got the cancel function of the first context only (C82_later_runs: the program goes exactly as without them; C82_after_switch_refuted for every configuration and timeout); even in the first run a switch key handled at the same moment wins (C82_race_refuted). Proved: without switch keys, and always in text mode, a signal ends the program (C82_first_run)."
  },
  {
   "property": "C83",
   "status": "partial",
   "theorems": [
    "C83_quit_final",
    "C83_quit_prompt",
    "C83_busy_refuted",
    "C83_after_switch_refuted"
   ],
   "note": "REFUTED: a quit key pressed right after a switch key is forgotten (C83_after_switch_refuted); while the handler is in a call on the simulation, for example a Reset that hangs (C49), no key is acted on (C83_busy_refuted). Proved: pressed with no other event waiting and no switch under way, quit is final in every continuation and takes effect after a few steps (C83_quit_final, C83_quit_prompt)."
  },
  {
   "property": "C84",
   "status": "partial",
   "theorems": [
    "C84_restarts",
    "C84_fresh",
    "C84_switch",
    "C84_timeout_refuted"
   ],
   "note": "C84_restarts, C84_fresh and C84_switch hold for every schedule. REFUTED only for a request overtaken by the timeout (C84_timeout_refuted)."
  },
  {
   "property": "C85",
   "status": "partial",
   "theorems": [
    "C85_flags",
    "C85_interval_refuted",
    "C85_no_timeout"
   ],
   "note": "REFUTED: an interval of zero or less crashes the program (time.NewTicker panics in runUpdates, C85_interval_refuted). Proved: the exact outcome for all other flags (C85_flags, C85_no_timeout)."
  },
  {
   "property": "C86",
   "status": "partial",
   "theorems": [
    "C86_blind",
    "C86_zero",
    "C86_extrapolates",
    "C86_nonneg",
    "C86_line",
    "C86_interval_refuted",
    "C86_float",
    "C86_stalled_refuted"
   ],
   "note": "Exact reals: zero when converged, not rising or at the target; otherwise the time the current coherence needs at the measured rate of one sample per 100 ms, rounded down to a nanosecond; for samples every 100 ms on a line it is when the line reaches the threshold (C86_zero, C86_extrapolates, C86_line, C86_nonneg). Floats: accurate up to a relative error of 2^-45/slope + 2^-50 and 2 ns for slopes of at least 2^-30 (C86_float). REFUTED: the sample times are ignored, so with one sample per second the prediction is ten times too short (C86_blind, C86_interval_refuted); ten equal samples give a prediction of -2^63 ns (C86_stalled_refuted)."
  },
  {
   "property": "C87",
   "status": "partial",
   "theorems": [
    "C87_measured",
    "C87_overflow_refuted",
    "C87_exact",
    "C87_positive",
    "C87_keeps_difference",
    "C87_round_keeps",
    "C87_frozen",
    "C87_significant",
    "C87_near",
    "C87_together_refuted",
    "C87_float_significant",
    "C87_away_refuted"
   ],
   "note": "Any number semantics: measured period = mean of the periods cut towards zero when the sum fits (C87_measured); each period after a round in closed form: agents left out keep it, the others get one common shift, periods stay positive and differences stay (C87_exact, C87_positive, C87_keeps_difference); a shift counts when above 1 ms (C87_significant, C87_float_significant). REFUTED: once the mean is within 5 % of the target no period ever changes, so agents at 100 and 300 ms never agree under a 200 ms target (C87_frozen, C87_together_refuted); a round moves an agent from 100 ms to the 250 ms of a template although the target is 50 ms (C87_away_refuted); the sum of long periods wraps to a negative mean (C87_overflow_refuted)."
  },
  {
   "property": "C88",
   "status": "partial",
   "theorems": [
    "C88_shrinks",
    "C88_stops",
    "C88_when",
    "C88_default_never_refuted",
    "C88_together_refuted",
    "C88_lasts",
    "C88_breaks_refuted"
   ],
   "note": "Exact reals, any population, draws, traversal orders. An aligning series of k rounds leaves every agent at most max(dist, 2 pi (1-1.026 base)^k) before the target (C88_shrinks); it ends as soon as that is within the variance threshold (C88_stops), after at most 2 to 4 rounds with the goals' settings (C88_lasts). Alignment needs a coherence between the high threshold and 1 - 2 var / pi^2 (C88_when). REFUTED: an aligning round can break the coherence, from 0.77 to below 0.30 for every draw (C88_breaks_refuted); agents all at one phase away from the target are never aligned (C88_together_refuted); with the default settings nothing is ever aligned (C88_default_never_refuted)."
  },
  {
   "property": "C89",
   "status": "partial",
   "theorems": [
    "C89_global_phase_ignored_refuted",
    "C89_global_ignored_refuted",
    "C89_energy_aware_refuted",
    "C89_nudge_frozen_refuted",
    "C89_lock_frozen_refuted",
    "C89_approach",
    "C89_half_radian_refuted"
   ],
   "note": "REFUTED: the phase, frequency (and, for the built-in strategies, every part) of the global goal and the agent's influence change nothing; an energy-aware agent never changes its phase (floats, every run); a nudging or locking agent further than a threshold from its pull never moves and only drains its energy (at the default rate, half a radian is already too far). Proved within the threshold: every accepted turn covers the same share of the way to the neighbors' mean direction, the energy spent is twice the way gone, and with enough energy and favourable draws every turn is accepted."
  },
  {
   "property": "C90",
   "status": "partial",
   "theorems": [
    "C90_noise",
    "C90_count",
    "C90_round",
    "C90_replacement_refuted",
    "C90_empty_refuted"
   ],
   "note": "REFUTED as to who and how far: the agents are drawn with replacement, so the same one can be hit every time and then moves further than half the magnitude while fewer agents than the share are touched; an empty population panics. Proved: the number of disturbances is the share rounded down and at least one (floats: between 1 and the size, within rounding of the share), each is at most half the magnitude, only phases change, no more agents are touched than disturbances made, and without being stuck nobody is."
  },
  {
   "property": "C91",
   "status": "partial",
   "theorems": [
    "C91_success_needs",
    "C91_round",
    "C91_never_succeeds",
    "C91_client_agents",
    "C91_goals",
    "C91_client_refuted",
    "C91_client_gives_up"
   ],
   "note": "REFUTED: a client with any goal but AdaptToTraffic never succeeds when left undisturbed, however many rounds it gets (C91_client_refuted), and gives up within 1000 rounds (C91_client_gives_up). Its target period is 1 s, its agents start at 100-150 ms (C91_client_agents) and rounds keep every period below 250 ms (C91_round), so the period term of the pattern distance alone exceeds the goal's threshold (C91_success_needs, C91_goals). IEEE floats, any trigonometry within 1/1000, at least one agent not starting at exactly 100 ms. Success is possible for other targets (C27_nil_happens)."
  },
  {
   "property": "C92",
   "status": "partial",
   "theorems": [
    "C92_round_blind",
    "C92_round_keeps",
    "C92_strategy_blind",
    "C92_run_blind",
    "C92_run_keeps",
    "C92_spent_refuses",
    "C92_autonomy_refuted"
   ],
   "note": "REFUTED: a synchronisation reads and writes nothing of the agents but phases and periods (C92_run_blind, C92_run_keeps, C92_round_blind, C92_round_keeps), and the selected strategy changes nothing (C92_strategy_blind). A depleted, fully stubborn agent that refuses every proposal (C92_spent_refuses) is moved for free (C92_autonomy_refuted)."
  },
  {
   "property": "C93",
   "status": "partial",
   "theorems": [
    "C93_no_recovery_refuted",
    "C93_actions_bounded",
    "C93_unlimited_refuted",
    "C93_depleted_refuted",
    "C93_created_refuted",
    "C93_no_maximum_refuted",
    "C93_costs",
    "C93_documented_costs_refuted",
    "C93_turns_bounded",
    "C93_exhausted_refuted"
   ],
   "note": "REFUTED in parts: no recovery, no maximum, negative costs create energy, costs below half an ulp are absorbed, a pulse never costs the documented 20 units. Proved: energy never rises and never gets negative, the number of actions above a price is bounded by the energy (floats C93_actions_bounded, turns C93_turns_bounded), bounds of all strategy costs (C93_costs)."
  },
  {
   "property": "C94",
   "status": "partial",
   "theorems": [
    "C94_distance",
    "C94_accepts",
    "C94_rejects",
    "C94_arrived",
    "C94_too_coherent_refuted",
    "C94_preset",
    "C94_preset_refuted",
    "C94_synchronised_fails_refuted"
   ],
   "note": "REFUTED for goals that ask for less coherence than the swarm has: C94_too_coherent_refuted and C94_preset_refuted (turned down at every look), C94_synchronised_fails_refuted (a synchronised pair fails after its whole budget). Proved: the test agrees with exact arithmetic up to an explicit error (C94_distance, C94_accepts, C94_rejects) and standing at the goal is recognised at the first look under the exact guard 0.3 (1 - coherence) < distance (C94_arrived, C94_preset)."
  },
  {
   "property": "C95",
   "status": "partial",
   "theorems": [
    "C95_merge",
    "C95_merge_attained",
    "C95_failures",
    "C95_half",
    "C95_half_refuted",
    "C95_lost_refuted",
    "C95_moved",
    "C95_all_move",
    "C95_disrupt",
    "C95_tick_quiet",
    "C95_tick_alarm",
    "C95_unnoticed_refuted"
   ],
   "note": "REFUTED for the documented tolerance of 50% failures (C95_half_refuted, C95_lost_refuted) and for the detection of every disruption (C95_unnoticed_refuted). Proved: the attained bounds for merging and splitting (C95_merge, C95_merge_attained, C95_failures, C95_half), for moving agents (C95_moved, C95_all_move), for DisruptAgents in floats (C95_disrupt), and what the monitor reports and what it does not (C95_tick_quiet, C95_tick_alarm)."
  },
  {
   "property": "C96",
   "status": "partial",
   "theorems": [
    "C96_velocity",
    "C96_rate",
    "C96_rate_mean",
    "C96_small_window_refuted",
    "C96_switch",
    "C96_switch_float",
    "C96_switch_refuted",
    "C96_rate_refuted",
    "C96_acceleration",
    "C96_statistics"
   ],
   "note": "REFUTED in part: the average rate leaves out samples without change (C96_rate_refuted), windows of one or two samples never report anything (C96_small_window_refuted), and 63 of 90 samples count as more than 70% (C96_switch_refuted). Proved: velocity and acceleration as difference quotients, the rate as the mean of the non-zero velocities, the switch advice exactly (reals) and for windows below 90 (floats), the statistics fields."
  },
  {
   "property": "C97",
   "status": "partial",
   "theorems": [
    "C97_one_attempt",
    "C97_one_attempt_returns",
    "C97_again",
    "C97_life",
    "C97_client_life_refuted",
    "C97_client_continuous_refuted",
    "C97_disruptions_count",
    "C97_blocks_refuted",
    "C97_again_any_order"
   ],
   "note": "REFUTED in part: Start returns nil on success (C97_blocks_refuted); a client of the library never succeeds in its whole lifetime (C97_client_life_refuted); RunContinuous on it makes one attempt and returns the error with the context alive (C97_client_continuous_refuted). Proved: if the first synchronisation does not succeed nothing is ever restarted (C97_one_attempt, every schedule); a run that succeeded succeeds again at once and moves nobody (C97_again; in any order of traversal in exact arithmetic, C97_again_any_order)."
  },
  {
   "property": "C98",
   "status": "partial",
   "theorems": [
    "C98_client_safe",
    "C98_no_deadlock",
    "C98_client_safe_refuted",
    "C98_continuous_safe",
    "C98_continuous_then_start_refuted"
   ],
   "note": "REFUTED in part: two concurrent Starts have a data race on the target (C98_client_safe_refuted), and so have RunContinuous, cancelled, followed by Start in the same goroutine (C98_continuous_then_start_refuted). Proved: no data race when at most one goroutine calls Start (C98_client_safe), none in a continuous run together with any other calls (C98_continuous_safe), and no deadlock in any case (C98_no_deadlock)."
  },
  {
   "property": "C99",
   "status": "partial",
   "theorems": [
    "C99_sim_safe",
    "C99_counter_safe",
    "C99_burst_safe",
    "C99_locks_no_deadlock",
    "C99_counter_refuted",
    "C99_burst_refuted",
    "C99_burst_reset_refuted",
    "C99_pause_resume_refuted"
   ],
   "note": "REFUTED in part: task counter and burst state race with Reset and Snapshot (C99_counter_refuted, C99_burst_refuted), Resume races with the swarm goroutine of Start (C99_pause_resume_refuted). Proved for any goroutines and operations: no race on the state of the simulation, metrics, batch statistics, tasks, monitor history, performance record and strategy (C99_sim_safe); counter and burst state are safe when one goroutine uses them (C99_counter_safe, C99_burst_safe); the locks never stop the simulation (C99_locks_no_deadlock)."
  },
  {
   "property": "C100",
   "status": "partial",
   "theorems": [
    "C100_agents_safe",
    "C100_decider_safe",
    "C100_name_safe",
    "C100_strategy_safe",
    "C100_no_deadlock",
    "C100_decider_refuted",
    "C100_name_refuted",
    "C100_strategy_refuted"
   ],
   "note": "REFUTED: replacing the decision maker, returning an agent to a pool, and sharing a pulse strategy race with calls on the agents in use (C100_decider_refuted, C100_name_refuted, C100_strategy_refuted). Proved: neighbours and construction-time fields never race (C100_agents_safe), the three fields are safe under the exact guard (C100_decider_safe, C100_name_safe, C100_strategy_safe), no deadlock (C100_no_deadlock). Values behind sync/atomic and sync.Map are taken as synchronised."
  },
  {
   "property": "C101",
   "status": "partial",
   "theorems": [
    "C101_text_tells_fields",
    "C101_text_has_all",
    "C101_fields",
    "C101_state_fields",
    "C101_readable",
    "C101_state_readable",
    "C101_no_false_all_clear",
    "C101_same_text_refuted",
    "C101_once_refuted"
   ],
   "note": "REFUTED: the same configuration may give different texts, since fields are collected by ranging over maps (C101_same_text_refuted), and one field can be named twice (C101_once_refuted). Proved for every configuration and order: the text determines exactly the wrong fields and contains every error in full. Texts of %v for floats and durations are parameters assumed free of semicolons."
  }
 ]
}