(** Model of the lines of text of the metrics panel, the cost panel, the summaries and the text display
    (simulations/display/display.go:1157-1570, 2613-2644, text_display.go:55-88).  Headings and rules are left out; a panel
    is the list of its lines without the line feeds. *)
From Coq Require Import ZArith List Bool String Ascii.
From Verif Require Import Num F64 M_GoalConfig M_Display M_Batch M_Snapshot M_Format.
Import ListNotations.
Open Scope string_scope.
Open Scope list_scope.

Section Text.
Context {N : Num F}.
Open Scope num_scope.
(** The fields of an agent used by the panels (simulations/display/interfaces.go:71-80). *)
Definition asnap (a : DAgent F) : ASnap F := mkASnap (da_phase a) (da_activity a).

(** simulations/display/display.go:1181-1225 displayCommonStatus. *)
Definition yesNo (b : bool) : string := if b then "YES" else "NO".
Definition commonStatus (s : DSnapshot F) : list string :=
  [("Paused:    " ++ yesNo (d_paused s))%string; ("Disrupted: " ++ yesNo (d_disrupted s))%string; ("Resetting: " ++ yesNo (d_reset s))%string].
(** simulations/display/display.go:1238-1250 the words for the coherence. *)
Definition syncWord (c : F) : string := if c >=? nlit 9 10 then "In sync!" else if c >=? nlit 7 10 then "Syncing..." else "Not synced".
(** simulations/display/display.go:1227-1280 updateMetricsForBatching, without emoji and explanations. *)
Definition batchingLines (s : DSnapshot F) : list string :=
  [(syncWord (d_coherence s) ++ " " ++ percentText 0 (d_coherence s) ++ "%")%string;
   (if (0 <? d_current s)%Z then "Collecting: " ++ dec (d_current s) ++ " tasks" else "Waiting for tasks...")%string;
   ("Sent: " ++ dec (d_batches s) ++ " batches")%string]
  ++ (if d_justSent s then [("BATCH SENT! (" ++ dec (d_lastSize s) ++ " items)")%string] else []).
(** simulations/display/display.go:1282-1315 updateMetricsForLoadDistribution. *)
Definition distributionWord (c : F) : string := if c >? nlit 5 10 then "IMBALANCED" else if c >? nlit 3 10 then "FAIR" else "BALANCED".
Definition phaseSpread (c : F) : F := (n1 - c) * nofZ 100.
Definition loadPerAgent (n : Z) : F := nofZ 100 / nofZ n.
Definition loadLines (s : DSnapshot F) : list string :=
  [("Distribution: " ++ distributionWord (d_coherence s))%string; ("Phase Spread: " ++ fmtF 1 (phaseSpread (d_coherence s)) ++ "%")%string;
   ("Load/Server: " ++ fmtF 1 (loadPerAgent (lenZ (d_agents s))) ++ "%")%string].
(** simulations/display/display.go:1317-1347 updateMetricsForConsensus. *)
Definition consensusWord (c : F) : string := if c >=? nlit 95 100 then "CONSENSUS!" else if c >=? nlit 8 10 then "CONVERGING" else "NO CONSENSUS".
Definition votingRounds (elapsed : Z) : Z := ntrunc (Seconds elapsed * nofZ 2).
Definition consensusLines (s : DSnapshot F) : list string :=
  [("Status: " ++ consensusWord (d_coherence s))%string; ("Agreement: " ++ percentText 1 (d_coherence s) ++ "%")%string;
   ("Voting Rounds: " ++ dec (votingRounds (d_elapsed s)))%string].
(** simulations/display/display.go:1349-1382 updateMetricsForLatency. *)
Definition latencyWord (c : F) : string := if c >=? nlit 9 10 then "PREDICTABLE" else if c >=? nlit 7 10 then "FAIR" else "UNPREDICTABLE".
Definition jitter (c : F) : F := (n1 - c) * nofZ 20.
Definition latencyLines (s : DSnapshot F) : list string :=
  [("Timing: " ++ latencyWord (d_coherence s))%string; ("P50 Latency: " ++ fmtF 1 (nofZ 10) ++ "ms")%string;
   ("P95 Latency: " ++ fmtF 1 (nofZ 10 + jitter (d_coherence s)) ++ "ms")%string; ("Jitter: ±" ++ fmtF 1 (jitter (d_coherence s) / nofZ 2) ++ "ms")%string].
(** simulations/display/display.go:1384-1424 updateMetricsForEnergy. *)
Definition idlePercent (agents : list (DAgent F)) : F := nofZ (count quiet (map asnap agents)) / nofZ (lenZ agents) * nofZ 100.
Definition energyWord (idle : F) : string := if idle >? nofZ 70 then "EFFICIENT" else if idle >? nofZ 50 then "MODERATE" else "HIGH DRAIN".
Definition batteryHours (idle : F) : F := nofZ 24 * (idle / nofZ 100 + nlit 5 10).
Definition energyLines (s : DSnapshot F) : list string :=
  let idle := idlePercent (d_agents s) in
  [("Energy Use: " ++ energyWord idle)%string; ("Sensors Idle: " ++ fmtF 0 idle ++ "%")%string; ("Est. Battery: " ++ fmtF 0 (batteryHours idle) ++ "h")%string].
(** simulations/display/display.go:1426-1457 updateMetricsForRhythm. *)
Definition rhythmWord (c : F) : string := if c >=? nlit 9 10 then "ON SCHEDULE" else if c >=? nlit 7 10 then "DRIFTING" else "OFF SCHEDULE".
Definition drift (c : F) : F := (n1 - c) * nofZ 1000.
Definition rhythmLines (s : DSnapshot F) : list string :=
  [("Status: " ++ rhythmWord (d_coherence s))%string; ("Phase Lock: " ++ percentText 1 (d_coherence s) ++ "%")%string;
   ("Timing Drift: ±" ++ fmtF 0 (drift (d_coherence s)) ++ "ms")%string].
(** simulations/display/display.go:1459-1498 updateMetricsForFailure at time [now]. *)
Definition failureWords (s : DSnapshot F) (now : Z) : string * string :=
  if d_disrupted s then ("RECOVERING", (fmtF 1 (Seconds (since now (d_lastTime s))) ++ "s")%string)
  else if d_coherence s >=? nlit 8 10 then ("RESILIENT", "<1s")
  else if d_coherence s >=? nlit 6 10 then ("PARTIAL", "~2s") else ("VULNERABLE", "N/A").
Definition failureLines (s : DSnapshot F) (now : Z) : list string :=
  [("Status: " ++ fst (failureWords s now))%string; ("Sync Health: " ++ percentText 1 (d_coherence s) ++ "%")%string;
   ("Recovery Time: " ++ snd (failureWords s now))%string].
(** simulations/display/display.go:1500-1535 updateMetricsForTraffic. *)
Definition busyCount (agents : list (DAgent F)) : Z := count (fun a => bursting a || (an_act a =? "active")%string) (map asnap agents).
Definition loadPercent (agents : list (DAgent F)) : F := nofZ (busyCount agents) / nofZ (lenZ agents) * nofZ 100.
Definition adaptWord (c load : F) : string := if (c >=? nlit 8 10) && (load >? nofZ 30) then "RESPONSIVE" else if c >=? nlit 6 10 then "ADAPTING" else "SLOW".
Definition trafficLines (s : DSnapshot F) : list string :=
  [("Adaptation: " ++ adaptWord (d_coherence s) (loadPercent (d_agents s)))%string; ("Current Load: " ++ fmtF 0 (loadPercent (d_agents s)) ++ "%")%string;
   ("Scaled Units: " ++ dec (busyCount (d_agents s)) ++ "/" ++ dec (lenZ (d_agents s)))%string].
(** simulations/display/display.go:1157-1179 updateMetricsDisplay. *)
Definition metricsLines (g : Goal) (s : DSnapshot F) (now : Z) : list string :=
  commonStatus s ++
  match g with
  | DistributeLoad => loadLines s
  | ReachConsensus => consensusLines s
  | MinimizeLatency => latencyLines s
  | SaveEnergy => energyLines s
  | MaintainRhythm => rhythmLines s
  | RecoverFromFailure => failureLines s now
  | AdaptToTraffic => trafficLines s
  | MinimizeAPICalls | OtherGoal => batchingLines s
  end.
(** The word of the panel (same lines). *)
Definition metricsWord (g : Goal) (s : DSnapshot F) (now : Z) : string :=
  match g with
  | DistributeLoad => distributionWord (d_coherence s)
  | ReachConsensus => consensusWord (d_coherence s)
  | MinimizeLatency => latencyWord (d_coherence s)
  | SaveEnergy => energyWord (idlePercent (d_agents s))
  | MaintainRhythm => rhythmWord (d_coherence s)
  | RecoverFromFailure => fst (failureWords s now)
  | AdaptToTraffic => adaptWord (d_coherence s) (loadPercent (d_agents s))
  | MinimizeAPICalls | OtherGoal => syncWord (d_coherence s)
  end.
(** simulations/display/display.go:1537-1569 updateCostDisplay. *)
Definition costLines (s : DSnapshot F) : list string :=
  [("  $" ++ fmtF 2 (d_without s) ++ " (individual calls)")%string; ("  $" ++ fmtF 2 (d_with s) ++ " (batched calls)")%string;
   ("SAVINGS: $" ++ fmtF 2 (d_savings s) ++ " (" ++ fmtF 1 (d_percent s) ++ "%)")%string].
(** simulations/display/text_display.go:63-69 Update: the line printed. *)
Definition textLine (s : DSnapshot F) : string :=
  ("[" ++ formatTime (d_elapsed s) ++ "] Coherence: " ++ percentText 1 (d_coherence s) ++ "% | Savings: $" ++ fmtF 2 (d_savings s) ++
   " (" ++ fmtF 1 (d_percent s) ++ "%) | Batches: " ++ dec (d_batches s))%string.
(** simulations/display/text_display.go:73-88 ShowSummary. *)
Definition success : string := "Agents successfully learned to batch API calls!".
Definition textSummary (t : DStatistics F) : list string :=
  [("Total API Calls (without sync): " ++ dec (dt_calls t))%string; ("Total Batches (with sync):       " ++ dec (dt_batches t))%string;
   ("Average Batch Size:              " ++ fmtF 1 (dt_average t))%string;
   ("Total Savings:                   $" ++ fmtF 2 (dt_savings t) ++ " (" ++ fmtF 1 (dt_percent t) ++ "%)")%string;
   ("Peak Coherence:                  " ++ percentText 1 (dt_peak t) ++ "%")%string; success].
(** simulations/display/display.go:2613-2644 ShowSummary. *)
Definition termSummary (t : DStatistics F) : list string :=
  [("Total Savings: $" ++ fmtF 2 (dt_savings t) ++ " (" ++ fmtF 1 (dt_percent t) ++ "%)")%string; success;
   ("API Calls (individual): " ++ dec (dt_calls t))%string; ("API Calls (batched):    " ++ dec (dt_batches t))%string;
   ("Average Batch Size:     " ++ fmtF 1 (dt_average t))%string; ("Peak Coherence:         " ++ percentText 1 (dt_peak t) ++ "%")%string;
   ("Time to Converge:       " ++ formatDuration (dt_converge t))%string].
(** simulations/display/display.go:1126-1129 updateAgentsDisplay: the type name cut to eleven bytes. *)
Definition shortType (name : string) : string := if (11 <? String.length name)%nat then substring 0 11 name else name.
(** %-11s and %4d of fmt: blanks on the right and on the left (simulations/display/display.go:1130, 1142, 1146). *)
Fixpoint blanks (n : nat) : string := match n with O => EmptyString | S k => String " "%char (blanks k) end.
Definition padRight (w : nat) (s : string) : string := (s ++ blanks (w - String.length s))%string.
Definition padLeft (w : nat) (s : string) : string := (blanks (w - String.length s) ++ s)%string.
(** simulations/display/display.go:1125-1148 updateAgentsDisplay: the line of an agent, without icon and indicator. *)
Definition agentLine (a : DAgent F) : string :=
  (padRight 11 (shortType (da_type a)) ++ " " ++ padLeft 4 (dec (da_pending a)) ++ (if (10 <? da_pending a)%Z then "!" else "") ++ "  " ++ padLeft 4 (dec (da_sent a)))%string.
End Text.
