(** Model of the menu, the welcome screen and the configuration box of the terminal display
    (simulations/display/display.go), of the text display (text_display.go) and of the scripted controller
    (controller.go).  A menu entry is its key, its name and whether it is highlighted (bold white); the
    colours of the other entries are constant.  Goals, patterns and scales as in M_Scale.v and M_ReqPattern.v. *)
From Coq Require Import ZArith List Bool String Ascii.
From Verif Require Import Num M_GoalConfig M_Scale M_ReqPattern M_Controller.
Import ListNotations.
Open Scope Z_scope.
Open Scope string_scope.

(** simulations/display/display.go:433-535: one entry of the menu. *)
Record Entry := mkEntry { en_key : ascii; en_name : string; en_bold : bool }.

(** simulations/display/display.go:418-431 updateInstructionsWidget: the goals listed. *)
Definition menuGoals : list (ascii * string * Goal) :=
  [("B"%char, "Batch", MinimizeAPICalls); ("L"%char, "Load", DistributeLoad); ("C"%char, "Consensus", ReachConsensus);
   ("T"%char, "Latency", MinimizeLatency); ("E"%char, "Energy", SaveEnergy); ("M"%char, "Rhythm", MaintainRhythm);
   ("F"%char, "Failure", RecoverFromFailure); ("A"%char, "Traffic", AdaptToTraffic)].
(** simulations/display/display.go:433-445 updateInstructionsWidget: the current goal is highlighted. *)
Definition goalMenu (cur : Goal) : list Entry :=
  map (fun x => mkEntry (fst (fst x)) (snd (fst x)) (goalEqb cur (snd x))) menuGoals.

(** simulations/display/display.go:461-471 updateInstructionsWidget: the patterns listed. *)
Definition menuPatterns : list (ascii * string * Z) :=
  [("H"%char, "High-Freq", HighFrequency); ("U"%char, "Burst", Burst); ("Y"%char, "Steady", Steady);
   ("X"%char, "Mixed", Mixed); ("Z"%char, "Sparse", Sparse)].
Section Qualifier.
Context {T : Type} {N : Num T}.
(** simulations/display/display.go:482, 654-656: optimal, excellent or good. *)
Definition goodQualifier (q : string) : bool := (q =? "optimal") || (q =? "excellent") || (q =? "good").
(** simulations/display/display.go:473-488 updateInstructionsWidget: good patterns are highlighted. *)
Definition patternMenu (cur : Goal) (curScale : Z) : list Entry :=
  map (fun x => mkEntry (fst (fst x)) (snd (fst x))
                  (goodQualifier (GetQualifier (goalInt cur) (DefaultAgentCount curScale) (snd x)))) menuPatterns.

(** simulations/display/display.go:505-516 updateInstructionsWidget: the scales listed, with the counts used
    for the recommendation. *)
Definition menuScales : list (ascii * string * Z * Z) :=
  [("1"%char, "Tiny", Tiny, 20); ("2"%char, "Small", Small, 50); ("3"%char, "Medium", Medium, 200);
   ("4"%char, "Large", Large, 1000); ("5"%char, "Huge", Huge, 5000)].
(** simulations/display/display.go:518-531 updateInstructionsWidget: recommended scales are highlighted. *)
Definition scaleMenu (cur : Goal) : list Entry :=
  map (fun x => mkEntry (fst (fst (fst x))) (snd (fst (fst x))) (IsRecommendedForSize cur (snd x))) menuScales.
(** simulations/display/display.go:547-550 updateInstructionsWidget: the actions line. *)
Definition menuActions : list (ascii * string) :=
  [("D"%char, "Disrupt"); ("R"%char, "Reset"); ("P"%char, "Pause"); ("Q"%char, "Quit")].

(** The termdash colours used on the welcome screen (simulations/display/display.go:587-783). *)
Inductive Color := CGreen | CYellow | CRed | CGray | CWhite.
(** simulations/display/display.go:582-602 ShowWelcome: the mark beside the pattern name. *)
Definition patternMark (g : Goal) (s p : Z) : option (string * Color) :=
  let q := GetQualifier (goalInt g) (DefaultAgentCount s) p in
  if q =? "optimal" then Some ("  ✓", CGreen)
  else if (q =? "excellent") || (q =? "good") then Some ("  ✓", CGreen)
  else if q =? "fair" then Some ("  ⚠", CYellow)
  else if q =? "poor" then Some ("  ✗", CRed) else None.
(** simulations/display/display.go:609-617 ShowWelcome: the mark beside the scale name. *)
Definition scaleMark (g : Goal) (s : Z) : string * Color :=
  if IsRecommendedForSize g (DefaultAgentCount s) then ("  ✓", CGreen) else ("  ✗", CRed).
(** simulations/display/display.go:623-653 ShowWelcome: the pattern assessment, its word and colour. *)
Definition patternStatus (g : Goal) (s p : Z) : string * Color :=
  let q := GetQualifier (goalInt g) (DefaultAgentCount s) p in
  if q =? "optimal" then ("Optimal", CGreen)
  else if (q =? "excellent") || (q =? "good") then ("Good", CGreen)
  else if q =? "fair" then ("Fair", CYellow)
  else if q =? "poor" then ("Poor", CRed) else ("Unknown", CGray).

(** simulations/display/display.go:2381-2481 getPatternReason: the map of reasons. *)
Definition reasons : list (Goal * Z * bool * string) :=
  [
   (MinimizeAPICalls, Burst, true, " (creates natural batching windows)");
   (MinimizeAPICalls, HighFrequency, true, " (continuous flow enables steady batching)");
   (MinimizeAPICalls, Steady, true, " (predictable timing for batch optimization)");
   (MinimizeAPICalls, Sparse, false, " (too infrequent for effective batching)");
   (MinimizeAPICalls, Mixed, false, " (unpredictable timing disrupts batching)");
   (MinimizeAPICalls, HighFrequency, false, " (too frequent for batching)");
   (MinimizeAPICalls, Burst, false, " (irregular batching)");
   (MinimizeAPICalls, Steady, false, " (suboptimal batch sizes)");
   (DistributeLoad, Mixed, true, " (varied timing spreads load naturally)");
   (DistributeLoad, Sparse, true, " (low frequency prevents overload)");
   (DistributeLoad, Steady, true, " (predictable for load balancing)");
   (DistributeLoad, Burst, false, " (creates load spikes)");
   (DistributeLoad, HighFrequency, false, " (may overload servers)");
   (DistributeLoad, Steady, false, " (predictable load patterns)");
   (DistributeLoad, Mixed, false, " (unpredictable load)");
   (DistributeLoad, Sparse, false, " (uneven distribution)");
   (ReachConsensus, Burst, true, " (concentrated voting rounds)");
   (ReachConsensus, HighFrequency, true, " (rapid consensus iterations)");
   (ReachConsensus, Steady, true, " (regular voting cycles)");
   (ReachConsensus, Mixed, true, " (unpredictable voting timing)");
   (ReachConsensus, Sparse, true, " (slow consensus formation)");
   (ReachConsensus, Sparse, false, " (too slow for consensus)");
   (ReachConsensus, Mixed, false, " (unpredictable voting timing)");
   (ReachConsensus, HighFrequency, false, " (too rapid for consensus)");
   (ReachConsensus, Burst, false, " (irregular consensus attempts)");
   (ReachConsensus, Steady, false, " (may miss optimal timing)");
   (MinimizeLatency, HighFrequency, true, " (continuous optimization of response times)");
   (MinimizeLatency, Steady, true, " (predictable latency patterns)");
   (MinimizeLatency, Burst, true, " (latency spikes during bursts)");
   (MinimizeLatency, Mixed, true, " (variable latency)");
   (MinimizeLatency, Sparse, true, " (infrequent optimization opportunities)");
   (MinimizeLatency, Sparse, false, " (infrequent optimization opportunities)");
   (MinimizeLatency, Burst, false, " (creates latency spikes)");
   (MinimizeLatency, HighFrequency, false, " (may increase overhead)");
   (MinimizeLatency, Steady, false, " (predictable but not minimal)");
   (MinimizeLatency, Mixed, false, " (unpredictable latency)");
   (SaveEnergy, Sparse, true, " (minimal activity saves power)");
   (SaveEnergy, Burst, true, " (concentrated work, longer idle periods)");
   (SaveEnergy, HighFrequency, true, " (constant activity drains battery)");
   (SaveEnergy, Steady, true, " (predictable power usage)");
   (SaveEnergy, Mixed, true, " (unpredictable energy consumption)");
   (SaveEnergy, HighFrequency, false, " (constant activity drains battery)");
   (SaveEnergy, Mixed, false, " (unpredictable power usage)");
   (SaveEnergy, Steady, false, " (continuous power draw)");
   (SaveEnergy, Burst, false, " (power spikes)");
   (SaveEnergy, Sparse, false, " (minimal but inefficient)");
   (MaintainRhythm, Steady, true, " (perfect for rhythm maintenance)");
   (MaintainRhythm, HighFrequency, true, " (frequent sync points)");
   (MaintainRhythm, Burst, true, " (intermittent rhythm disruption)");
   (MaintainRhythm, Mixed, true, " (irregular rhythm)");
   (MaintainRhythm, Sparse, true, " (too infrequent for rhythm)");
   (MaintainRhythm, Sparse, false, " (gaps disrupt rhythm)");
   (MaintainRhythm, Mixed, false, " (irregular timing breaks rhythm)");
   (MaintainRhythm, Burst, false, " (intermittent disruptions)");
   (MaintainRhythm, HighFrequency, false, " (too fast for stable rhythm)");
   (MaintainRhythm, Steady, false, " (monotonous rhythm)");
   (RecoverFromFailure, Burst, true, " (rapid recovery attempts)");
   (RecoverFromFailure, HighFrequency, true, " (continuous health monitoring)");
   (RecoverFromFailure, Steady, true, " (regular health checks)");
   (RecoverFromFailure, Mixed, true, " (unpredictable recovery timing)");
   (RecoverFromFailure, Sparse, true, " (delayed failure detection)");
   (RecoverFromFailure, Sparse, false, " (slow failure detection)");
   (RecoverFromFailure, Mixed, false, " (unpredictable recovery timing)");
   (RecoverFromFailure, Burst, false, " (irregular recovery attempts)");
   (RecoverFromFailure, HighFrequency, false, " (may overwhelm recovery)");
   (RecoverFromFailure, Steady, false, " (predictable but slow)");
   (AdaptToTraffic, Mixed, true, " (simulates real traffic patterns)");
   (AdaptToTraffic, Burst, true, " (tests surge handling)");
   (AdaptToTraffic, HighFrequency, true, " (stress testing traffic)");
   (AdaptToTraffic, Steady, true, " (baseline traffic pattern)");
   (AdaptToTraffic, Sparse, true, " (low traffic simulation)");
   (AdaptToTraffic, Sparse, false, " (insufficient traffic simulation)");
   (AdaptToTraffic, Steady, false, " (doesn't simulate real traffic variability)");
   (AdaptToTraffic, HighFrequency, false, " (unrealistic constant load)");
   (AdaptToTraffic, Burst, false, " (too extreme for baseline)");
   (AdaptToTraffic, Mixed, false, " (too unpredictable)")].
(** simulations/display/display.go:2487-2489: lookup in the map (the keys above are distinct). *)
Definition lookupReason (g : Goal) (p : Z) (good : bool) : option string :=
  match find (fun x => goalEqb (fst (fst (fst x))) g && (snd (fst (fst x)) =? p)%Z && Bool.eqb (snd (fst x)) good) reasons with
  | Some x => Some (snd x) | None => None
  end.
(** simulations/display/display.go:2491-2534 getPatternReason: the default reasons. *)
Definition defaultReason (g : Goal) (good : bool) : string :=
  if good then
    match g with
    | MinimizeAPICalls => " (supports batch formation)" | DistributeLoad => " (helps distribute workload)"
    | ReachConsensus => " (supports voting coordination)" | MinimizeLatency => " (enables latency optimization)"
    | SaveEnergy => " (supports energy conservation)" | MaintainRhythm => " (enables rhythm coordination)"
    | RecoverFromFailure => " (supports failure detection)" | AdaptToTraffic => " (enables traffic adaptation)"
    | OtherGoal => " (compatible with goal)"
    end
  else
    match g with
    | MinimizeAPICalls => " (suboptimal for batching)" | DistributeLoad => " (uneven load distribution)"
    | ReachConsensus => " (hampers consensus formation)" | MinimizeLatency => " (suboptimal for latency)"
    | SaveEnergy => " (inefficient energy use)" | MaintainRhythm => " (rhythm disruption likely)"
    | RecoverFromFailure => " (hampers recovery efforts)" | AdaptToTraffic => " (poor traffic simulation)"
    | OtherGoal => " (not optimal for this goal)"
    end.
(** simulations/display/display.go:2372-2538 getPatternReason. *)
Definition getPatternReason (g : Goal) (p : Z) (good : bool) : string :=
  if (p =? Unset)%Z then "" else
  match lookupReason g p good with Some r => r | None => defaultReason g good end.
(** simulations/display/display.go:654-659 ShowWelcome: the reason shown. *)
Definition shownReason (g : Goal) (s p : Z) : string :=
  getPatternReason g p (goodQualifier (GetQualifier (goalInt g) (DefaultAgentCount s) p)).
End Qualifier.

(** simulations/display/display.go:668-707 ShowWelcome: the reason for a recommended scale. *)
Definition goodScaleReason (g : Goal) (n : Z) : string :=
  match g with
  | MinimizeAPICalls => " (more agents = bigger batches)"
  | DistributeLoad => if (200 <=? n)%Z then " (many workers share the load)" else " (enough workers to distribute)"
  | ReachConsensus => if (n <=? 200)%Z then " (fewer agents = faster agreement)" else " (still manageable voting time)"
  | MinimizeLatency => " (fewer hops = faster response)"
  | SaveEnergy => if (n <=? 200)%Z then " (fewer agents = less power)" else " (coordinated sleep cycles)"
  | MaintainRhythm => if (n <=? 50)%Z then " (small groups sync naturally)" else " (frequency locking scales)"
  | RecoverFromFailure => " (backup agents ready)"
  | AdaptToTraffic => if (200 <=? n)%Z then " (handles traffic spikes)" else " (absorbs normal variance)"
  | OtherGoal => ""
  end.
(** simulations/display/display.go:714-780 ShowWelcome: the reason for a scale that is not recommended. *)
Definition poorScaleReason (g : Goal) (n : Z) : string :=
  match g with
  | MinimizeAPICalls => " (less batching opportunity)"
  | DistributeLoad => if (n <? 20)%Z then " (not enough workers)" else " (coordination overhead)"
  | ReachConsensus => if (n <? 50)%Z then " (too few voices for quorum)"
                      else if (1000 <? n)%Z then " (too many agents slows consensus)" else " (group size slows agreement)"
  | MinimizeLatency => if (200 <? n)%Z then " (more hops between agents)" else " (coordination adds delay)"
  | SaveEnergy => if (200 <? n)%Z then " (too many agents drain power)" else " (energy not optimized)"
  | MaintainRhythm => " (rhythm disrupted)"
  | RecoverFromFailure => if (n <? 20)%Z then " (no backup agents)" else " (recovery not optimal)"
  | AdaptToTraffic => if (n <? 20)%Z then " (can't handle spikes)"
                      else if (1000 <? n)%Z then " (slow to adapt)" else " (traffic handling limited)"
  | OtherGoal => if (n <? 50)%Z then " (too few agents for coordination)"
                 else if (1000 <? n)%Z then " (coordination overhead dominates)" else " (inefficient at this size)"
  end.
(** simulations/display/display.go:661-783 ShowWelcome: the scale assessment, word, colour and reason. *)
Definition scaleStatus (g : Goal) (s : Z) : string * Color * string :=
  let n := DefaultAgentCount s in
  if IsRecommendedForSize g n then ("Good", CGreen, goodScaleReason g n) else ("Poor", CRed, poorScaleReason g n).

(** simulations/display/display.go:113-153 getBestWorstDescriptions. *)
Definition bestWorst (g : Goal) : string * string :=
  match g with
  | MinimizeAPICalls => ("All workloads synchronized, maximum batching", "Workloads scattered, no batching possible")
  | DistributeLoad => ("Perfect anti-phase, resources evenly distributed", "All synchronized, maximum resource contention")
  | ReachConsensus => ("Voting blocs formed, rapid agreement", "Every node isolated, no consensus possible")
  | MinimizeLatency => ("Predictable synchronized responses", "Alternating phases causing jitter")
  | SaveEnergy => ("Sparse, coordinated activity", "All sensors active simultaneously")
  | MaintainRhythm => ("Steady beat, all jobs on schedule", "Irregular drift, schedule chaos")
  | RecoverFromFailure => ("Isolated failures, smooth recovery", "Clustered failures, cascading impact")
  | AdaptToTraffic => ("Distributed scaling, smooth handling", "Synchronized scaling, resource spikes")
  | OtherGoal => ("Optimal synchronization pattern", "Chaotic, uncoordinated behavior")
  end.
(** simulations/emerge/config.go:37-52 DisplayName. *)
Definition DisplayName (s : Z) : string :=
  onScale s "TINY SWARM (20 workloads)" "SMALL SWARM (50 workloads)" "MEDIUM SWARM (200 workloads)"
    "LARGE SWARM (1000 workloads)" "HUGE SWARM (2000 workloads)" "CUSTOM SWARM".
(** simulations/display/text_display.go:14-26 TextDisplay: the time of the last line ([None]: the zero time, for
    which time.Since exceeds every interval) and the interval (1 s). *)
Record TextDisplay := mkTD { td_last : option Z; td_interval : Z }.
(** simulations/display/text_display.go:21-26 NewTextDisplay. *)
Definition NewTextDisplay : TextDisplay := mkTD None 1000000000.
(** simulations/display/text_display.go:55-70 Update.  [now] is the clock read by time.Since, [stamp] the later
    reading stored; the result says whether a line is printed. *)
Definition textUpdate (d : TextDisplay) (now stamp : Z) : TextDisplay * bool :=
  match td_last d with
  | Some l => if (now - l <? td_interval d)%Z then (d, false) else (mkTD (Some stamp) (td_interval d), true)
  | None => (mkTD (Some stamp) (td_interval d), true)
  end.

(** simulations/display/controller.go:121-151 AutomatedController: what remains of the script with the delays,
    the channel of capacity 10, and what has been received. *)
Record Auto := mkAuto { au_script : list Event; au_delays : list Z; au_sleep : option Z; au_chan : list Event; au_got : list Event; au_time : Z }.
(** simulations/display/controller.go:144-151: the steps of the script goroutine and of the consumer. *)
Inductive AStep := ASleep | ASend | ARecv.
(** simulations/display/controller.go:128-136 NewAutomatedController. *)
Definition NewAutomated (script : list Event) (delays : list Z) : Auto := mkAuto script delays None [] [] 0.
(** simulations/display/controller.go:144-151 run: sleep if there is a delay for the event, then send, which waits
    for room.  [ARecv] is a receive by the consumer.  [au_time] adds up the sleeps (a negative one returns at
    once); [au_sleep = Some _] means that the sleep before the next event is over.  [None]: not possible now. *)
Definition aStep (a : Auto) (m : AStep) : option Auto :=
  match m with
  | ASleep => match au_script a, au_sleep a with
              | _ :: _, None => match au_delays a with
                          | d :: ds => Some (mkAuto (au_script a) ds (Some d) (au_chan a) (au_got a) (au_time a + Z.max 0 d))
                          | [] => Some (mkAuto (au_script a) [] (Some 0%Z) (au_chan a) (au_got a) (au_time a))
                          end
              | _, _ => None
              end
  | ASend => match au_script a, au_sleep a with
             | e :: es, Some _ => if (List.length (au_chan a) <? 10)%nat
                                  then Some (mkAuto es (au_delays a) None (au_chan a ++ [e]) (au_got a) (au_time a)) else None
             | _, _ => None
             end
  | ARecv => match au_chan a with e :: c => Some (mkAuto (au_script a) (au_delays a) (au_sleep a) c (au_got a ++ [e]) (au_time a)) | [] => None end
  end.
(** A schedule of the steps of simulations/display/controller.go:144-151. *)
Fixpoint aRun (a : Auto) (l : list AStep) : option Auto :=
  match l with [] => Some a | m :: r => match aStep a m with Some a' => aRun a' r | None => None end end.
