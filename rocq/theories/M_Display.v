(** Model of the numeric part of simulations/display/display.go: what each panel counts, how long its bars
    are, which colour and which word it shows.  Texts around the numbers, widgets and the terminal are not
    modelled.  A panic (index out of range) is [None].  [int(x)] of a float outside the range of int64 is the
    value of [ntrunc] ([ftrunc]). *)
From Coq Require Import ZArith List Bool String.
From Verif Require Import Num GoBase M_GoalConfig.
Import ListNotations.
Open Scope num_scope.

(** Colours of the termdash library used by simulations/display/display.go. *)
Inductive Color := CRed | CYellow | CGreen | CCyan | CMagenta | CBlue.

Section Display.
Context {T : Type} {N : Num T}.

(** simulations/display/interfaces.go:71-80 AgentSnapshot: the phase and the activity. *)
Record ASnap := mkASnap { an_phase : T; an_act : string }.

(** [len(xs)], as in simulations/display/display.go:1934. *)
Definition lenZ {A} (xs : list A) : Z := Z.of_nat (List.length xs).
(** [int(float64(k) / float64(n) * scale)]: the length of a bar or a percentage, simulations/display/display.go:1939,
    2036, 2176, 2185, 2195, 1645 and 1703. *)
Definition share (k n scale : Z) : Z := ntrunc (nofZ k / nofZ n * nofZ scale).

(** [bins[i]++], a panic when out of range: simulations/display/display.go:1930 and 2027. *)
Definition bump (bins : list Z) (i : Z) : option (list Z) :=
  match nthZ bins i with None => None | Some v => setZ bins i (v + 1)%Z end.
(** [for _, agent := range agents { bins[idx(agent)]++ }]: simulations/display/display.go:1924-1931, 2019-2028. *)
Fixpoint tally (idx : ASnap -> Z) (agents : list ASnap) (bins : list Z) : option (list Z) :=
  match agents with
  | [] => Some bins
  | a :: r => match bump bins (idx a) with None => None | Some b => tally idx r b end
  end.

(** simulations/display/display.go:2340-2361 calculateLoadVariance. *)
Definition calculateLoadVariance (loads : list Z) : T :=
  match loads with
  | [] => n0
  | _ =>
    let n := nofZ (lenZ loads) in
    let mean := fold_left (fun acc l => acc + nofZ l) loads n0 / n in
    let var := fold_left (fun acc l => let d := nofZ l - mean in acc + d * d) loads n0 / n in
    nsqrt var
  end.

(** simulations/display/display.go:1926-1930 the region of an agent. *)
Definition region (a : ASnap) : Z :=
  let r := ntrunc ((an_phase a + npi) / n2pi * nofZ 4) in if (4 <=? r)%Z then 3%Z else r.
(** simulations/display/display.go:1916-1962 displayLoadDistribution: the four counts, each with its bar and
    colour, and whether the status is BALANCED. *)
Record LoadView := mkLoadView { lv_loads : list Z; lv_bars : list (Z * Color); lv_balanced : bool }.
Definition displayLoadDistribution (agents : list ASnap) : option LoadView :=
  match tally region agents [0; 0; 0; 0]%Z with
  | None => None
  | Some loads =>
    let maxAgents := (Z.quot (lenZ agents) 4 + 1)%Z in
    Some (mkLoadView loads
      (map (fun l => (share l maxAgents 20, if (maxAgents <? l)%Z then CRed else CGreen)) loads)
      (negb (calculateLoadVariance loads >? nofZ 2)))
  end.

(** [voteGroups[vote]++] on a map: simulations/display/display.go:1970-1974. *)
Fixpoint voteFor (v : Z) (m : list (Z * Z)) : list (Z * Z) :=
  match m with
  | [] => [(v, 1%Z)]
  | (w, c) :: r => if (w =? v)%Z then (w, c + 1)%Z :: r else (w, c) :: voteFor v r
  end.
(** simulations/display/display.go:1972 the vote of an agent. *)
Definition voteOf (a : ASnap) : Z := ntrunc (an_phase a * nofZ 2).
(** simulations/display/display.go:1976-1982: the maximum does not depend on the order of the map. *)
Definition maxVotes (m : list (Z * Z)) : Z := fold_left (fun mx kc => if (mx <? snd kc)%Z then snd kc else mx) m 0%Z.
(** simulations/display/display.go:1988-1995 and 2073-2080: a bar of twenty cells. *)
Definition bar20 (len : Z) : list bool := map (fun i => (Z.of_nat i <? len)%Z) (seq 0 20).
(** simulations/display/display.go:1965-2007 displayConsensusProgress: the percentage, the twenty cells and
    whether consensus is announced. *)
Record ConsView := mkConsView { cv_percent : T; cv_cells : list bool; cv_reached : bool }.
Definition displayConsensusProgress (agents : list ASnap) : ConsView :=
  let groups := fold_left (fun m a => voteFor (voteOf a) m) agents [] in
  let percent := nofZ (maxVotes groups) / nofZ (lenZ agents) * nofZ 100 in
  mkConsView percent (bar20 (ntrunc (percent / nofZ 5))) (percent >=? nofZ 95).

(** simulations/display/display.go:2021-2026 the latency bin of an agent. *)
Definition latencyBin (a : ASnap) : Z :=
  let latency := nofZ 10 + nabs (an_phase a) * nofZ 5 in
  let b := ntrunc (latency / nofZ 10) in if (5 <=? b)%Z then 4%Z else b.
(** simulations/display/display.go:2010-2050 displayLatencyHistogram: counts and bars (colour by bin). *)
Definition displayLatencyHistogram (agents : list ASnap) : option (list (Z * Z * Color)) :=
  match tally latencyBin agents [0; 0; 0; 0; 0]%Z with
  | None => None
  | Some bins =>
    Some (map (fun ib => (snd ib, share (snd ib) (lenZ agents) 30,
                          if (2 <? fst ib)%Z then CRed else if (1 <? fst ib)%Z then CYellow else CGreen))
              (combine [0; 1; 2; 3; 4]%Z bins))
  end.

(** Number of agents with a property: the counting loops simulations/display/display.go:2060-2066, 2110-2120,
    2161-2170, 2223-2232, 1640-1644, 1698-1702 (each [case] of the switch counts separately). *)
Definition count (p : ASnap -> bool) (agents : list ASnap) : Z :=
  fold_left (fun n a => if p a then (n + 1)%Z else n) agents 0%Z.
(** simulations/display/display.go:40-41 the activity constants. *)
Definition quiet (a : ASnap) : bool := (an_act a =? "quiet")%string.
Definition bursting (a : ASnap) : bool := (an_act a =? "burst")%string.

(** simulations/display/display.go:2053-2098 displayEnergyPattern. *)
Record EnergyView := mkEnergyView { ev_sleeping : Z; ev_active : Z; ev_percent : T; ev_cells : list bool; ev_efficient : bool }.
Definition displayEnergyPattern (agents : list ASnap) : EnergyView :=
  let sleeping := count quiet agents in
  let active := count (fun a => negb (quiet a)) agents in
  let percent := nofZ sleeping / nofZ (lenZ agents) * nofZ 100 in
  mkEnergyView sleeping active percent (bar20 (ntrunc (percent / nofZ 5))) (percent >? nofZ 70).

(** simulations/display/display.go:2111-2119 the three-way switch on the drift. *)
Definition onTimeP (a : ASnap) : bool := nabs (an_phase a) <? nlit 1 10.
Definition earlyP (a : ASnap) : bool := negb (onTimeP a) && (an_phase a <? n0).
Definition lateP (a : ASnap) : bool := negb (onTimeP a) && negb (an_phase a <? n0).
(** simulations/display/display.go:2364-2369 maxInt. *)
Definition maxInt (a b : Z) : Z := if (b <? a)%Z then a else b.
(** simulations/display/display.go:2101-2149 displayScheduleAlignment: counts and bars of early, on time, late. *)
Record SchedView := mkSchedView { sv_early : Z; sv_onTime : Z; sv_late : Z; sv_bars : Z * Z * Z }.
Definition displayScheduleAlignment (agents : list ASnap) : SchedView :=
  let onTime := count onTimeP agents in let early := count earlyP agents in let late := count lateP agents in
  let ratio := nofZ 15 / nofZ (maxInt (maxInt early onTime) late) in
  mkSchedView early onTime late
    (ntrunc (nofZ early * ratio), ntrunc (nofZ onTime * ratio), ntrunc (nofZ late * ratio)).

(** simulations/display/display.go:2161-2170 the three-way switch on the health. *)
Definition failedP (disrupted : bool) (a : ASnap) : bool := disrupted && (nabs (an_phase a) >? nofZ 2).
Definition degradedP (disrupted : bool) (a : ASnap) : bool := negb (failedP disrupted a) && (nabs (an_phase a) >? nofZ 1).
Definition healthyP (disrupted : bool) (a : ASnap) : bool := negb (failedP disrupted a) && negb (nabs (an_phase a) >? nofZ 1).
(** simulations/display/display.go:2152-2211 displaySystemHealth: a line is shown for the healthy agents
    always and for the degraded and failed ones only when there are some. *)
Record HealthView := mkHealthView { hv_healthy : Z * Z; hv_degraded : option (Z * Z); hv_failed : option (Z * Z); hv_status : string }.
Definition displaySystemHealth (disrupted : bool) (agents : list ASnap) : HealthView :=
  let n := lenZ agents in
  let h := count (healthyP disrupted) agents in
  let d := count (degradedP disrupted) agents in
  let f := count (failedP disrupted) agents in
  mkHealthView (h, share h n 20)
    (if (0 <? d)%Z then Some (d, share d n 20) else None)
    (if (0 <? f)%Z then Some (f, share f n 20) else None)
    (if disrupted then "RECOVERING" else if (h =? n)%Z then "FULLY RESILIENT" else "")%string.

(** simulations/display/display.go:2214-2276 displayTrafficLoad: counts, utilisation, cells, advice. *)
Record TrafficView := mkTrafficView { tv_idle : Z; tv_normal : Z; tv_busy : Z; tv_util : T; tv_cells : list (option Color); tv_advice : string }.
(** simulations/display/display.go:2240-2253 one cell of the capacity bar. *)
Definition trafficCell (bars : Z) (i : nat) : option Color :=
  if (Z.of_nat i <? bars)%Z then
    Some (if (16 <=? Z.of_nat i)%Z then CRed else if (12 <=? Z.of_nat i)%Z then CYellow else CGreen)
  else None.
Definition displayTrafficLoad (agents : list ASnap) : TrafficView :=
  let idle := count quiet agents in
  let busy := count (fun a => negb (quiet a) && bursting a) agents in
  let normal := count (fun a => negb (quiet a) && negb (bursting a)) agents in
  let util := nofZ (normal + busy) / nofZ (lenZ agents) * nofZ 100 in
  mkTrafficView idle normal busy util (map (trafficCell (ntrunc (util / nofZ 5))) (seq 0 20))
    (if util >? nofZ 80 then "SCALE UP"%string else if util <? nofZ 30 then "SCALE DOWN"%string else "OPTIMAL"%string).
(** simulations/display/display.go:2278-2292 the key insight below the traffic panel. *)
Definition insight (coherence target : T) : Color :=
  if coherence >=? target then CGreen else if coherence >=? target * nlit 9 10 then CYellow else CRed.

(** simulations/display/display.go:1810-1824 calculateMeanField. *)
Definition calculateMeanField (phases : list T) : T * T :=
  let sumSin := fold_left (fun acc p => acc + nsin p) phases n0 in
  let sumCos := fold_left (fun acc p => acc + ncos p) phases n0 in
  let n := nofZ (lenZ phases) in
  let sumSin := if n >? n0 then sumSin / n else sumSin in
  let sumCos := if n >? n0 then sumCos / n else sumCos in
  (natan2 sumSin sumCos, nsqrt (sumSin * sumSin + sumCos * sumCos)).
(** simulations/display/display.go:1827-1853 getAgentColor. *)
Definition getAgentColor (phase meanPhase meanMagnitude : T) : Color :=
  if meanMagnitude <? nlit 3 10 then
    let g := ntrunc ((phase + npi) * nofZ 3 / n2pi) in
    if (g =? 0)%Z then CRed else if (g =? 1)%Z then CYellow else if (g =? 2)%Z then CCyan else CMagenta
  else
    let deviation := nabs (phase - meanPhase) in
    let deviation := if deviation >? npi then n2pi - deviation else deviation in
    if deviation <? npi * (n1 - meanMagnitude) then CGreen else CRed.
(** simulations/display/display.go:1893-1894 the height of an agent's bar in displayBatchingWaves. *)
Definition waveHeight (phase : T) : Z := ntrunc ((nsin phase + n1) / nofZ 2 * nofZ 8).
(** simulations/display/display.go:1882-1913 displayBatchingWaves: eight rows from the top, at most 35 columns;
    a cell is the colour of a block or nothing. *)
Definition displayBatchingWaves (phases : list T) : list (list (option Color)) :=
  let mf := calculateMeanField phases in
  map (fun row => map (fun p => if (row <=? waveHeight p)%Z then Some (getAgentColor p (fst mf) (snd mf)) else None)
                      (firstn 35 phases)) [8; 7; 6; 5; 4; 3; 2; 1]%Z.

(** simulations/display/display.go:2296-2305 createEmptyGrid; the characters are numbers: 0 blank, 1 the
    centre, 2 synced, 3 near, 4 far. *)
Definition createEmptyGrid (width height : Z) : list (list Z) :=
  repeat (repeat 0%Z (Z.to_nat width)) (Z.to_nat height).
(** simulations/display/display.go:2308-2317 getAgentCharacter. *)
Definition getAgentCharacter (phase : T) : Z :=
  if nabs phase <? nlit 5 10 then 2%Z else if nabs phase <? nlit 10 10 then 3%Z else 4%Z.
(** [swarmGrid[y][x] = v]: simulations/display/display.go:2555 and 2576. *)
Definition setGrid (g : list (list Z)) (y x v : Z) : option (list (list Z)) :=
  match nthZ g y with None => None | Some row =>
    match setZ row x v with None => None | Some row' => setZ g y row' end end.
(** simulations/display/display.go:2564-2567 the distance from the centre. *)
Definition gridDistance (coherence : T) : T :=
  if coherence >? nlit 5 10 then nofZ 2 + nofZ 3 * (n1 - coherence) else nofZ 5.
(** simulations/display/display.go:2570-2572 the cell of the [i]th agent; the centre is (12, 6). *)
Definition gridCell (coherence : T) (i : nat) (phase : T) : Z * Z :=
  let d := gridDistance coherence in
  let angle := phase + nofZ (Z.of_nat i) * npi / nofZ 10 in
  (Z.add 12 (ntrunc (d * ncos angle)), Z.add 6 (ntrunc (d * nsin angle / nofZ 2))).
(** simulations/display/display.go:2557-2578 the loop placing the agents. *)
Fixpoint placeAgents (coherence : T) (i : nat) (phases : list T) (g : list (list Z)) : option (list (list Z)) :=
  match phases with
  | [] => Some g
  | p :: r =>
    if (20 <=? i)%nat then Some g else
    let '(x, y) := gridCell coherence i p in
    if (0 <=? x)%Z && (x <? 25)%Z && (0 <=? y)%Z && (y <? 13)%Z && (negb (x =? 12)%Z || negb (y =? 6)%Z) then
      match setGrid g y x (getAgentCharacter p) with None => None | Some g' => placeAgents coherence (S i) r g' end
    else placeAgents coherence (S i) r g
  end.
(** simulations/display/display.go:2540-2578 updateSwarmVisualization up to the rendering. *)
Definition swarmGrid (coherence : T) (phases : list T) : option (list (list Z)) :=
  match setGrid (createEmptyGrid 25 13) 6 12 1 with None => None | Some g => placeAgents coherence 0 phases g end.

(** simulations/display/display.go:1056-1123 updateAgentsDisplay: the indicator of an agent. *)
Definition syncIndicator (g : Goal) (phase : T) : Color :=
  let near c r := nabs (phase - c) <? r in
  match g with
  | DistributeLoad | RecoverFromFailure =>
      if (nabs phase <? nlit 5 10) || near n2pi (nlit 5 10) then CRed
      else if near npi (nlit 5 10) || near (nhalfpi 1) (nlit 5 10) || near (nhalfpi 3) (nlit 5 10) then CGreen
      else CYellow
  | SaveEnergy =>
      if (nabs phase <? nlit 3 10) || near n2pi (nlit 3 10) then CYellow
      else if near npi (nlit 5 10) then CGreen else CRed
  | ReachConsensus =>
      if (nabs phase <? nlit 5 10) || near (nofZ 2) (nlit 5 10) || near (nofZ 4) (nlit 5 10) then CGreen else CYellow
  | MinimizeAPICalls | MinimizeLatency | MaintainRhythm | AdaptToTraffic =>
      if (nabs phase <? nlit 5 10) || near n2pi (nlit 5 10) then CGreen
      else if nabs phase <? nlit 10 10 then CYellow else CRed
  | OtherGoal => CYellow
  end.
(** simulations/display/display.go:1047-1051 and 1150-1153: at most ten agents are listed, the rest counted. *)
Definition agentsShown (n : Z) : Z * Z := let m := if (n <? 10)%Z then n else 10%Z in (m, if (m <? n)%Z then (n - m)%Z else 0%Z).

(** simulations/display/display.go:1227-1535, the colour each metrics panel gives to the coherence. *)
Definition ladder (c hi lo : T) : Color := if c >=? hi then CGreen else if c >=? lo then CYellow else CRed.
(** simulations/display/display.go:1157-1179 and 1227-1535 the choice of the panel and its colour. *)
Definition metricsColor (g : Goal) (disrupted : bool) (coherence : T) (agents : list ASnap) : Color :=
  match g with
  | DistributeLoad => if coherence >? nlit 5 10 then CRed else if coherence >? nlit 3 10 then CYellow else CGreen
  | ReachConsensus => ladder coherence (nlit 95 100) (nlit 8 10)
  | SaveEnergy =>
      let idle := nofZ (count quiet agents) / nofZ (lenZ agents) * nofZ 100 in
      if idle >? nofZ 70 then CGreen else if idle >? nofZ 50 then CYellow else CRed
  | RecoverFromFailure => if disrupted then CYellow else ladder coherence (nlit 8 10) (nlit 6 10)
  | AdaptToTraffic =>
      let load := nofZ (count (fun a => bursting a || (an_act a =? "active")%string) agents) / nofZ (lenZ agents) * nofZ 100 in
      if (coherence >=? nlit 8 10) && (load >? nofZ 30) then CGreen
      else if coherence >=? nlit 6 10 then CYellow else CRed
  | MinimizeAPICalls | MinimizeLatency | MaintainRhythm | OtherGoal => ladder coherence (nlit 9 10) (nlit 7 10)
  end.
(** simulations/display/display.go:1556-1562 the colour of the savings. *)
Definition savingsColor (percent : T) : Color :=
  let c := if percent <? nofZ 50 then CYellow else CGreen in if percent <? nofZ 20 then CRed else c.

(** simulations/display/display.go:1572-1733 updateGoalSpecificGauges: the two percentages and the colour. *)
Record Gauges := mkGauges { gg_value : Z; gg_target : Z; gg_color : Color }.
(** [int(x * 100)]: simulations/display/display.go:1576. *)
Definition percentOf (x : T) : Z := ntrunc (x * nofZ 100).
Definition goalGauges (g : Goal) (disrupted : bool) (coherence target : T) (agents : list ASnap) : Gauges :=
  match g with
  | DistributeLoad =>
      mkGauges (percentOf (n1 - coherence)) (percentOf (n1 - target)) (if coherence >? nlit 5 10 then CRed else CGreen)
  | ReachConsensus =>
      let p := percentOf coherence in
      mkGauges p 95 (if (95 <=? p)%Z then CGreen else if (80 <=? p)%Z then CYellow else CRed)
  | MinimizeLatency | MaintainRhythm =>
      let p := percentOf coherence in let t := percentOf target in
      mkGauges p t (if (t <=? p)%Z then CGreen else CRed)
  | SaveEnergy =>
      let p := share (count quiet agents) (lenZ agents) 100 in
      mkGauges p 70 (if (70 <=? p)%Z then CGreen else if (50 <=? p)%Z then CYellow else CRed)
  | RecoverFromFailure =>
      let h := percentOf coherence in let h := if disrupted then Z.quot h 2 else h in
      mkGauges h 80 (if (80 <=? h)%Z && negb disrupted then CGreen else if (60 <=? h)%Z then CYellow else CRed)
  | AdaptToTraffic =>
      let p := share (count (fun a => bursting a || (an_act a =? "active")%string) agents) (lenZ agents) 100 in
      mkGauges p 60 (if (40 <=? p)%Z && (p <=? 80)%Z then CGreen else if (90 <? p)%Z then CRed else CYellow)
  | MinimizeAPICalls | OtherGoal =>
      mkGauges (percentOf coherence) (percentOf target) (if coherence >=? target then CGreen else CRed)
  end.

(** simulations/display/display.go:66-67 the two histories of the chart. *)
Record Chart := mkChart { ch_coh : list T; ch_tgt : list T }.
(** simulations/display/display.go:80-86 NewTerminalDisplay. *)
Definition newChart : Chart := mkChart [] [].
(** simulations/display/display.go:1737-1748: a new point, at most fifty kept. *)
Definition chartPoint (ch : Chart) (coherence target : T) (paused : bool) : Chart :=
  if paused then ch else
  let c := ch_coh ch ++ [coherence * nofZ 100] in
  let t := ch_tgt ch ++ [target * nofZ 100] in
  if (50 <? List.length c)%nat then mkChart (tl c) (tl t) else mkChart c t.
(** simulations/display/display.go:1752-1788 the two series; [None] stands for math.NaN().  The loop runs over
    the index with both series as state; a series point not yet written is [None] here and 0 in the slice,
    and every point below the index has been written. *)
Fixpoint seriesLoop (tv : T) (hist : list T) (prev : option T) (above below : list (option T)) : list (option T) * list (option T) :=
  match hist with
  | [] => (above, below)
  | v :: r =>
    let isAbove := v >=? tv in
    let a := if isAbove then Some v else None in
    let b := if isAbove then None else Some v in
    match prev with
    | None => seriesLoop tv r (Some v) (above ++ [a]) (below ++ [b])
    | Some pv =>
      let wasAbove := pv >=? tv in
      if Bool.eqb isAbove wasAbove then seriesLoop tv r (Some v) (above ++ [a]) (below ++ [b])
      else if isAbove then seriesLoop tv r (Some v) (above ++ [Some v]) (removelast below ++ [Some pv] ++ [Some v])
      else seriesLoop tv r (Some v) (removelast above ++ [Some pv] ++ [Some v]) (below ++ [Some v])
    end
  end.
(** simulations/display/display.go:1752-1788. *)
Definition chartSeries (ch : Chart) (target : T) : list (option T) * list (option T) :=
  seriesLoop (target * nofZ 100) (ch_coh ch) None [] [].
End Display.
Arguments ASnap : clear implicits.
Arguments LoadView : clear implicits.
Arguments ConsView : clear implicits.
Arguments EnergyView : clear implicits.
Arguments SchedView : clear implicits.
Arguments HealthView : clear implicits.
Arguments TrafficView : clear implicits.
Arguments Chart : clear implicits.
