(** Model of the keyboard controller (simulations/display/controller.go), of the control events
    (simulations/display/interfaces.go), of the event handling of the runner
    (simulations/emerge/ui/runner.go) and of the restart loop (simulations/emerge/main.go).
    A key is the rune of termdash (an integer); [esc] is the library constant keyboard.KeyEsc, which the
    Go compiler guarantees to differ from every other case of the switch.  Printing is left out. *)
From Coq Require Import ZArith List Bool String Ascii.
From Verif Require Import Num M_GoalConfig M_Scale M_ReqPattern.
Import ListNotations.
Open Scope Z_scope.

(** simulations/display/interfaces.go:106-130 EventType (EventQuit is the zero value). *)
Inductive Event := EventQuit | EventReset | EventDisrupt | EventPause | EventResume
  | ScaleTiny | ScaleSmall | ScaleMedium | ScaleLarge | ScaleHuge
  | GoalBatch | GoalLoad | GoalConsensus | GoalLatency | GoalEnergy | GoalRhythm | GoalFailure | GoalTraffic
  | PatternHighFreq | PatternBurst | PatternSteady | PatternMixed | PatternSparse.

(** The rune of an ASCII character. *)
Definition rune (c : ascii) : Z := Z.of_nat (nat_of_ascii c).
(** case 'x', 'X'. *)
Definition oneOf (k : Z) (a b : ascii) : bool := (k =? rune a) || (k =? rune b).

(** simulations/display/controller.go:32-90 ProcessKey: the event of a key ([None]: the key is ignored). *)
Definition keyEvent (esc k : Z) : option Event :=
  (if oneOf k "q" "Q" then Some EventQuit
   else if oneOf k "r" "R" then Some EventReset
   else if oneOf k "d" "D" then Some EventDisrupt
   else if oneOf k "p" "P" then Some EventPause
   else if Z.eqb k (rune " ") then Some EventResume
   else if Z.eqb k esc then Some EventQuit
   else if Z.eqb k (rune "1") then Some ScaleTiny
   else if Z.eqb k (rune "2") then Some ScaleSmall
   else if Z.eqb k (rune "3") then Some ScaleMedium
   else if Z.eqb k (rune "4") then Some ScaleLarge
   else if Z.eqb k (rune "5") then Some ScaleHuge
   else if oneOf k "b" "B" then Some GoalBatch
   else if oneOf k "l" "L" then Some GoalLoad
   else if oneOf k "c" "C" then Some GoalConsensus
   else if oneOf k "t" "T" then Some GoalLatency
   else if oneOf k "e" "E" then Some GoalEnergy
   else if oneOf k "m" "M" then Some GoalRhythm
   else if oneOf k "f" "F" then Some GoalFailure
   else if oneOf k "a" "A" then Some GoalTraffic
   else if oneOf k "h" "H" then Some PatternHighFreq
   else if oneOf k "u" "U" then Some PatternBurst
   else if oneOf k "y" "Y" then Some PatternSteady
   else if oneOf k "x" "X" then Some PatternMixed
   else if oneOf k "z" "Z" then Some PatternSparse
   else None)%char.

(** simulations/display/controller.go:19-23 NewKeyboardController: the capacity of the event channel. *)
Definition eventCap : nat := 10.
(** simulations/display/controller.go:31-99 ProcessKey: the event is dropped when the channel is full. *)
Definition ProcessKey (esc : Z) (events : list Event) (k : Z) : list Event :=
  match keyEvent esc k with
  | None => events
  | Some e => if (List.length events <? eventCap)%nat then events ++ [e] else events
  end.

(** simulations/emerge/ui/runner.go:16-23 RunnerConfig, the current state used for comparison. *)
Record RunnerConfig := mkRC { rc_goal : Goal; rc_scale : Z; rc_pattern : Z }.

(** emerge/goal/config.go:8-42: the integer of a goal (8 stands for every other value). *)
Definition goalInt (g : Goal) : Z :=
  match g with
  | MinimizeAPICalls => 0 | DistributeLoad => 1 | ReachConsensus => 2 | MinimizeLatency => 3 | SaveEnergy => 4
  | MaintainRhythm => 5 | RecoverFromFailure => 6 | AdaptToTraffic => 7 | OtherGoal => 8
  end.
(** a == b for goals. *)
Definition goalEqb (a b : Goal) : bool := goalInt a =? goalInt b.

(** simulations/emerge/ui/runner.go:138-184 isChangeEvent. *)
Definition isChangeEvent (c : RunnerConfig) (e : Event) : bool :=
  match e with
  | ScaleTiny => negb (rc_scale c =? Tiny)
  | ScaleSmall => negb (rc_scale c =? Small)
  | ScaleMedium => negb (rc_scale c =? Medium)
  | ScaleLarge => negb (rc_scale c =? Large)
  | ScaleHuge => negb (rc_scale c =? Huge)
  | GoalBatch => negb (goalEqb (rc_goal c) MinimizeAPICalls)
  | GoalLoad => negb (goalEqb (rc_goal c) DistributeLoad)
  | GoalConsensus => negb (goalEqb (rc_goal c) ReachConsensus)
  | GoalLatency => negb (goalEqb (rc_goal c) MinimizeLatency)
  | GoalEnergy => negb (goalEqb (rc_goal c) SaveEnergy)
  | GoalRhythm => negb (goalEqb (rc_goal c) MaintainRhythm)
  | GoalFailure => negb (goalEqb (rc_goal c) RecoverFromFailure)
  | GoalTraffic => negb (goalEqb (rc_goal c) AdaptToTraffic)
  | PatternHighFreq => negb (rc_pattern c =? HighFrequency)
  | PatternBurst => negb (rc_pattern c =? Burst)
  | PatternSteady => negb (rc_pattern c =? Steady)
  | PatternMixed => negb (rc_pattern c =? Mixed)
  | PatternSparse => negb (rc_pattern c =? Sparse)
  | EventQuit | EventReset | EventDisrupt | EventPause | EventResume => true
  end.

(** The calls the runner makes on the simulation. *)
Inductive SimCall := CallReset | CallDisrupt | CallPause | CallResume.
(** The runner while it handles events: its paused flag, the channel of switch requests, whether the
    application context has been cancelled, and the calls made so far (latest first). *)
Record RunnerState := mkRS { ru_paused : bool; ru_switch : list Event; ru_cancelled : bool; ru_calls : list SimCall }.

(** simulations/emerge/ui/runner.go:196-242 handleEvents, one event. *)
Definition handleEvent (c : RunnerConfig) (s : RunnerState) (e : Event) : RunnerState :=
  match e with
  | EventQuit => mkRS (ru_paused s) (ru_switch s) true (ru_calls s)
  | EventReset => if ru_paused s then s else mkRS (ru_paused s) (ru_switch s) (ru_cancelled s) (CallReset :: ru_calls s)
  | EventDisrupt => if ru_paused s then s else mkRS (ru_paused s) (ru_switch s) (ru_cancelled s) (CallDisrupt :: ru_calls s)
  | EventPause => if ru_paused s then mkRS false (ru_switch s) (ru_cancelled s) (CallResume :: ru_calls s)
                  else mkRS true (ru_switch s) (ru_cancelled s) (CallPause :: ru_calls s)
  | EventResume => mkRS false (ru_switch s) (ru_cancelled s) (CallResume :: ru_calls s)
  | _ => if isChangeEvent c e then mkRS (ru_paused s) (tl (ru_switch s) ++ [e]) true (ru_calls s) else s
  end.
(** simulations/emerge/ui/runner.go:43-50 NewRunner and 93: nothing paused, no switch requested. *)
Definition runner0 : RunnerState := mkRS false [] false [].
(** simulations/emerge/ui/runner.go:107-118 Run: the event reported (EventQuit is the zero value). *)
Definition runResult (s : RunnerState) : Event := match ru_switch s with e :: _ => e | [] => EventQuit end.

(** simulations/emerge/config.go:12-18 Config (without the timing fields). *)
Record MainConfig := mkMC { mc_goal : Goal; mc_scale : Z; mc_pattern : Z }.
(** simulations/emerge/config.go:21-29 DefaultConfig. *)
Definition DefaultMainConfig : MainConfig := mkMC MinimizeAPICalls Tiny Unset.
(** simulations/emerge/main.go:198-203 runSimulation: the request pattern handed to the workloads. *)
Definition simPattern (c : MainConfig) : Z := mc_pattern c.
(** simulations/emerge/main.go:211-243 runSimulation: the runner's view of the current state
    ([term]: the standard output is a terminal; only then is the pattern chosen automatically). *)
Definition runnerConfig (term : bool) (c : MainConfig) : RunnerConfig :=
  mkRC (mc_goal c) (mc_scale c)
    (if term && (mc_pattern c =? Unset) then BestPatternForGoal (goalInt (mc_goal c)) else mc_pattern c).
(** simulations/emerge/main.go:213-222 runSimulation: the pattern shown on the terminal. *)
Definition shownPattern (c : MainConfig) : Z :=
  if mc_pattern c =? Unset then BestPatternForGoal (goalInt (mc_goal c)) else mc_pattern c.

(** simulations/emerge/main.go:74-171 main, one round ([None]: the program ends). *)
Definition applySwitch (c : MainConfig) (e : Event) : option MainConfig :=
  let toScale s := if mc_scale c =? s then None else Some (mkMC (mc_goal c) s (mc_pattern c)) in
  let toGoal g := if goalEqb (mc_goal c) g then None else Some (mkMC g (mc_scale c) (mc_pattern c)) in
  let toPattern p := if mc_pattern c =? p then None else Some (mkMC (mc_goal c) (mc_scale c) p) in
  match e with
  | ScaleTiny => toScale Tiny | ScaleSmall => toScale Small | ScaleMedium => toScale Medium
  | ScaleLarge => toScale Large | ScaleHuge => toScale Huge
  | GoalBatch => toGoal MinimizeAPICalls | GoalLoad => toGoal DistributeLoad
  | GoalConsensus => toGoal ReachConsensus | GoalLatency => toGoal MinimizeLatency
  | GoalEnergy => toGoal SaveEnergy | GoalRhythm => toGoal MaintainRhythm
  | GoalFailure => toGoal RecoverFromFailure | GoalTraffic => toGoal AdaptToTraffic
  | PatternHighFreq => toPattern HighFrequency | PatternBurst => toPattern Burst
  | PatternSteady => toPattern Steady | PatternMixed => toPattern Mixed | PatternSparse => toPattern Sparse
  | EventQuit | EventReset | EventDisrupt | EventPause | EventResume => None
  end.
(** simulations/emerge/main.go:65-171 main: what one key pressed in a fresh run leads to: the same
    configuration goes on ([inl]), or the run ends and the program restarts with another one or ends ([inr]). *)
Definition pressKey (term : bool) (esc : Z) (c : MainConfig) (k : Z) : MainConfig + option MainConfig :=
  let s := fold_left (handleEvent (runnerConfig term c)) (ProcessKey esc [] k) runner0 in
  if ru_cancelled s then inr (applySwitch c (runResult s)) else inl c.
(** simulations/emerge/config.go:55-70 ParseScale. *)
Definition ParseScale (s : string) : Z * bool :=
  if String.eqb s "tiny" then (Tiny, true) else if String.eqb s "small" then (Small, true)
  else if String.eqb s "medium" then (Medium, true) else if String.eqb s "large" then (Large, true)
  else if String.eqb s "huge" then (Huge, true) else (Tiny, false).
