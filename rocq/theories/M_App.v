(** Model of the life of the simulation program: main and handleSignals (simulations/emerge/main.go), Run, runUpdates and
    handleEvents (simulations/emerge/ui/runner.go), the Run methods of the displays.

    Every run of the loop in main has a context of its own; the goroutine handleSignals got the cancel function of the
    first one as its argument.  The goroutines of a finished run are left out: they use the controller, the channel and
    the simulation of that run only.  The calls the event handler makes on the simulation may take any time. *)
From Coq Require Import ZArith List Bool String.
From Verif Require Import Num M_GoalConfig M_Scale M_ReqPattern M_Controller.
Import ListNotations.

(** simulations/emerge/main.go:251-256 handleSignals: not yet at signal.Notify, waiting for a signal, returned. *)
Inductive Sig := SStart | SWait | SDone.
(** simulations/emerge/ui/runner.go:187-247 handleEvents: at the outer select, at the inner select, in a call on the
    simulation, returned. *)
Inductive Hand := HTop | HInner | HBusy | HGone.
Record App := mkApp {
  ap_cfg : MainConfig;      (* main.go:51 config *)
  ap_run : nat;             (* number of restarts *)
  ap_ctx : bool;            (* main.go:57, 166: the context of this run is cancelled *)
  ap_late : bool;           (* runner.go:59-63: the timeout of this run has passed *)
  ap_keys : list Event;     (* controller.go: the event channel *)
  ap_ru : RunnerState;      (* the runner: paused, switch request, appCancel called *)
  ap_hand : Hand;
  ap_sig : Sig; ap_sigq : bool;   (* the signal goroutine, a signal waiting in its channel *)
  ap_over : bool }.         (* the process has ended *)

(** simulations/emerge/ui/runner.go:55-63 Run: appCtx is done. *)
Definition runDone (s : App) : bool := ap_ctx s || ru_cancelled (ap_ru s) || ap_late s.
(** simulations/emerge/main.go:56-66 main: the first run. *)
Definition app0 (c : MainConfig) : App := mkApp c 0 false false [] runner0 HTop SStart false false.

Inductive AEv :=
| ASignal               (* the operating system delivers an interrupt or terminate signal *)
| ASigStep              (* the next step of handleSignals *)
| AKey (k : Z)          (* a key is pressed *)
| AExpire               (* the timeout passes *)
| AHand (b : bool)      (* the next step of handleEvents; b = false: the 10 ms pass before an event is taken *)
| ACallEnds             (* the call on the simulation returns *)
| AReturn.              (* Run of the display returns, main decides *)

Definition set_sig (s : App) (g : Sig) (q : bool) : App :=
  mkApp (ap_cfg s) (ap_run s) (ap_ctx s) (ap_late s) (ap_keys s) (ap_ru s) (ap_hand s) g q (ap_over s).
Definition set_over (s : App) : App :=
  mkApp (ap_cfg s) (ap_run s) (ap_ctx s) (ap_late s) (ap_keys s) (ap_ru s) (ap_hand s) (ap_sig s) (ap_sigq s) true.
Definition set_ctx (s : App) : App :=
  mkApp (ap_cfg s) (ap_run s) true (ap_late s) (ap_keys s) (ap_ru s) (ap_hand s) (ap_sig s) (ap_sigq s) (ap_over s).
Definition set_late (s : App) : App :=
  mkApp (ap_cfg s) (ap_run s) (ap_ctx s) true (ap_keys s) (ap_ru s) (ap_hand s) (ap_sig s) (ap_sigq s) (ap_over s).
Definition set_hand (s : App) (keys : list Event) (ru : RunnerState) (h : Hand) : App :=
  mkApp (ap_cfg s) (ap_run s) (ap_ctx s) (ap_late s) keys ru h (ap_sig s) (ap_sigq s) (ap_over s).

(** The event makes the handler call the simulation (runner.go:200-222). *)
Definition calls (before after : RunnerState) : bool :=
  negb (Nat.eqb (List.length (ru_calls before)) (List.length (ru_calls after))).

(** One step.  [term]: the standard output is a terminal (main.go:211; the text display reads no keys,
    text_display.go:90-94); [timeout]: the -timeout flag (runner.go:59: only a positive one counts); [esc] as in
    M_Controller.  A signal before signal.Notify ends the process, later ones go to a channel of capacity one
    (main.go:252-255).  simulations/emerge/main.go:65-171, simulations/emerge/ui/runner.go:53-119 and 187-247. *)
Definition aStep (term : bool) (esc timeout : Z) (s : App) (e : AEv) : App :=
  if ap_over s then s else
  match e with
  | ASignal => match ap_sig s with SStart => set_over s | g => set_sig s g true end
  | ASigStep =>
    match ap_sig s with
    | SStart => set_sig s SWait (ap_sigq s)
    | SWait => if ap_sigq s then
                 let s' := set_sig s SDone false in if Nat.eqb (ap_run s) 0 then set_ctx s' else s'
               else s
    | SDone => s
    end
  | AKey k => if term then set_hand s (ProcessKey esc (ap_keys s) k) (ap_ru s) (ap_hand s) else s
  | AExpire => if (0 <? timeout)%Z then set_late s else s
  | AHand b =>
    match ap_hand s with
    | HTop => set_hand s (ap_keys s) (ap_ru s) (if runDone s then HGone else HInner)
    | HInner =>
      if b then match ap_keys s with
                | [] => s
                | ev :: r => let ru := handleEvent (runnerConfig term (ap_cfg s)) (ap_ru s) ev in
                             set_hand s r ru (if calls (ap_ru s) ru then HBusy else HTop)
                end
      else set_hand s (ap_keys s) (ap_ru s) HTop
    | _ => s
    end
  | ACallEnds => match ap_hand s with HBusy => set_hand s (ap_keys s) (ap_ru s) HTop | _ => s end
  | AReturn =>
    if runDone s then
      match applySwitch (ap_cfg s) (runResult (ap_ru s)) with
      | Some c => mkApp c (S (ap_run s)) false false [] runner0 HTop (ap_sig s) (ap_sigq s) false
      | None => set_over s
      end
    else s
  end.
Definition aRun (term : bool) (esc timeout : Z) (s : App) (es : list AEv) : App := fold_left (aStep term esc timeout) es s.

(** What starting the program leads to. *)
Inductive Started := Listed | UnknownScale | Crashed | Running (c : MainConfig) (interval timeout : Z).
(** simulations/emerge/main.go:26-54 main and simulations/emerge/ui/runner.go:122-124 runUpdates: time.NewTicker panics for
    an interval that is not positive, and a panic in a goroutine ends the process.  The flags have the defaults tiny,
    false, 100 ms and 5 min. *)
Definition startProgram (scaleName : string) (list_ : bool) (interval timeout : Z) : Started :=
  if list_ then Listed
  else match ParseScale scaleName with
       | (_, false) => UnknownScale
       | (sc, true) =>
         let c := mkMC (mc_goal DefaultMainConfig) sc (mc_pattern DefaultMainConfig) in
         if (interval <=? 0)%Z then Crashed else Running c interval timeout
       end.
