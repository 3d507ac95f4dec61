(** Model of emerge/strategy, emerge/decision and emerge/goal/manager.go. *)
From Coq Require Import ZArith List Bool String.
From Verif Require Import Num GoBase M_Core.
Import ListNotations.
Open Scope num_scope.

Section Strategy.
Context {T : Type} {N : Num T}.

(** emerge/core/context.go:5-11 Context. *)
Record Context := mkCtx {
  cx_neighbors : Z; cx_density : T; cx_stability : T; cx_progress : T; cx_lc : T }.
(** The zero value core.Context{}. *)
Definition ctx0 : Context := mkCtx 0 n0 n0 n0 n0.
(** emerge/core/context.go:15-20 Action. *)
Record Action := mkAction { ac_type : string; ac_value : T; ac_cost : T; ac_benefit : T }.
(** The literal core.Action{Type: "maintain"}. *)
Definition maintain : Action := mkAction "maintain" n0 n0 n0.

(** math.Max(0, math.Min(1, x)), used by the three constructors below. *)
Definition clampRate (x : T) : T := nmax n0 (nmin n1 x).

(** emerge/strategy/phase_nudge.go:16-20 NewPhaseNudge (the rate field). *)
Definition NewPhaseNudge (rate : T) : T := clampRate rate.
(** emerge/strategy/phase_nudge.go:23-40 PhaseNudge.Propose. *)
Definition PhaseNudgePropose (rate : T) (cur tgt : State T) (cx : Context) : Action * T :=
  let diff := PhaseDifference (st_phase tgt) (st_phase cur) in
  let adj := diff * rate in
  (mkAction "phase_nudge" adj (nabs adj * nofZ 2) ((n1 - nabs diff / npi) * nlit 15 10),
   nmax (nlit 5 10) (n1 - cx_lc cx)).

(** emerge/strategy/frequency_lock.go:16-20 NewFrequencyLock. *)
Definition NewFrequencyLock (rate : T) : T := clampRate rate.
(** emerge/strategy/frequency_lock.go:23-42 FrequencyLock.Propose. *)
Definition FrequencyLockPropose (rate : T) (cur tgt : State T) (cx : Context) : Action * T :=
  let diff := PhaseDifference (st_phase tgt) (st_phase cur) in
  let adj := diff * rate in
  (mkAction "frequency_lock" adj (nabs adj * nofZ 3) (cx_lc cx * nofZ 2), cx_lc cx * rate).

(** emerge/strategy/energy_aware.go:22-49 EnergyAware.Propose (the threshold is unused). *)
Definition EnergyAwarePropose (cur tgt : State T) (cx : Context) : Action * T :=
  let diff := PhaseDifference (st_phase tgt) (st_phase cur) in
  if nabs diff <? nlit 1 10
  then (mkAction "maintain" n0 (nlit 1 10) (cx_stability cx), nlit 5 10)
  else let adj := diff * nlit 1 10 in
       (mkAction "energy_save" adj (nmax (nlit 5 10) (nabs adj)) (cx_progress cx * nlit 5 10),
        nlit 3 10).

(** emerge/strategy/pulse.go:12-16 Pulse (times in ns). *)
Record Pulse := mkPulse { pu_period : Z; pu_amp : T; pu_last : Z }.
(** emerge/strategy/pulse.go:19-25 NewPulse at time [now]. *)
Definition NewPulse (period : Z) (amp : T) (now : Z) : Pulse := mkPulse period (clampRate amp) now.
(** emerge/strategy/pulse.go:28-56 Pulse.Propose at time [now]. *)
Definition PulsePropose (p : Pulse) (now : Z) (cur tgt : State T) (cx : Context)
  : Pulse * (Action * T) :=
  if (now - pu_last p <? pu_period p)%Z
  then (p, (mkAction "maintain" n0 (nlit 1 10) (cx_stability cx * nlit 5 10), nlit 3 10))
  else
    let p' := mkPulse (pu_period p) (pu_amp p) now in
    let diff := PhaseDifference (st_phase tgt) (st_phase cur) in
    let adj := diff * pu_amp p in
    (p', (mkAction "pulse" adj (nabs adj * nofZ 4) (nofZ 2), pu_amp p)).

(** emerge/strategy/adaptive.go:16-28, the default selector; minInt is Z.min
    (adaptive.go:55-60). *)
Definition defaultSelector (len : Z) (cx : Context) : Z :=
  if cx_stability cx >? nlit 7 10 then 0%Z
  else if cx_lc cx >? nlit 5 10 then Z.min 1 (len - 1)
  else Z.min 2 (len - 1).
(** emerge/strategy/adaptive.go:37-49 AdaptiveStrategy.Propose over any kind [S] of inner
    strategy; the result is the index delegated to.  [None] = panic: nil selector, or a slice
    index out of range. *)
Inductive Delegate := DMaintain (conf : T) | DStrategy (idx : nat).
Definition AdaptivePropose {S} (strategies : list S) (selector : option (Context -> Z))
  (cx : Context) : option (Delegate * option S) :=
  match strategies with
  | [] => Some (DMaintain (nlit 5 10), None)
  | _ =>
    match selector with
    | None => None
    | Some sel =>
      let idx := sel cx in
      let idx := if (idx <? 0)%Z || (Z.of_nat (List.length strategies) <=? idx)%Z
                 then 0%Z else idx in
      match nthZ strategies idx with
      | Some s => Some (DStrategy (Z.to_nat idx), Some s)
      | None => None
      end
    end
  end.

(** emerge/decision/simple.go:14-37 SimpleDecisionMaker.Decide. *)
Definition score (a : Action) : T := ac_benefit a / nmax (ac_cost a) (nlit 1 10).
Definition decideStep (best : Action * T) (a : Action) : Action * T :=
  if score a >? snd best then (a, score a) else best.
Definition Decide (s : State T) (options : list Action) : Action * T :=
  match options with
  | [] => (maintain, st_coh s)
  | a0 :: _ =>
    let best := fold_left decideStep options (a0, - nmaxfloat) in
    (fst best, nmin (nmax (snd best / nofZ 2) n0) n1)
  end.

(** emerge/goal/manager.go:20-42 WeightedManager.Blend. *)
Definition Blend (local global : State T) (weight : T) : State T :=
  let w := if weight <? n0 then n0 else if weight >? n1 then n1 else weight in
  let li := n1 - w in
  let phaseDiff := PhaseDifference (st_phase global) (st_phase local) in
  mkState (WrapPhase (st_phase local + phaseDiff * w)) (st_freq local)
          (st_coh local * li + st_coh global * w).
End Strategy.
Arguments Context : clear implicits.
Arguments Action : clear implicits.
Arguments Pulse : clear implicits.
Arguments Delegate : clear implicits.
