(** Model of emerge/monitoring/patterns.go (internal/emerge/pattern.go has the same code).
    Durations are Z: sums and differences are taken to fit in an int64. *)
From Coq Require Import ZArith List Bool String.
From Verif Require Import Num GoBase M_Core.
Import ListNotations.
Open Scope num_scope.

Section Patterns.
Context {T : Type} {N : Num T}.

(** emerge/monitoring/patterns.go:12-18 TargetPattern. *)
Record MPattern := mkMP { mp_phases : list T; mp_freqs : list Z; mp_amp : T; mp_period : Z; mp_conf : T }.
(** emerge/monitoring/patterns.go:36-41 PatternGap (Predicted is never used). *)
Record MGap := mkMG { mg_start : Z; mg_end : Z; mg_dur : Z }.

(** emerge/monitoring/patterns.go:192-218 calculateAmplitude. *)
Definition calculateAmplitude (phases : list T) : T :=
  if (List.length phases <? 2)%nat then n0
  else
    let ps := map WrapPhase phases in
    let n := nofZ (Z.of_nat (List.length ps)) in
    let mean := nsum ps / n in
    nsqrt (fold_left (fun v p => v + (p - mean) * (p - mean)) ps n0 / n).
(** emerge/monitoring/patterns.go:220-232 calculatePeriod. *)
Definition calculatePeriod (freqs : list Z) : Z :=
  match freqs with [] => 0%Z | _ => Z.quot (fold_left Z.add freqs 0%Z) (Z.of_nat (List.length freqs)) end.
(** emerge/monitoring/patterns.go:21-32 NewTargetPattern. *)
Definition NewMPattern (phases : list T) (freqs : list Z) : MPattern :=
  mkMP phases freqs (calculateAmplitude phases) (calculatePeriod freqs) n1.

(** emerge/monitoring/patterns.go:48-61: the loop; [i] is the index of the head of [rest]; None = the panic of
    p.Frequencies[i-1]. *)
Fixpoint detectLoop (freqs : list Z) (i : Z) (prev : T) (rest : list T) : option (list MGap) :=
  match rest with
  | [] => Some []
  | x :: r =>
    if nabs (PhaseDifference x prev) >? nhalfpi 1 then
      match nthZ freqs (i - 1) with
      | None => None
      | Some d => match detectLoop freqs (i + 1) x r with None => None | Some l => Some (mkMG (i - 1) i d :: l) end
      end
    else detectLoop freqs (i + 1) x r
  end.
(** emerge/monitoring/patterns.go:44-63 Detect. *)
Definition Detect (p : MPattern) : option (list MGap) :=
  match mp_phases p with [] => Some [] | x :: r => detectLoop (mp_freqs p) 1 x r end.
(** emerge/monitoring/patterns.go:66-89 Complete; outer None = panic, inner None = nil. *)
Definition Complete (p : MPattern) (g : MGap) : option (option (list T)) :=
  if ((mg_start g <? 0) || (Z.of_nat (List.length (mp_phases p)) <=? mg_end g) || (mg_end g <=? mg_start g))%Z%bool then Some None
  else
    match nthZ (mp_phases p) (mg_start g), nthZ (mp_phases p) (mg_end g) with
    | Some startPhase, Some endPhase =>
      let steps := (mg_end g - mg_start g - 1)%Z in
      if (steps <=? 0)%Z then Some (Some [])
      else
        let diff := PhaseDifference endPhase startPhase in
        Some (Some (map (fun i => WrapPhase (startPhase + diff * (nofZ (Z.of_nat i + 1) / nofZ (steps + 1)))) (seq 0 (Z.to_nat steps))))
    | _, _ => None
    end.

(** emerge/monitoring/patterns.go:234-252 phaseCorrelation. *)
Definition phaseCorrelation (l1 l2 : list T) : T :=
  if negb (List.length l1 =? List.length l2)%nat then n0
  else match l1 with
       | [] => n0
       | _ => nsum (map (fun ab => n1 - nabs (PhaseDifference (fst ab) (snd ab)) / npi) (combine l1 l2)) / nofZ (Z.of_nat (List.length l1))
       end.
(** emerge/monitoring/patterns.go:108-122: the scale factor. *)
Definition maxAbs (l : list T) : T := fold_left (fun m x => nmax m (nabs x)) l n0.
Definition scaleFactor (l1 l2 : list T) : T :=
  if (List.length l1 =? List.length l2)%nat then
    let maxP := maxAbs l1 in let maxO := maxAbs l2 in
    if (maxP >? n0) && (maxO >? n0) then
      let ratio := nmax (maxP / maxO) (maxO / maxP) in
      if ratio >? nofZ 100 then n1 / nmin (ratio / nofZ 100) (nofZ 10) else n1
    else n1
  else n1.
(** emerge/monitoring/patterns.go:93-128 Similarity of [p] with a pattern that is not nil. *)
Definition Similarity (p o : MPattern) : T :=
  match mp_phases p, mp_phases o with
  | [], _ | _, [] => n0
  | _, _ =>
    let ampDiff := nabs (mp_amp p - mp_amp o) in
    let ampSim := n1 - nmin (ampDiff / nmax (mp_amp p) (mp_amp o)) n1 in
    let periodDiff := nabs (nofZ (mp_period p - mp_period o)) in
    let maxPeriod := Z.max (mp_period p) (mp_period o) in
    let periodSim := n1 - nmin (periodDiff / nofZ maxPeriod) n1 in
    let phaseSim := phaseCorrelation (mp_phases p) (mp_phases o) * scaleFactor (mp_phases p) (mp_phases o) in
    ampSim * nlit 3 10 + periodSim * nlit 3 10 + phaseSim * nlit 4 10
  end.

(** emerge/monitoring/patterns.go:132-137 PatternTemplate. *)
Record MTemplate := mkMT { mt_name : string; mt_base : MPattern; mt_vars : list MPattern; mt_tol : T }.
(** emerge/monitoring/patterns.go:140-155 Matches. *)
Definition Matches (t : MTemplate) (p : MPattern) : bool :=
  (Similarity (mt_base t) p >=? n1 - mt_tol t) || existsb (fun v => Similarity v p >=? n1 - mt_tol t) (mt_vars t).
(** emerge/monitoring/patterns.go:175-188 Identify; the list is the iteration order of the template map. *)
Definition Identify (templates : list (string * MTemplate)) (p : MPattern) : string * T :=
  fold_left (fun best nt =>
    let s := Similarity (mt_base (snd nt)) p in
    if s >? snd best then (fst nt, s) else best) templates (EmptyString, n0).
End Patterns.
Arguments MPattern : clear implicits.
Arguments MTemplate : clear implicits.
