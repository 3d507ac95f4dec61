(** Model of emerge/core: phase arithmetic, coherence, patterns, states.
    Polymorphic in the number semantics (see Num.v). *)
From Coq Require Import ZArith List Bool String.
From Verif Require Import Num.
Import ListNotations.
Open Scope num_scope.

Section Core.
Context {T : Type} {N : Num T}.

(** emerge/core/phase.go:6-9 WrapPhase. *)
Definition WrapPhase (phase : T) : T := nmod (nmod phase n2pi + n2pi) n2pi.

(** emerge/core/phase.go:20, [eps = 1e-10]. *)
Definition pd_eps : T := nlit 1 10000000000.

(** emerge/core/phase.go:13-33 PhaseDifference. *)
Definition PhaseDifference (phase1 phase2 : T) : T :=
  let diff := phase1 - phase2 in
  let result := natan2 (nsin diff) (ncos diff) in
  if (nabs phase1 <? pd_eps) && (nabs (phase2 - nhalfpi 3) <? pd_eps) then nhalfpi (-1)
  else if (nabs (phase1 - nhalfpi 3) <? pd_eps) && (nabs phase2 <? pd_eps) then nhalfpi 1
  else result.

(** emerge/core/phase.go:36-51 MeasureCoherence. *)
Definition MeasureCoherence (phases : list T) : T :=
  match phases with
  | [] => n0
  | _ =>
    let sumCos := fold_left (fun s p => s + ncos p) phases n0 in
    let sumSin := fold_left (fun s p => s + nsin p) phases n0 in
    nsqrt (sumCos * sumCos + sumSin * sumSin) / nofZ (Z.of_nat (List.length phases))
  end.

(** emerge/core/phase.go:54-80 MeasureCoherenceWeighted.  [combine] stops at the shorter
    list, which is the loop [for i := range minLen]. *)
Definition MeasureCoherenceWeighted (phases weights : list T) : T :=
  match phases, weights with
  | [], _ => n0
  | _, [] => n0
  | _, _ =>
    let pw := combine phases weights in
    let sumCos := fold_left (fun s q => s + snd q * ncos (fst q)) pw n0 in
    let sumSin := fold_left (fun s q => s + snd q * nsin (fst q)) pw n0 in
    let sumW := fold_left (fun s q => s + snd q) pw n0 in
    if sumW =? n0 then n0
    else nsqrt (sumCos * sumCos + sumSin * sumSin) / sumW
  end.

(** emerge/core/pattern.go:9-16 TargetPattern. *)
Record TargetPattern := mkTP {
  tp_phase : T; tp_freq : Z; tp_amp : T; tp_coh : T; tp_wave : list T; tp_stab : T }.

(** emerge/core/pattern.go:19-24 PatternGap; the [Type] string becomes a constructor ("waveform" is known to the
    completion engine only, [GapOther] is any other string). *)
Inductive GapType := GapPhase | GapFrequency | GapCoherence | GapWaveform | GapOther.
Record PatternGap := mkGap {
  gap_type : GapType; gap_current : T; gap_target : T; gap_severity : T }.

(** emerge/core/pattern.go:27-48 PatternDistance; nil is [None]. *)
Definition PatternDistance (current target : option TargetPattern) : T :=
  match current, target with
  | Some c, Some t =>
    let phaseDiff := nabs (PhaseDifference (tp_phase t) (tp_phase c)) in
    let phaseDistance := phaseDiff / npi in
    let freqDistance :=
      if (0 <? tp_freq t)%Z then
        nmin (nabs (nofZ (tp_freq c - tp_freq t)%Z) / nofZ (tp_freq t)) n1
      else n0 in
    let coherenceDistance := nabs (tp_coh t - tp_coh c) in
    nlit 4 10 * phaseDistance + nlit 3 10 * freqDistance + nlit 3 10 * coherenceDistance
  | _, _ => nmaxfloat
  end.

(** emerge/core/pattern.go:51-89 IdentifyGaps (both pointers non-nil: the Go code
    dereferences them without a check). *)
Definition IdentifyGaps (c t : TargetPattern) : list PatternGap :=
  let phaseDiff := nabs (PhaseDifference (tp_phase t) (tp_phase c)) in
  let g1 := if phaseDiff >? nlit 1 10
            then [mkGap GapPhase (tp_phase c) (tp_phase t) (phaseDiff / npi)] else [] in
  let g2 := if (0 <? tp_freq t)%Z && (0 <? tp_freq c)%Z then
              let freqRatio := nofZ (tp_freq c) / nofZ (tp_freq t) in
              if nabs (freqRatio - n1) >? nlit 5 100
              then [mkGap GapFrequency (nofZ (tp_freq c)) (nofZ (tp_freq t))
                          (nabs (freqRatio - n1))] else []
            else [] in
  let g3 := if tp_coh c <? tp_coh t - nlit 5 100
            then [mkGap GapCoherence (tp_coh c) (tp_coh t) (tp_coh t - tp_coh c)] else [] in
  g1 ++ g2 ++ g3.

(** emerge/core/pattern.go:92-99 GenerateSineWave. *)
Definition GenerateSineWave (points : nat) : list T :=
  map (fun i => nsin (nofZ (Z.of_nat i) * nofZ 2 * npi / nofZ (Z.of_nat points)))
      (seq 0 points).

(** emerge/core/state.go:13-17 State; frequency in nanoseconds. *)
Record State := mkState { st_phase : T; st_freq : Z; st_coh : T }.

(** emerge/core/state.go:20-59 Validate: the list of offending fields (empty = nil error). *)
Inductive StateField := FldFrequency | FldCoherence | FldPhase.
Definition validateErrors (s : State) : list StateField :=
  (if (st_freq s <=? 0)%Z then [FldFrequency] else []) ++
  (if nisnan (st_coh s) then [FldCoherence]
   else if (st_coh s <? n0) || (st_coh s >? n1) then [FldCoherence] else []) ++
  (if nisnan (st_phase s) then [FldPhase] else []) ++
  (if nisinf (st_phase s) then [FldPhase] else []).
Definition Validate (s : State) : bool :=
  match validateErrors s with [] => true | _ => false end.

(** emerge/core/state.go:84-86, [for s.Phase < 0 { s.Phase += 2π }].  The loop bound is
    explicit fuel; [None] means the loop is still running when the fuel is used up. *)
Fixpoint normUp (fuel : nat) (x : T) : option T :=
  if x <? n0 then
    match fuel with O => None | S k => normUp k (x + n2pi) end
  else Some x.
(** emerge/core/state.go:87-89, [for s.Phase >= 2π { s.Phase -= 2π }]. *)
Fixpoint normDown (fuel : nat) (x : T) : option T :=
  if x >=? n2pi then
    match fuel with O => None | S k => normDown k (x - n2pi) end
  else Some x.

(** emerge/core/state.go:102-104, the default frequency 100ms. *)
Definition defaultFreq : Z := 100000000%Z.

(** emerge/core/state.go:81-105 normalize; [None] = loops not finished within the fuel. *)
Definition normalize (fuel : nat) (s : State) : option State :=
  let ph :=
    if negb (nisnan (st_phase s)) && negb (nisinf (st_phase s)) then
      match normUp fuel (st_phase s) with
      | Some x => normDown fuel x
      | None => None
      end
    else Some (st_phase s) in
  match ph with
  | None => None
  | Some ph' =>
    let coh := if nisnan (st_coh s) then st_coh s
               else if st_coh s <? n0 then n0
               else if st_coh s >? n1 then n1 else st_coh s in
    let fr := if (st_freq s <=? 0)%Z then defaultFreq else st_freq s in
    Some (mkState ph' fr coh)
  end.

(** emerge/core/state.go:62-78 NormalizeAndValidate: the mutated state and whether the
    error is nil; [None] = not terminated within the fuel. *)
Definition NormalizeAndValidate (fuel : nat) (s : State) : option (State * bool) :=
  match normalize fuel s with
  | None => None
  | Some s' => if Validate s then Some (s', true) else Some (s', Validate s')
  end.

End Core.
Arguments TargetPattern : clear implicits.
Arguments PatternGap : clear implicits.
Arguments State : clear implicits.
