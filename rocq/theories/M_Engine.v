(** Model of emerge/completion/engine.go (pattern completion engine). *)
From Coq Require Import ZArith List Bool String.
From Verif Require Import Num GoBase M_Core.
Import ListNotations.
Open Scope num_scope.

Section Engine.
Context {T : Type} {N : Num T}.

(** emerge/completion/engine.go:13-17 Engine.  The template map is the list of its entries in the order in which
    [range] visits them; a template pointer may be nil. *)
Record Engine := mkEngine { en_templates : list (string * option (TargetPattern T)); en_threshold : T }.
(** emerge/completion/engine.go:20-25 NewEngine. *)
Definition NewEngine : Engine := mkEngine [] (nlit 7 10).
(** emerge/completion/engine.go:180-184 AddTemplate: an existing name is overwritten. *)
Definition AddTemplate (e : Engine) (name : string) (p : option (TargetPattern T)) : Engine :=
  mkEngine (filter (fun q => negb (String.eqb (fst q) name)) (en_templates e) ++ [(name, p)]) (en_threshold e).
(** emerge/completion/engine.go:187-217 LoadDefaultTemplates. *)
Definition LoadDefaultTemplates (e : Engine) : Engine :=
  let w := GenerateSineWave 100 in
  let e1 := AddTemplate e "perfect_sync" (Some (mkTP n0 250000000 n1 n1 w n1)) in
  let e2 := AddTemplate e1 "partial_sync" (Some (mkTP n0 250000000 (nlit 8 10) (nlit 65 100) w (nlit 7 10))) in
  AddTemplate e2 "recovery" (Some (mkTP n0 200000000 (nlit 6 10) (nlit 5 10) w (nlit 5 10))).

(** emerge/completion/engine.go:69-73 CompletedPattern; [Filled] has four possible keys.  [Template] is never set by
    the code. *)
Record Completed := mkCompleted {
  cp_base : TargetPattern T; cp_phase : option T; cp_freq : option Z; cp_boost : option T; cp_wave : option (list T) }.
Definition emptyCompleted (c : TargetPattern T) : Completed := mkCompleted c None None None None.
(** emerge/completion/engine.go:76-81 GetPhaseAdjustment. *)
Definition GetPhaseAdjustment (c : Completed) : T :=
  match cp_phase c with Some p => PhaseDifference p (tp_phase (cp_base c)) | None => n0 end.
(** emerge/completion/engine.go:84-89 GetFrequencyAdjustment. *)
Definition GetFrequencyAdjustment (c : Completed) : Z :=
  match cp_freq c with Some f => (f - tp_freq (cp_base c))%Z | None => 0%Z end.

(** emerge/completion/engine.go:92-108 findBestTemplate: loop state is best template and best distance. *)
Definition bestStep (cur : option (TargetPattern T)) (thr : T) (acc : option (TargetPattern T) * T)
    (q : string * option (TargetPattern T)) : option (TargetPattern T) * T :=
  let distance := PatternDistance cur (snd q) in
  if (distance <? snd acc) && (distance <? thr) then (snd q, distance) else acc.
Definition findBestTemplate (e : Engine) (cur : option (TargetPattern T)) : option (TargetPattern T) :=
  fst (fold_left (bestStep cur (en_threshold e)) (en_templates e) (None, nmaxfloat)).

(** emerge/completion/engine.go:111-137 interpolatePattern, body of the loop. *)
Definition interpolateGap (c : Completed) (g : PatternGap T) : Completed :=
  let weight := nmin (gap_severity g) (nlit 5 10) in
  match gap_type g with
  | GapPhase =>
    let diff := PhaseDifference (gap_target g) (gap_current g) in
    mkCompleted (cp_base c) (Some (WrapPhase (gap_current g + diff * weight))) (cp_freq c) (cp_boost c) (cp_wave c)
  | GapFrequency =>
    let diff := gap_target g - gap_current g in
    mkCompleted (cp_base c) (cp_phase c) (Some (ntrunc (gap_current g + diff * weight))) (cp_boost c) (cp_wave c)
  | GapCoherence =>
    let diff := gap_target g - gap_current g in
    mkCompleted (cp_base c) (cp_phase c) (cp_freq c) (Some (diff * weight)) (cp_wave c)
  | _ => c
  end.
Definition interpolatePattern (cur : TargetPattern T) (gaps : list (PatternGap T)) : Completed :=
  fold_left interpolateGap gaps (emptyCompleted cur).

(** emerge/completion/engine.go:140-143 blendPhase. *)
Definition blendPhase (current template weight : T) : T :=
  WrapPhase (current + PhaseDifference template current * weight).
(** emerge/completion/engine.go:146-149 blendFrequency. *)
Definition blendFrequency (current template : Z) (weight : T) : Z :=
  (current + ntrunc (nmul (nofZ (template - current)) weight))%Z.
(** emerge/completion/engine.go:152-177 morphWaveform; [None] is an index out of range. *)
Definition morphAt (current template : list T) (weight : T) (maxLen i : Z) : option T :=
  match nthZ current (Z.quot (i * Z.of_nat (List.length current)) maxLen),
        nthZ template (Z.quot (i * Z.of_nat (List.length template)) maxLen) with
  | Some c, Some t => Some (c * (n1 - weight) + t * weight)
  | _, _ => None
  end.
Fixpoint morphLoop (current template : list T) (weight : T) (maxLen i : Z) (fuel : nat) : option (list T) :=
  match fuel with
  | O => Some []
  | S k =>
    match morphAt current template weight maxLen i with
    | None => None
    | Some v => option_map (cons v) (morphLoop current template weight maxLen (i + 1) k)
    end
  end.
Definition morphWaveform (current template : list T) (weight : T) : option (list T) :=
  match current, template with
  | [], _ => Some template
  | _, [] => Some current
  | _, _ =>
    let maxLen := Z.max (Z.of_nat (List.length current)) (Z.of_nat (List.length template)) in
    morphLoop current template weight maxLen 0 (Z.to_nat maxLen)
  end.

(** emerge/completion/engine.go:28-66 CompletePattern, template branch; body of the loop. *)
Definition templateGap (cur t : TargetPattern T) (c : option Completed) (g : PatternGap T) : option Completed :=
  match c with
  | None => None
  | Some c =>
    match gap_type g with
    | GapPhase => Some (mkCompleted (cp_base c) (Some (blendPhase (tp_phase cur) (tp_phase t) (gap_severity g))) (cp_freq c) (cp_boost c) (cp_wave c))
    | GapFrequency => Some (mkCompleted (cp_base c) (cp_phase c) (Some (blendFrequency (tp_freq cur) (tp_freq t) (gap_severity g))) (cp_boost c) (cp_wave c))
    | GapCoherence => Some (mkCompleted (cp_base c) (cp_phase c) (cp_freq c) (Some (tp_coh t * gap_severity g)) (cp_wave c))
    | GapWaveform =>
      match tp_wave t with
      | [] => Some c
      | _ => option_map (fun w => mkCompleted (cp_base c) (cp_phase c) (cp_freq c) (cp_boost c) (Some w))
               (morphWaveform (tp_wave cur) (tp_wave t) (gap_severity g))
      end
    | GapOther => Some c
    end
  end.
(** emerge/completion/engine.go:28-66 CompletePattern for a non-nil current pattern; [None] is a panic. *)
Definition CompletePattern (e : Engine) (cur : TargetPattern T) (gaps : list (PatternGap T)) : option Completed :=
  match findBestTemplate e (Some cur) with
  | None => Some (interpolatePattern cur gaps)
  | Some t => fold_left (templateGap cur t) gaps (Some (emptyCompleted cur))
  end.
End Engine.
Arguments Engine : clear implicits.
Arguments Completed : clear implicits.
