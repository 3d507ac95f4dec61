(** Model of internal/config/swarm.go and internal/config/validation.go.  Error values keep
    only the field name; the order of the errors (Go map iteration) is irrelevant because only
    emptiness is observed. *)
From Coq Require Import ZArith List Bool String.
From Verif Require Import Num M_AgentConfig.
Import ListNotations.
Open Scope num_scope.

Section SwarmConfig.
Context {T : Type} {N : Num T}.

(** internal/config/swarm.go:11-46 Swarm. *)
Record SCfg := mkSCfg {
  sc_prob : T; sc_maxn : Z; sc_minn : Z;
  sc_coup : T; sc_stub : T; sc_energy : T;
  sc_assumed : Z; sc_bstr : T; sc_bwid : T; sc_conf : T; sc_infl : T;
  sc_maxsize : Z; sc_maxconc : Z; sc_batch : bool; sc_bsize : Z; sc_workers : Z;
  sc_upd : Z; sc_mon : Z; sc_optthr : Z; sc_opt : bool; sc_auto : bool }.

Definition ms : Z := 1000000.

(** internal/config/swarm.go:49-73 DefaultConfig. *)
Definition DefaultConfig : SCfg :=
  mkSCfg (nlit 3 10) 5 2 (nlit 5 10) (nlit 2 10) (nofZ 100) 20 (nlit 8 10) npi (nlit 6 10) (nlit 2 10)
    1000000 1000 true 0 0 (50 * ms) (100 * ms) 50000 true false.
(** internal/config/swarm.go:76-100 SmallSwarmConfig. *)
Definition SmallSwarmConfig : SCfg :=
  mkSCfg (nlit 9 10) 10 2 (nlit 8 10) (nlit 5 100) (nofZ 100) 0 (nlit 9 10) n2pi (nlit 8 10) (nlit 1 10)
    100 0 false 0 0 (25 * ms) (50 * ms) 1000 false false.
(** internal/config/swarm.go:103-127 MediumSwarmConfig. *)
Definition MediumSwarmConfig : SCfg :=
  mkSCfg (nlit 5 10) 8 3 (nlit 6 10) (nlit 1 10) (nofZ 100) 0 (nlit 85 100) (nhalfpi 3) (nlit 7 10) (nlit 2 10)
    1000 100 false 0 0 (40 * ms) (75 * ms) 5000 false false.

(** internal/config/swarm.go:512-517 minInt, internal/config/swarm.go:520-525 minFloat, internal/config/swarm.go:528-533 maxInt. *)
Definition minInt (a b : Z) : Z := if (a <? b)%Z then a else b.
Definition minFloat (a b : T) : T := if a <? b then a else b.
Definition maxInt (a b : Z) : Z := if (b <? a)%Z then a else b.

(** The switch of AutoScaleConfig, internal/config/swarm.go:137-195. *)
Definition autoScaleBase (n : Z) : SCfg :=
  if (n <? 10)%Z then
    mkSCfg n1 (n - 1) (n - 1) (nlit 9 10) (nlit 1 100) (nofZ 100) 0 (nlit 95 100) (nhalfpi 5) (nlit 9 10)
      (nlit 1 10) 50 0 false 0 0 (20 * ms) (25 * ms) 1000 false true
  else if (n <? 20)%Z then
    let c := SmallSwarmConfig in
    mkSCfg (sc_prob c) (minInt 10 (n - 1)) (sc_minn c) (sc_coup c) (sc_stub c) (sc_energy c) (sc_assumed c)
      (sc_bstr c) (sc_bwid c) (sc_conf c) (sc_infl c) (sc_maxsize c) (sc_maxconc c) (sc_batch c) (sc_bsize c)
      (sc_workers c) (sc_upd c) (sc_mon c) (sc_optthr c) (sc_opt c) true
  else if (n <? 100)%Z then
    let c := MediumSwarmConfig in
    mkSCfg (sc_prob c) (minInt 15 (Z.quot n 5)) (sc_minn c) (sc_coup c) (sc_stub c) (sc_energy c) (sc_assumed c)
      (sc_bstr c) (sc_bwid c) (sc_conf c) (sc_infl c) (sc_maxsize c) (sc_maxconc c) (sc_batch c) (sc_bsize c)
      (sc_workers c) (sc_upd c) (sc_mon c) (sc_optthr c) (sc_opt c) true
  else if (n <? 1000)%Z then
    let c := DefaultConfig in
    mkSCfg (sc_prob c) (minInt 20 (Z.quot n 10)) (sc_minn c) (nlit 7 10) (nlit 1 10) (sc_energy c) (sc_assumed c)
      (sc_bstr c) (sc_bwid c) (sc_conf c) (nlit 2 10) (sc_maxsize c) (minInt 500 (Z.quot n 2)) (200 <? n)%Z
      (maxInt 10 (Z.quot n 50)) (minInt 50 (Z.quot n 20)) (sc_upd c) (sc_mon c) (sc_optthr c) (sc_opt c) true
  else
    let c := DefaultConfig in
    mkSCfg (sc_prob c) (minInt 10 (Z.quot n 100)) (sc_minn c) (sc_coup c) (sc_stub c) (sc_energy c) (sc_assumed c)
      (sc_bstr c) (sc_bwid c) (sc_conf c) (sc_infl c) (sc_maxsize c) 1000 true
      (maxInt 50 (Z.quot n 100)) 100 (100 * ms) (250 * ms) 1000 true true.

(** internal/config/swarm.go:130-206 AutoScaleConfig. *)
Definition AutoScaleConfig (n : Z) : SCfg :=
  let c := autoScaleBase n in
  mkSCfg (sc_prob c) (sc_maxn c) (sc_minn c)
    (if (100 <? n)%Z then sc_coup c * (nofZ 100 / nofZ n) else sc_coup c)
    (sc_stub c) (sc_energy c) 0 (sc_bstr c) (sc_bwid c) (sc_conf c) (sc_infl c) (sc_maxsize c) (sc_maxconc c)
    (sc_batch c) (sc_bsize c) (sc_workers c) (sc_upd c) (sc_mon c) (sc_optthr c) (sc_opt c) (sc_auto c).

(** internal/config/swarm.go:209-252 ForBatching. *)
Definition forBatchingBase (n : Z) : SCfg :=
  if (n <=? 30)%Z then
    mkSCfg (nlit 9 10) (minInt (n - 1) 15) (minInt (Z.quot n 2) 8) (nlit 85 100) (nlit 2 100) (nofZ 100) 0
      (nlit 95 100) (nhalfpi 5) (nlit 9 10) (nlit 85 100) 0 0 false 0 0 0 0 0 false false
  else
    let c := AutoScaleConfig n in
    mkSCfg (minFloat (nlit 75 100) (sc_prob c * nlit 15 10)) (sc_maxn c) (sc_minn c)
      (minFloat (nlit 8 10) (sc_coup c * nlit 13 10)) (sc_stub c * nlit 2 10) (sc_energy c) (sc_assumed c)
      (nlit 9 10) (nhalfpi 4) (nlit 85 100) (nlit 8 10) (sc_maxsize c) (sc_maxconc c)
      (sc_batch c) (sc_bsize c) (sc_workers c) (sc_upd c) (sc_mon c) (sc_optthr c) (sc_opt c) (sc_auto c).
Definition set_coup_stub (k s : T) (c : SCfg) : SCfg :=
  mkSCfg (sc_prob c) (sc_maxn c) (sc_minn c) k s (sc_energy c) (sc_assumed c)
    (sc_bstr c) (sc_bwid c) (sc_conf c) (sc_infl c) (sc_maxsize c) (sc_maxconc c)
    (sc_batch c) (sc_bsize c) (sc_workers c) (sc_upd c) (sc_mon c) (sc_optthr c) (sc_opt c) (sc_auto c).
Definition ForBatching (n window : Z) : SCfg :=
  let c := forBatchingBase n in
  if (window <? 100 * ms)%Z then
    set_coup_stub (minFloat (nlit 95 100) (sc_coup c * nlit 12 10)) (sc_stub c * nlit 5 10) c
  else if (500 * ms <? window)%Z then set_coup_stub (sc_coup c * nlit 95 100) (sc_stub c) c
  else c.

(** One entry of a ValidationErrors list: added when the test holds. *)
Definition err (b : bool) (field : string) : list string := if b then [field] else [].

(** internal/config/swarm.go:272-285 validateSwarmSize. *)
Definition validateSwarmSize (c : SCfg) (n : Z) : list string :=
  err (n <=? 0)%Z "swarmSize" ++ err ((0 <? sc_maxsize c) && (sc_maxsize c <? n))%Z%bool "MaxSwarmSize".
(** internal/config/swarm.go:288-305 validateProbabilities. *)
Definition outOfUnit (x : T) : bool := (x <? n0) || (x >? n1).
Definition validateProbabilities (c : SCfg) : list string :=
  err (outOfUnit (sc_prob c)) "ConnectionProbability" ++ err (outOfUnit (sc_coup c)) "CouplingStrength"
  ++ err (outOfUnit (sc_stub c)) "Stubbornness" ++ err (outOfUnit (sc_bstr c)) "BasinStrength"
  ++ err (outOfUnit (sc_conf c)) "BaseConfidence" ++ err (outOfUnit (sc_infl c)) "InfluenceDefault".
(** internal/config/swarm.go:308-345 validateNeighborConstraints. *)
Definition validateNeighborConstraints (c : SCfg) (n : Z) : list string :=
  (if ((0 <? n) && (n - 1 <=? 0))%Z%bool then err (negb (sc_maxn c =? 0)%Z) "MaxNeighbors"
   else err (sc_maxn c <? 1)%Z "MaxNeighbors")
  ++ err ((0 <? n) && (n - 1 <? sc_maxn c))%Z%bool "MaxNeighbors"
  ++ err (sc_minn c <? 0)%Z "MinNeighbors"
  ++ err (sc_maxn c <? sc_minn c)%Z "MinNeighbors".
(** internal/config/swarm.go:348-372 validatePositiveParameters. *)
Definition validatePositiveParameters (c : SCfg) : list string :=
  err (sc_energy c <=? n0) "InitialEnergy" ++ err (sc_bwid c <=? n0) "BasinWidth"
  ++ err (sc_upd c <=? 0)%Z "AgentUpdateInterval" ++ err (sc_mon c <=? 0)%Z "MonitoringInterval".
(** internal/config/swarm.go:375-390 validateConcurrencyParameters. *)
Definition validateConcurrencyParameters (c : SCfg) : list string :=
  err (sc_maxconc c <? 0)%Z "MaxConcurrentAgents" ++ err (sc_bsize c <? 0)%Z "BatchSize"
  ++ err (sc_workers c <? 0)%Z "WorkerPoolSize" ++ err (sc_optthr c <? 0)%Z "ConnectionOptimThreshold".
(** internal/config/swarm.go:255-269 Validate (empty list = nil error). *)
Definition Validate (c : SCfg) (n : Z) : list string :=
  validateSwarmSize c n ++ validateProbabilities c ++ validateNeighborConstraints c n
  ++ validatePositiveParameters c ++ validateConcurrencyParameters c.

(** internal/config/swarm.go:501-509 clampProbability. *)
Definition clampProbability (x : T) : T := if x <? n0 then n0 else if x >? n1 then n1 else x.

(** internal/config/swarm.go:431-456 normalizeNeighborConstraints: the new (max, min). *)
Definition normMax (n mx : Z) : Z :=
  if (0 <? n)%Z then
    if (n - 1 <=? 0)%Z then 0%Z
    else let m := if (n - 1 <? mx)%Z then (n - 1)%Z else mx in if (m <? 1)%Z then 1%Z else m
  else if (mx <? 1)%Z then 1%Z else mx.
Definition normMin (n mx mn : Z) : Z :=
  let mn := if ((0 <? n) && (n - 1 <=? 0))%Z%bool then 0%Z else mn in
  let mn := if (mx <? mn)%Z then mx else mn in
  if (mn <? 0)%Z then 0%Z else mn.

(** internal/config/swarm.go:412-418 normalize, with internal/config/swarm.go:421-428 normalizeProbabilities,
    internal/config/swarm.go:431-456 normalizeNeighborConstraints,
    internal/config/swarm.go:459-472 normalizePositiveDefaults,
    internal/config/swarm.go:475-488 normalizeConcurrencyParameters and
    internal/config/swarm.go:491-498 autoCalculateBatchParameters in that order. *)
Definition normalize (c : SCfg) (n : Z) : SCfg :=
  let mx := normMax n (sc_maxn c) in
  let bsize := if (sc_bsize c <? 0)%Z then 0%Z else sc_bsize c in
  let workers := if (sc_workers c <? 0)%Z then 0%Z else sc_workers c in
  mkSCfg (clampProbability (sc_prob c)) mx (normMin n mx (sc_minn c))
    (clampProbability (sc_coup c)) (clampProbability (sc_stub c))
    (if sc_energy c <=? n0 then nofZ 100 else sc_energy c) (sc_assumed c)
    (clampProbability (sc_bstr c)) (if sc_bwid c <=? n0 then npi else sc_bwid c)
    (clampProbability (sc_conf c)) (clampProbability (sc_infl c))
    (sc_maxsize c) (if (sc_maxconc c <? 0)%Z then 0%Z else sc_maxconc c)
    (sc_batch c)
    (if (sc_batch c && (bsize =? 0)%Z)%bool then maxInt 10 (Z.quot n 50) else bsize)
    (if (sc_batch c && (workers =? 0)%Z)%bool then maxInt 4 (minInt 100 (Z.quot n 20)) else workers)
    (if (sc_upd c <=? 0)%Z then (50 * ms)%Z else sc_upd c)
    (if (sc_mon c <=? 0)%Z then (100 * ms)%Z else sc_mon c)
    (if (sc_optthr c <? 0)%Z then 0%Z else sc_optthr c) (sc_opt c) (sc_auto c).

(** internal/config/swarm.go:393-409 NormalizeAndValidate: the configuration afterwards and
    whether it returned nil. *)
Definition NormalizeAndValidate (c : SCfg) (n : Z) : SCfg * bool :=
  match Validate c n with
  | [] => (normalize c n, true)
  | _ :: _ =>
    let c' := normalize c n in
    match Validate c' n with [] => (c', true) | _ :: _ => (c', false) end
  end.

(** internal/config/agent.go:105-121 AgentFromSwarm. *)
Definition AgentFromSwarm (sc : SCfg) : ACfg T :=
  mkACfg "simple" "weighted" "token" "phase_nudge" (sc_energy sc) (sc_coup sc)
    n0 n0 0 (sc_energy sc) (sc_infl sc) (sc_stub sc) 0 (sc_assumed sc) true true true.
End SwarmConfig.
Arguments SCfg : clear implicits.
