(** The errors of a validation with their texts: internal/config/validation.go, Validate of internal/config/swarm.go and of
    emerge/core/state.go.  The texts of %v for float64 and time.Duration are not modelled: [showF], [showD]. *)
From Coq Require Import ZArith List Bool String.
From Verif Require Import Num M_Core M_SwarmConfig M_Workload.
Import ListNotations.
Open Scope string_scope.

(** internal/config/validation.go:9-13 ValidationError; the value as the text it is printed as. *)
Record VErr := mkVErr { ve_field : string; ve_value : string; ve_msg : string }.
(** validation.go:16-18 Error of one. *)
Definition errText (e : VErr) : string :=
  "validation error for field " ++ ve_field e ++ " (value: " ++ ve_value e ++ "): " ++ ve_msg e.
(** strings.Join(msgs, "; ") at validation.go:36. *)
Fixpoint joined (l : list string) : string :=
  match l with [] => "" | [x] => x | x :: r => x ++ "; " ++ joined r end.
(** validation.go:24-37 Error of several. *)
Definition errsText (es : list VErr) : string :=
  match es with
  | [] => "no validation errors"
  | [e] => errText e
  | _ => "multiple validation errors: [" ++ joined (map errText es) ++ "]"
  end.

Section Errors.
Context {T : Type} {N : Num T}.
Variable showF : T -> string.
Variable showD : Z -> string.
(** One entry, appended when the test holds. *)
Definition entry (b : bool) (field value msg : string) : list VErr := if b then [mkVErr field value msg] else [].
(** internal/config/swarm.go:272-285. *)
Definition sizeErrs (c : SCfg T) (n : Z) : list VErr :=
  entry (n <=? 0)%Z "swarmSize" (dec n) "must be positive"
  ++ entry ((0 <? sc_maxsize c) && (sc_maxsize c <? n))%Z%bool "MaxSwarmSize"
       ("swarmSize=" ++ dec n ++ ", MaxSwarmSize=" ++ dec (sc_maxsize c)) "swarm size exceeds configured maximum".
(** swarm.go:288-305, in the order of the list. *)
Definition probErr (field : string) (x : T) : list VErr := entry (outOfUnit x) field (showF x) "must be between 0 and 1".
Definition probErrs (c : SCfg T) : list VErr :=
  probErr "ConnectionProbability" (sc_prob c) ++ probErr "CouplingStrength" (sc_coup c) ++ probErr "Stubbornness" (sc_stub c)
  ++ probErr "BasinStrength" (sc_bstr c) ++ probErr "BaseConfidence" (sc_conf c) ++ probErr "InfluenceDefault" (sc_infl c).
(** swarm.go:308-345. *)
Definition neighborErrs (c : SCfg T) (n : Z) : list VErr :=
  (if ((0 <? n) && (n - 1 <=? 0))%Z%bool
   then entry (negb (sc_maxn c =? 0)%Z) "MaxNeighbors" (dec (sc_maxn c)) "must be 0 for single agent swarm"
   else entry (sc_maxn c <? 1)%Z "MaxNeighbors" (dec (sc_maxn c)) "must be at least 1")
  ++ entry ((0 <? n) && (n - 1 <? sc_maxn c))%Z%bool "MaxNeighbors"
       ("MaxNeighbors=" ++ dec (sc_maxn c) ++ ", swarmSize=" ++ dec n) "cannot exceed swarm size - 1"
  ++ entry (sc_minn c <? 0)%Z "MinNeighbors" (dec (sc_minn c)) "cannot be negative"
  ++ entry (sc_maxn c <? sc_minn c)%Z "MinNeighbors"
       ("MinNeighbors=" ++ dec (sc_minn c) ++ ", MaxNeighbors=" ++ dec (sc_maxn c)) "cannot exceed MaxNeighbors".
(** swarm.go:348-372. *)
Definition positiveErrs (c : SCfg T) : list VErr :=
  entry (nle (sc_energy c) n0) "InitialEnergy" (showF (sc_energy c)) "must be positive"
  ++ entry (nle (sc_bwid c) n0) "BasinWidth" (showF (sc_bwid c)) "must be positive"
  ++ entry (sc_upd c <=? 0)%Z "AgentUpdateInterval" (showD (sc_upd c)) "must be positive"
  ++ entry (sc_mon c <=? 0)%Z "MonitoringInterval" (showD (sc_mon c)) "must be positive".
(** swarm.go:375-390. *)
Definition negErr (field : string) (x : Z) : list VErr := entry (x <? 0)%Z field (dec x) "cannot be negative".
Definition concurrencyErrs (c : SCfg T) : list VErr :=
  negErr "MaxConcurrentAgents" (sc_maxconc c) ++ negErr "BatchSize" (sc_bsize c) ++ negErr "WorkerPoolSize" (sc_workers c)
  ++ negErr "ConnectionOptimThreshold" (sc_optthr c).
(** swarm.go:255-269 Validate.  Three of the five parts range over a map: [o1], [o2], [o3] are the orders met. *)
Definition swarmErrs (o1 o2 o3 : list VErr -> list VErr) (c : SCfg T) (n : Z) : list VErr :=
  sizeErrs c n ++ o1 (probErrs c) ++ neighborErrs c n ++ o2 (positiveErrs c) ++ o3 (concurrencyErrs c).
(** emerge/core/state.go:20-59 Validate. *)
Definition stateErrs (s : State T) : list VErr :=
  entry (st_freq s <=? 0)%Z "Frequency" (showD (st_freq s)) "must be positive"
  ++ (if nisnan (st_coh s) then [mkVErr "Coherence" (showF (st_coh s)) "cannot be NaN"]
      else entry (nlt (st_coh s) n0 || nlt n1 (st_coh s)) "Coherence" (showF (st_coh s)) "must be between 0 and 1")
  ++ entry (nisnan (st_phase s)) "Phase" (showF (st_phase s)) "cannot be NaN"
  ++ entry (nisinf (st_phase s)) "Phase" (showF (st_phase s)) "cannot be infinite".
End Errors.
