(** Specification vocabulary for the noise added to a stuck swarm (C90), in exact arithmetic. *)
From Coq Require Import ZArith Reals List Bool Permutation.
From Verif Require Import Num RealNum S_Circle M_Core M_Agent.
Import ListNotations.
Open Scope R_scope.

(** [b] is [a] after [c] disturbances of at most [mag / 2] each: only the phase may differ, and it does not if [c] is 0. *)
Definition displaced (mag : R) (c : nat) (a b : Agent R) : Prop :=
  (exists p, b = upd_sd (fun s => mkSD p (sd_energy s) (sd_goal s) (sd_freq s)) a) /\
  (exists delta, Rabs delta <= INR c * (mag / 2) /\ cong (sd_phase (ag_sd b)) (sd_phase (ag_sd a) + delta)) /\
  (c = 0%nat -> b = a).
(** The population [q] is the population [l] after [k] disturbances in all. *)
Definition disturbed (mag : R) (k : nat) (l q : list (Agent R)) : Prop :=
  exists ts : list (Agent R * nat * Agent R),
    Permutation (map (fun t => fst (fst t)) ts) l /\ Permutation (map snd ts) q /\
    (forall a c b, In (a, c, b) ts -> displaced mag c a b) /\ fold_right (fun t n => snd (fst t) + n)%nat 0%nat ts = k.
(** The number of agents that are touched at all. *)
Definition touched (ts : list (Agent R * nat * Agent R)) : nat := length (filter (fun t => negb (snd (fst t) =? 0)%nat) ts).
