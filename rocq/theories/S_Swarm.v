(** Specification vocabulary for swarm construction (C19). *)
From Coq Require Import ZArith List Bool String Permutation.
From Flocq Require Import IEEE754.BinarySingleNaN.
From Verif Require Import Num F64 M_Core M_Agent M_Swarm.
Import ListNotations.
Open Scope Z_scope.

(** A goal state the validator documents as valid. *)
Definition goal_valid (g : State F) : Prop :=
  0 < st_freq g /\ fle (fofZ 0) (st_coh g) = true /\ fle (st_coh g) (fofZ 1) = true /\ is_finite (st_phase g) = true.

(** [populated s n]: the swarm lists exactly n agents under pairwise different IDs, every agent under
    its own ID, and looking up an ID finds exactly the listed agents. *)
Definition populated {T} (s : Swarm T) (n : Z) : Prop :=
  exists m, Agents s = Some m /\ Z.of_nat (List.length m) = n /\ NoDup (map fst m) /\
    (forall id a, In (id, a) m -> ag_id a = id) /\
    (forall id a, AgentByID s id = Some (Some a) <-> In (id, a) m) /\
    (forall id, AgentByID s id = Some None <-> ~ In id (map fst m)).

(** sync.Map.Range delivers every entry once, in any order. *)
Definition range_order {A} (ro : list A -> list A) : Prop := forall l, Permutation l (ro l).
