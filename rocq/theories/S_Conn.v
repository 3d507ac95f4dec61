(** Specification vocabulary for the wiring properties C20-C23. *)
From Coq Require Import ZArith List Bool String.
From Verif Require Import M_Neighbors M_Conn.
Import ListNotations.
Open Scope Z_scope.

Definition symmetric (e : Adj) : Prop := forall a b, In (a, b) e <-> In (b, a) e.
Definition irreflexive (e : Adj) : Prop := forall a, ~ In (a, a) e.
(** Only agents of the swarm occur. *)
Definition over (agents : list string) (e : Adj) : Prop :=
  forall a b, In (a, b) e -> In a agents /\ In b agents.
(** Number of neighbors of [a] (each neighbor once: see [NoDup] in C20). *)
Definition degree (e : Adj) (a : string) : Z :=
  Z.of_nat (List.length (filter (fun p => String.eqb (fst p) a) e)).

(** [in_range n l]: possible results of random.Intn(n). *)
Definition in_range (n : nat) (l : list Z) : Prop := Forall (fun i => 0 <= i < Z.of_nat n) l.

(** Freshly created agents: empty neighbor storages of capacity 20 (whatever the sync.Maps). *)
Definition fresh (n : Net) : Prop := forall a, net_opt n a = NewNeighborStorage ""%string 20.

(** [listed n a l]: the neighbor list a reads in its own updates is exactly [l] (as a set,
    without repetition), and IsConnectedTo agrees with it. *)
Definition listed (n : Net) (a : string) (P : string -> Prop) : Prop :=
  exists l, contextNeighbors n a = Some l /\ NoDup l /\ (forall b, In b l <-> P b) /\
    (forall b, P b -> IsConnectedTo n a b = Some true) /\
    (forall b, ~ P b -> IsConnectedTo n a b = Some false).

(** Agents at positions i and j of a ring of n are next to each other. *)
Definition ring_adjacent (n i j : Z) : Prop := j = (i + 1) mod n \/ i = (j + 1) mod n.
