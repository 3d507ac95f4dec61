(** Model of emerge/agent/neighbor_storage.go.  Every method holds the lock, so methods are
    atomic; [None] = a slice index out of range (panic).  The int32 counter is an unbounded
    integer (it stays within the capacity). *)
From Coq Require Import ZArith List Bool String.
From Verif Require Import GoBase.
Import ListNotations.
Open Scope Z_scope.

Section NS.
(** [V] stands for *Agent (nil included). *)
Context {V : Type} (vnil : V).

(** emerge/agent/neighbor_storage.go:10-17 NeighborStorage. *)
Record NeighborStorage := mkNS {
  ns_neighbors : list V; ns_ids : list string; ns_count : Z; ns_capacity : Z }.

(** emerge/agent/neighbor_storage.go:20-29 NewNeighborStorage. *)
Definition NewNeighborStorage (capacity : Z) : NeighborStorage :=
  let c := if capacity <=? 0 then 20 else capacity in
  mkNS (repeat vnil (Z.to_nat c)) (repeat EmptyString (Z.to_nat c)) 0 c.

(** The loops [for i := range currentCount { if ns.ids[i] == id {...} }] of Store, Load and
    Delete (neighbor_storage.go:38-43, 63-67, 77-91): the first matching index. *)
Fixpoint findIdx (ids : list string) (id : string) (i : nat) (fuel : nat) : option (option nat) :=
  match fuel with
  | O => Some None
  | S k => match nth_error ids i with
           | None => None
           | Some x => if String.eqb x id then Some (Some i) else findIdx ids id (S i) k
           end
  end.
Definition find (ns : NeighborStorage) (id : string) : option (option nat) :=
  findIdx (ns_ids ns) id 0 (Z.to_nat (ns_count ns)).

(** emerge/agent/neighbor_storage.go:32-55 Store. *)
Definition Store (ns : NeighborStorage) (id : string) (v : V) : option (NeighborStorage * bool) :=
  match find ns id with
  | None => None
  | Some (Some i) =>
    match setnth (ns_neighbors ns) i v with
    | None => None
    | Some nb => Some (mkNS nb (ns_ids ns) (ns_count ns) (ns_capacity ns), true)
    end
  | Some None =>
    if ns_count ns <? ns_capacity ns then
      match setZ (ns_ids ns) (ns_count ns) id, setZ (ns_neighbors ns) (ns_count ns) v with
      | Some ids, Some nb => Some (mkNS nb ids (ns_count ns + 1) (ns_capacity ns), true)
      | _, _ => None
      end
    else Some (ns, false)
  end.

(** emerge/agent/neighbor_storage.go:58-69 Load. *)
Definition Load (ns : NeighborStorage) (id : string) : option (V * bool) :=
  match find ns id with
  | None => None
  | Some (Some i) => match nth_error (ns_neighbors ns) i with
                     | Some v => Some (v, true) | None => None end
  | Some None => Some (vnil, false)
  end.

(** emerge/agent/neighbor_storage.go:72-92 Delete. *)
Definition Delete (ns : NeighborStorage) (id : string) : option NeighborStorage :=
  match find ns id with
  | None => None
  | Some None => Some ns
  | Some (Some i) =>
    let last := ns_count ns - 1 in
    let moved :=
      if Z.of_nat i <? last then
        match nthZ (ns_ids ns) last, nthZ (ns_neighbors ns) last with
        | Some x, Some v =>
          match setnth (ns_ids ns) i x, setnth (ns_neighbors ns) i v with
          | Some ids, Some nb => Some (ids, nb)
          | _, _ => None
          end
        | _, _ => None
        end
      else Some (ns_ids ns, ns_neighbors ns) in
    match moved with
    | None => None
    | Some (ids, nb) =>
      match setZ ids last EmptyString, setZ nb last vnil with
      | Some ids', Some nb' => Some (mkNS nb' ids' (ns_count ns - 1) (ns_capacity ns))
      | _, _ => None
      end
    end
  end.

(** emerge/agent/neighbor_storage.go:95-105 Range: the calls made, stopping after the first
    one on which the callback [f] returns false. *)
Fixpoint rangeFrom (ids : list string) (nb : list V) (f : string -> V -> bool) (i fuel : nat)
  : option (list (string * V)) :=
  match fuel with
  | O => Some []
  | S k => match nth_error ids i, nth_error nb i with
           | Some x, Some v =>
             if f x v then match rangeFrom ids nb f (S i) k with
                           | Some r => Some ((x, v) :: r) | None => None end
             else Some [(x, v)]
           | _, _ => None
           end
  end.
Definition Range (ns : NeighborStorage) (f : string -> V -> bool) : option (list (string * V)) :=
  rangeFrom (ns_ids ns) (ns_neighbors ns) f 0 (Z.to_nat (ns_count ns)).

(** emerge/agent/neighbor_storage.go:108-110 Count. *)
Definition Count (ns : NeighborStorage) : Z := ns_count ns.

(** emerge/agent/neighbor_storage.go:113-125 All: [neighbors[:count]] panics if count exceeds
    the slice capacity. *)
Definition All (ns : NeighborStorage) : option (list V) :=
  if ns_count ns =? 0 then Some []
  else if Z.of_nat (List.length (ns_neighbors ns)) <? ns_count ns then None
  else Some (firstn (Z.to_nat (ns_count ns)) (ns_neighbors ns)).

(** emerge/agent/neighbor_storage.go:128-138 Clear. *)
Fixpoint clearTo {A} (xs : list A) (z : A) (i fuel : nat) : option (list A) :=
  match fuel with
  | O => Some xs
  | S k => match setnth xs i z with Some xs' => clearTo xs' z (S i) k | None => None end
  end.
Definition Clear (ns : NeighborStorage) : option NeighborStorage :=
  match clearTo (ns_ids ns) EmptyString 0 (Z.to_nat (ns_count ns)),
        clearTo (ns_neighbors ns) vnil 0 (Z.to_nat (ns_count ns)) with
  | Some ids, Some nb => Some (mkNS nb ids 0 (ns_capacity ns))
  | _, _ => None
  end.

(** A history of calls with their results. *)
Inductive NSOp := NStore (id : string) (v : V) | NLoad (id : string) | NDelete (id : string)
                | NCount | NClear.
Inductive NSOut := OBool (b : bool) | OVal (v : V) (b : bool) | ONum (n : Z) | OUnit.
Definition nsStep (ns : NeighborStorage) (o : NSOp) : option (NeighborStorage * NSOut) :=
  match o with
  | NStore id v => match Store ns id v with Some (s, b) => Some (s, OBool b) | None => None end
  | NLoad id => match Load ns id with Some (v, b) => Some (ns, OVal v b) | None => None end
  | NDelete id => match Delete ns id with Some s => Some (s, OUnit) | None => None end
  | NCount => Some (ns, ONum (Count ns))
  | NClear => match Clear ns with Some s => Some (s, OUnit) | None => None end
  end.
Fixpoint nsRun (ns : NeighborStorage) (l : list NSOp) : option (NeighborStorage * list NSOut) :=
  match l with
  | [] => Some (ns, [])
  | o :: r => match nsStep ns o with
              | None => None
              | Some (ns', x) => match nsRun ns' r with
                                 | Some (s, xs) => Some (s, x :: xs) | None => None end
              end
  end.
End NS.
Arguments NeighborStorage : clear implicits.
Arguments NSOp : clear implicits.
Arguments NSOut : clear implicits.
