(** Specification of the neighbor storage: a bounded finite map from IDs to values. *)
From Coq Require Import ZArith List Bool String.
From Verif Require Import M_Neighbors.
Import ListNotations.
Open Scope Z_scope.

Section Spec.
Context {V : Type} (vnil : V).
(** A finite map given by its lookup function and its number of keys. *)
Record FMap := mkFM { fm_get : string -> option V; fm_size : Z }.
Definition fm_empty : FMap := mkFM (fun _ => None) 0.
Definition upd (m : string -> option V) (id : string) (v : option V) : string -> option V :=
  fun x => if String.eqb x id then v else m x.

(** One call on a map of capacity [cap], with its result. *)
Definition specStep (cap : Z) (m : FMap) (o : NSOp V) : FMap * NSOut V :=
  match o with
  | NStore id v =>
    match fm_get m id with
    | Some _ => (mkFM (upd (fm_get m) id (Some v)) (fm_size m), OBool true)
    | None => if fm_size m <? cap
              then (mkFM (upd (fm_get m) id (Some v)) (fm_size m + 1), OBool true)
              else (m, OBool false)
    end
  | NLoad id => (m, match fm_get m id with Some v => OVal v true | None => OVal vnil false end)
  | NDelete id => match fm_get m id with
                  | Some _ => (mkFM (upd (fm_get m) id None) (fm_size m - 1), OUnit)
                  | None => (m, OUnit)
                  end
  | NCount => (m, ONum (fm_size m))
  | NClear => (fm_empty, OUnit)
  end.
Fixpoint specRun (cap : Z) (m : FMap) (l : list (NSOp V)) : FMap * list (NSOut V) :=
  match l with
  | [] => (m, [])
  | o :: r => let (m', x) := specStep cap m o in
              let (m'', xs) := specRun cap m' r in (m'', x :: xs)
  end.

(** [l] enumerates the map: every key exactly once, with its value. *)
Definition enumerates (l : list (string * V)) (m : FMap) : Prop :=
  NoDup (map fst l) /\ Z.of_nat (List.length l) = fm_size m /\
  forall id v, In (id, v) l <-> fm_get m id = Some v.
End Spec.
Arguments FMap : clear implicits.
