(** Go slices and integers: indexing with explicit panics ([None]). *)
From Coq Require Import ZArith List.
Import ListNotations.

(** [xs[i]]: out of range (negative included) panics. *)
Definition nthZ {A} (xs : list A) (i : Z) : option A :=
  if (i <? 0)%Z then None else nth_error xs (Z.to_nat i).

(** [xs[i] = v]. *)
Fixpoint setnth {A} (xs : list A) (i : nat) (v : A) : option (list A) :=
  match xs, i with
  | [], _ => None
  | _ :: r, O => Some (v :: r)
  | x :: r, S k => match setnth r k v with Some r' => Some (x :: r') | None => None end
  end.
Definition setZ {A} (xs : list A) (i : Z) (v : A) : option (list A) :=
  if (i <? 0)%Z then None else setnth xs (Z.to_nat i) v.
