(** Specification vocabulary for the monitors (C36, C37, C38, C40). *)
From Coq Require Import ZArith Reals List.
From Verif Require Import Num F64 M_Monitor.
Import ListNotations.

(** Sum of squared residuals of the line a + b*x through the points (i, l0), (i+1, l1), ... *)
Fixpoint sse (a b i : R) (l : list R) : R :=
  match l with
  | [] => 0%R
  | y :: r => ((y - (a + b * i)) * (y - (a + b * i)) + sse a b (i + 1) r)%R
  end.
(** [b] is the slope of a best-fitting line through (0, l0), (1, l1), ... *)
Definition least_squares_slope (l : list R) (b : R) : Prop :=
  exists a, forall a' b', (sse a b 0 l <= sse a' b' 0 l)%R.

(** [suffix_of k l s]: s is the last k elements of l. *)
Definition suffix_of {A} (k : nat) (l s : list A) : Prop := List.length s = k /\ exists p, l = p ++ s.

(** The calls made since creation (at [t0]) or since the last Reset are exactly the samples [l], and
    that creation or Reset happened at time [r]. *)
Definition since_reset {T} (ops : list (CMOp T)) (t0 r : Z) (l : list (Z * T)) : Prop :=
  exists pre, ops = pre ++ map (fun s => CMRec (fst s) (snd s)) l /\
    ((pre = [] /\ r = t0) \/ exists p, pre = p ++ [CMRes r]).
