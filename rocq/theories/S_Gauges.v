(** Small specifications for the gauges and the chart (C67, C68). *)
From Coq Require Import ZArith Reals Bool List Arith.
Import ListNotations.

(** The last [n] members of a list. *)
Definition lastN {A} (n : nat) (l : list A) : list A := skipn (List.length l - n) l.
(** The [i]th member is on the wanted side, or its predecessor is. *)
Definition sideOrBefore {A} (side : A -> bool) (d : A) (l : list A) (i : nat) : bool :=
  match i with 0 => side (nth 0 l d) | S j => side (nth i l d) || side (nth j l d) end.
