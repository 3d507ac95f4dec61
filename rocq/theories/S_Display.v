(** Small specifications for the display panels (C61-C66): counting and bars. *)
From Coq Require Import ZArith Reals Bool List.
Import ListNotations.
Open Scope Z_scope.

(** How many members of a list have a property. *)
Definition howMany {A} (p : A -> bool) (l : list A) : Z := Z.of_nat (List.length (filter p l)).
(** [n] lit cells followed by dark ones, [m] in all. *)
Definition litCells (n m : Z) : list bool := repeat true (Z.to_nat n) ++ repeat false (Z.to_nat (m - n)).
(** The sum of the squared deviations from the mean, times 16, of four loads with sum [n]. *)
Definition spread16 (loads : list Z) (n : Z) : Z := fold_right Z.add 0 (map (fun l => (4 * l - n) * (4 * l - n)) loads).
(** The quarter of the circle that contains a phase: 0 for [0, PI/2), 1 for [PI/2, PI), ... *)
Definition quarter (x : R) (q : Z) : Prop :=
  exists k : Z, (IZR q * (PI / 2) <= x + IZR k * (2 * PI) < (IZR q + 1) * (PI / 2))%R /\ 0 <= q <= 3.
