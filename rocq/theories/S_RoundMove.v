(** Specification of the move of one agent in a synchronisation round (C32), in exact arithmetic: how far it goes along
    the circle, in the direction of growing phase. *)
From Coq Require Import ZArith Reals List Bool.
From Verif Require Import M_GoalConfig S_Circle S_Round.

(** [phi] is the way from [cur] forward to the target. *)
Definition ahead (target cur phi : R) : Prop := (0 <= phi < 2 * PI /\ exists k : Z, target = cur + phi + IZR k * (2 * PI))%R.
(** The share of the way pulled at the first agent, by the distance of the coherence from its target. *)
Definition firstPull (base tcoh coh s : R) : Prop :=
  ((tcoh - coh <= 1 / 100 -> s = 1 / 10) /\ (1 / 100 < tcoh - coh <= 5 / 100 -> s = 2 / 10) /\ (5 / 100 < tcoh - coh <= 10 / 100 -> s = 3 / 10) /\
   (10 / 100 < tcoh - coh <= 20 / 100 -> s = 4 / 10) /\ (20 / 100 < tcoh - coh -> s = Rmax (base * (1 - coh * (15 / 100))) (4 / 10)))%R.
(** The range of the random factor for a population of [n]. *)
Definition spread (n : nat) : R := (3 / 10 + (1 - Rmin (INR n / 100) 1) * (2 / 10))%R.
(** Twice the largest relative variation. *)
Definition wobble (c : GCfg R) (coh : R) (n : nat) : R :=
  (ga_min (g_var c) + (1 - Rmin (INR n / 100) 1) * (ga_max (g_var c) - ga_min (g_var c)) + coh * ga_coh (g_var c))%R.
(** What the [i]th agent of [n], [phi] away from the target, may do. *)
Inductive move (c : GCfg R) (tcoh coh var padj : R) (n i : nat) (phi : R) : R -> Prop :=
  (** Too coherent for a goal of low coherence: scattered at random. *)
| MoveScatter D : (tcoh < 4 / 10)%R -> (tcoh < coh)%R -> (- (15 / 100) * PI <= D < 15 / 100 * PI)%R -> move c tcoh coh var padj n i phi D
  (** Synchronised at different phases: pulled hard, or left alone near the target. *)
| MoveAlign r : (4 / 10 <= tcoh \/ coh <= tcoh)%R -> aligning c coh var -> (gv_dist (g_conv c) < phi)%R -> (95 / 100 <= r < 105 / 100)%R ->
    move c tcoh coh var padj n i phi (phi * (gv_scale (g_conv c) * (108 / 100) * r))%R
| MoveAligned : (4 / 10 <= tcoh \/ coh <= tcoh)%R -> aligning c coh var -> (phi <= gv_dist (g_conv c))%R -> move c tcoh coh var padj n i phi 0%R
  (** Crowded: two agents of three wander. *)
| MoveWander D : (4 / 10 <= tcoh \/ coh <= tcoh)%R -> ~ aligning c coh var -> crowded c coh var -> Nat.modulo i 3 <> 0%nat -> (Rabs D <= Rabs (ga_walk (g_var c)) / 2)%R ->
    move c tcoh coh var padj n i phi D
  (** Outside the window: completion and pull, each agent of a crowded population pulled a fifth as much as the last. *)
| MovePull s r v : (4 / 10 <= tcoh \/ coh <= tcoh)%R -> ~ aligning c coh var -> (crowded c coh var -> Nat.modulo i 3 = 0%nat) -> (window coh n < phi)%R ->
    firstPull (gv_scale (g_conv c)) tcoh coh s -> (1 - spread n / 2 <= r <= 1 + spread n / 2)%R -> (Rabs v <= Rabs (wobble c coh n) / 2)%R ->
    forall w, (crowded c coh var -> w = (/ 5) ^ (i / 3 + 1)%nat)%R -> (~ crowded c coh var -> w = 1%R) ->
    move c tcoh coh var padj n i phi ((padj * (3 / 10) + phi * (s * w)) * r * (1 + v))%R
  (** Inside the window: nothing, or a small kick. *)
| MoveRest D : (4 / 10 <= tcoh \/ coh <= tcoh)%R -> ~ aligning c coh var -> (crowded c coh var -> Nat.modulo i 3 = 0%nat) -> (phi <= window coh n)%R ->
    (D = 0 \/ (gt_mod (g_thr c) < coh /\ Rabs D <= Rabs (ga_pert (g_var c)) / 2))%R -> move c tcoh coh var padj n i phi D.
