(** Specification vocabulary for the synchronisation loop (C27, C30, C31, C33). *)
From Coq Require Import ZArith Reals List Bool String.
From Flocq Require Import IEEE754.BinarySingleNaN.
From Verif Require Import Num F64 RealNum M_Core M_Agent M_Limits M_GoalConfig M_Swarm M_Sync.
Import ListNotations.
Open Scope Z_scope.

(** The documented success criterion for a population of [n] agents: coherence within the tolerance for that size
    (doubled within 5% of the practical limit), pattern distance below the threshold, and for high-coherence targets
    enough phase convergence [conv]. *)
Definition base_tolerance (cfg : GCfg F) (n : Z) : F :=
  if n <? 10 then gv_tolS (g_conv cfg) else if n <? 50 then gv_tolM (g_conv cfg) else gv_tolL (g_conv cfg).
Definition near_limit (tr : Trig) (n : Z) (tcoh : F) : Prop :=
  fle (fmul (lim_prac (@GetCoherenceLimits F (FNum tr) n)) (flit 95 100)) tcoh = true.
Definition within (cur target tol : F) : Prop := fle (fsub target tol) cur = true.
Definition success (tr : Trig) (cfg : GCfg F) (n : Z) (target cur : TargetPattern F) (conv : F) : Prop :=
  (near_limit tr n (tp_coh target) -> within (tp_coh cur) (tp_coh target) (fmul (base_tolerance cfg n) (fofZ 2))) /\
  (~ near_limit tr n (tp_coh target) -> within (tp_coh cur) (tp_coh target) (base_tolerance cfg n)) /\
  flt (@PatternDistance F (FNum tr) (Some cur) (Some target)) (gv_dist (g_conv cfg)) = true /\
  (fle (gt_high (g_thr cfg)) (tp_coh target) = true -> fle (gv_goal (g_conv cfg)) conv = true).

(** [rounds cfg target es s s']: the rounds of [es], none of which succeeded, lead from [s] to [s']. *)
Inductive rounds {T} {N : Num T} (cfg : GCfg T) (target : TargetPattern T) : list (Env T) -> SyncState T -> SyncState T -> Prop :=
| rounds_nil s : rounds cfg target [] s s
| rounds_cons e es s s1 s2 : round cfg target e s = Some (s1, false) -> rounds cfg target es s1 s2 ->
    rounds cfg target (e :: es) s s2.

(** What Go's documentation promises about math.Sin, math.Cos and math.Atan2 on finite arguments. *)
Record trig_sane (tr : Trig) : Prop := {
  sane_sin : forall x, is_finite x = true -> is_finite (tsin tr x) = true /\ (Rabs (B2R (tsin tr x)) <= 1)%R;
  sane_cos : forall x, is_finite x = true -> is_finite (tcos tr x) = true /\ (Rabs (B2R (tcos tr x)) <= 1)%R;
  sane_atan2 : forall y x, is_finite y = true -> is_finite x = true ->
    is_finite (tatan2 tr y x) = true /\ (Rabs (B2R (tatan2 tr y x)) <= B2R (fhalfpi 2))%R }.

(** Sum of a list of reals. *)
Definition total (l : list R) : R := fold_right Rplus 0%R l.

(** The special cases of Go's documentation: Sin(0) = 0, Cos(0) = 1, Atan2(+0, x > 0) = +0 (at x = 1). *)
Record trig_zero (tr : Trig) : Prop := {
  zero_sin : tsin tr (fofZ 0) = fofZ 0; zero_cos : tcos tr (fofZ 0) = fofZ 1;
  zero_atan2 : tatan2 tr (fofZ 0) (fofZ 1) = fofZ 0 }.
