(** Specification vocabulary for a synchronisation round (C32). *)
From Coq Require Import ZArith Reals List Bool.
From Flocq Require Import Core.Core IEEE754.BinarySingleNaN.
From Verif Require Import Num F64 M_Core M_Agent M_GoalConfig M_Swarm M_Sync S_Agent.
Import ListNotations.

(** A finite float of magnitude at most 2^60. *)
Definition moderate (x : F) : Prop := is_finite x = true /\ (Rabs (B2R x) <= bpow radix2 60)%R.
(** The settings that enter the new phases. *)
Record cfg_moderate (c : GCfg F) : Prop := {
  md_scale : moderate (gv_scale (g_conv c));
  md_min : moderate (ga_min (g_var c)); md_max : moderate (ga_max (g_var c)); md_coh : moderate (ga_coh (g_var c));
  md_walk : moderate (ga_walk (g_var c)); md_pert : moderate (ga_pert (g_var c));
  md_noise : moderate (gr_noise (g_res c)) }.
(** What C32 asks of an agent: phase in [0, 2 pi), positive frequency. *)
Definition agent_fine (a : Agent F) : Prop := in_turn (phaseOf a) /\ (0 < freqOf a)%Z.
(** The traversals of the population see the same number of agents, all fine; the templates are those of the engine, in
    any order. *)
Record env_fine (e : Env F) : Prop := {
  ef_view : forall k l, Forall agent_fine l -> Forall agent_fine (ev_view e k l);
  ef_len : forall k l, List.length (ev_view e k l) = List.length l;
  ef_tmpl : forall l x, In x (ev_tmpl e l) -> In x l }.

(** The settings under which no step goes further than twice the arc to the target (exact reals). *)
Record calm (c : GCfg R) : Prop := {
  cl_scale : (0 < gv_scale (g_conv c) <= 1)%R;
  cl_min : (0 <= ga_min (g_var c))%R; cl_max : (ga_min (g_var c) <= ga_max (g_var c))%R; cl_coh : (0 <= ga_coh (g_var c))%R;
  cl_over : ((3 / 10 + Rmax (gv_scale (g_conv c)) (4 / 10)) * (5 / 4) * (1 + (ga_max (g_var c) + ga_coh (g_var c)) / 2) < 2)%R;
  cl_under : (ga_max (g_var c) + ga_coh (g_var c) < 2)%R }.
(** The population counts as synchronised, at different phases; as crowded at one phase. *)
Definition aligning (c : GCfg R) (coh var : R) : Prop := (gt_high (g_thr c) <= coh /\ gt_var (g_thr c) < var)%R.
Definition crowded (c : GCfg R) (coh var : R) : Prop := (gt_very (g_thr c) < coh /\ var < gt_var (g_thr c))%R.
(** The distance from the target up to which an agent of a population of [n] is left alone. *)
Definition window (coh : R) (n : nat) : R := (1 / 100 + coh * (3 / 100) + (1 - Rmin (INR n / 100) 1) * (2 / 100))%R.
