(** Specification of a valid goal configuration (C25): the ranges documented on the fields of
    emerge/swarm/config.go.  Comparisons with NaN are false, so NaN is excluded. *)
From Coq Require Import ZArith Bool.
From Verif Require Import Num F64 M_GoalConfig.
Open Scope Z_scope.

Definition unit01 (x : F) : Prop := fle (fofZ 0) x = true /\ fle x (fofZ 1) = true.

Record gcfg_ok (c : GCfg F) : Prop := {
  o_scale : unit01 (gv_scale (g_conv c)); o_goal : unit01 (gv_goal (g_conv c));
  o_mod : fle (gt_mod (g_thr c)) (gt_high (g_thr c)) = true;
  o_high : fle (gt_high (g_thr c)) (gt_very (g_thr c)) = true;
  o_min : fle (fofZ 0) (ga_min (g_var c)) = true;
  o_max : fle (ga_min (g_var c)) (ga_max (g_var c)) = true;
  o_chance : unit01 (ga_chance (g_var c));
  o_upd : 0 < gs_upd (g_str c); o_window : 0 < gs_window (g_str c);
  o_aff : unit01 (gr_aff (g_res c)); o_act : unit01 (gr_act (g_res c)) }.

(** None of the fields that Validate looks at is NaN. *)
Definition gcfg_no_nan (c : GCfg F) : Prop :=
  fisnan (gv_scale (g_conv c)) = false /\ fisnan (gv_goal (g_conv c)) = false /\
  fisnan (gt_mod (g_thr c)) = false /\ fisnan (gt_high (g_thr c)) = false /\ fisnan (gt_very (g_thr c)) = false /\
  fisnan (ga_min (g_var c)) = false /\ fisnan (ga_max (g_var c)) = false /\ fisnan (ga_chance (g_var c)) = false /\
  fisnan (gr_aff (g_res c)) = false /\ fisnan (gr_act (g_res c)) = false.
