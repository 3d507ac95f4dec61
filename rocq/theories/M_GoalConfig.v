(** Model of emerge/swarm/config.go (goal configurations), emerge/swarm/goal_constants.go,
    emerge/swarm/thresholds.go, and the enumerations of emerge/goal and emerge/trait.  A Config is
    modified through a pointer in Go; here the functions return the new value.  An error of
    Validate is [false]. *)
From Coq Require Import ZArith List Bool String.
From Verif Require Import Num.
Import ListNotations.
Open Scope num_scope.

(** emerge/goal/config.go:8-42 Type: [OtherGoal] stands for every other integer. *)
Inductive Goal := MinimizeAPICalls | DistributeLoad | ReachConsensus | MinimizeLatency | SaveEnergy
  | MaintainRhythm | RecoverFromFailure | AdaptToTraffic | OtherGoal.
(** emerge/trait/trait.go:6-32 Target. *)
Inductive Trait := Stability | Speed | Efficiency | Throughput | Resilience | Precision | OtherTrait.

Section GoalConfig.
Context {T : Type} {N : Num T}.

(** emerge/swarm/config.go:23-37 ConvergenceConfig. *)
Record GConv := mkGConv { gv_tolS : T; gv_tolM : T; gv_tolL : T; gv_goal : T; gv_dist : T; gv_scale : T }.
(** emerge/swarm/config.go:40-48 ThresholdConfig. *)
Record GThr := mkGThr { gt_var : T; gt_high : T; gt_very : T; gt_mod : T }.
(** emerge/swarm/config.go:51-62 VariationConfig. *)
Record GVar := mkGVar { ga_min : T; ga_max : T; ga_coh : T; ga_walk : T; ga_pert : T; ga_chance : T }.
(** emerge/swarm/config.go:65-74 StrategyConfig. *)
Record GStr := mkGStr { gs_iter : T; gs_upd : Z; gs_bonus : T; gs_window : Z; gs_explore : T }.
(** emerge/swarm/config.go:77-82 ResonanceConfig. *)
Record GRes := mkGRes { gr_noise : T; gr_aff : T; gr_act : T }.
(** emerge/swarm/config.go:12-20 Config. *)
Record GCfg := mkGC { g_conv : GConv; g_thr : GThr; g_var : GVar; g_str : GStr; g_res : GRes }.

(** emerge/swarm/goal_constants.go:10-37, used by For (config.go). *)
Definition cfgMinimizeAPICalls : GCfg :=
  mkGC (mkGConv (nlit 1 100) (nlit 5 1000) (nlit 3 1000) (nlit 9 10) (nlit 5 100) (nlit 75 100))
    (mkGThr (nlit 3 10) (nlit 85 100) (nlit 9 10) (nlit 8 10))
    (mkGVar (nlit 5 100) (nlit 15 100) (nlit 15 100) (nlit 5 100) (nlit 4 100) (nlit 1 10))
    (mkGStr (nofZ 150) (200000000) (nlit 2 10) (45000000000) (nlit 5 100))
    (mkGRes (nlit 3 10) (nlit 5 100) (nlit 5 100)).
(** emerge/swarm/goal_constants.go:42-69, used by For (config.go). *)
Definition cfgDistributeLoad : GCfg :=
  mkGC (mkGConv (nlit 25 1000) (nlit 15 1000) (nlit 1 100) (nlit 3 10) (nlit 2 10) (nlit 55 100))
    (mkGThr (nlit 8 10) (nlit 4 10) (nlit 5 10) (nlit 3 10))
    (mkGVar (nlit 25 100) (nlit 45 100) (nlit 3 10) (nlit 2 10) (nlit 15 100) (nlit 25 100))
    (mkGStr (nofZ 100) (50000000) (nlit 4 10) (30000000000) (nlit 15 100))
    (mkGRes (nlit 6 10) (nlit 15 100) (nlit 15 100)).
(** emerge/swarm/goal_constants.go:74-101, used by For (config.go). *)
Definition cfgReachConsensus : GCfg :=
  mkGC (mkGConv (nlit 8 1000) (nlit 4 1000) (nlit 2 1000) (nlit 95 100) (nlit 3 100) (nlit 8 10))
    (mkGThr (nlit 2 10) (nlit 9 10) (nlit 95 100) (nlit 85 100))
    (mkGVar (nlit 3 100) (nlit 1 10) (nlit 1 10) (nlit 3 100) (nlit 2 100) (nlit 5 100))
    (mkGStr (nofZ 250) (100000000) (nlit 25 100) (60000000000) (nlit 8 100))
    (mkGRes (nlit 2 10) (nlit 3 100) (nlit 3 100)).
(** emerge/swarm/goal_constants.go:106-133, used by For (config.go). *)
Definition cfgMinimizeLatency : GCfg :=
  mkGC (mkGConv (nlit 2 100) (nlit 12 1000) (nlit 8 1000) (nlit 75 100) (nlit 15 100) (nlit 85 100))
    (mkGThr (nlit 4 10) (nlit 8 10) (nlit 85 100) (nlit 75 100))
    (mkGVar (nlit 1 10) (nlit 2 10) (nlit 15 100) (nlit 8 100) (nlit 6 100) (nlit 12 100))
    (mkGStr (nofZ 80) (25000000) (nlit 35 100) (20000000000) (nlit 12 100))
    (mkGRes (nlit 4 10) (nlit 8 100) (nlit 1 10)).
(** emerge/swarm/goal_constants.go:138-165, used by For (config.go). *)
Definition cfgSaveEnergy : GCfg :=
  mkGC (mkGConv (nlit 3 100) (nlit 2 100) (nlit 15 1000) (nlit 7 10) (nlit 2 10) (nlit 4 10))
    (mkGThr (nlit 6 10) (nlit 75 100) (nlit 8 10) (nlit 7 10))
    (mkGVar (nlit 8 100) (nlit 18 100) (nlit 12 100) (nlit 6 100) (nlit 5 100) (nlit 8 100))
    (mkGStr (nofZ 300) (250000000) (nlit 15 100) (90000000000) (nlit 5 100))
    (mkGRes (nlit 25 100) (nlit 5 100) (nlit 5 100)).
(** emerge/swarm/goal_constants.go:170-197, used by For (config.go). *)
Definition cfgMaintainRhythm : GCfg :=
  mkGC (mkGConv (nlit 12 1000) (nlit 6 1000) (nlit 3 1000) (nlit 8 10) (nlit 8 100) (nlit 7 10))
    (mkGThr (nlit 4 10) (nlit 85 100) (nlit 9 10) (nlit 8 10))
    (mkGVar (nlit 8 100) (nlit 16 100) (nlit 15 100) (nlit 6 100) (nlit 5 100) (nlit 1 10))
    (mkGStr (nofZ 180) (100000000) (nlit 25 100) (50000000000) (nlit 8 100))
    (mkGRes (nlit 3 10) (nlit 6 100) (nlit 8 100)).
(** emerge/swarm/goal_constants.go:202-229, used by For (config.go). *)
Definition cfgRecoverFromFailure : GCfg :=
  mkGC (mkGConv (nlit 25 1000) (nlit 15 1000) (nlit 1 100) (nlit 65 100) (nlit 18 100) (nlit 6 10))
    (mkGThr (nlit 7 10) (nlit 7 10) (nlit 75 100) (nlit 65 100))
    (mkGVar (nlit 2 10) (nlit 4 10) (nlit 25 100) (nlit 15 100) (nlit 12 100) (nlit 2 10))
    (mkGStr (nofZ 350) (75000000) (nlit 4 10) (30000000000) (nlit 15 100))
    (mkGRes (nlit 7 10) (nlit 15 100) (nlit 2 10)).
(** emerge/swarm/goal_constants.go:234-261, used by For (config.go). *)
Definition cfgAdaptToTraffic : GCfg :=
  mkGC (mkGConv (nlit 4 100) (nlit 3 100) (nlit 2 100) (nlit 5 10) (nlit 25 100) (nlit 45 100))
    (mkGThr (nlit 9 10) (nlit 6 10) (nlit 7 10) (nlit 5 10))
    (mkGVar (nlit 3 10) (nlit 5 10) (nlit 35 100) (nlit 25 100) (nlit 2 10) (nlit 3 10))
    (mkGStr (nofZ 100) (50000000) (nlit 5 10) (20000000000) (nlit 25 100))
    (mkGRes (nlit 8 10) (nlit 2 10) (nlit 25 100)).
(** emerge/swarm/config.go:566-602 defaultConfig with the constants of emerge/swarm/thresholds.go:51-86. *)
Definition defaultConfig : GCfg :=
  mkGC (mkGConv (nlit 15 1000) (nlit 8 1000) (nlit 5 1000) (nlit 85 100) (nlit 1 10) (nlit 65 100))
    (mkGThr (nlit 5 10) (nlit 9 10) (nlit 92 100) (nlit 85 100))
    (mkGVar (nlit 15 100) (nlit 3 10) (nlit 2 10) (nlit 1 10) (nlit 8 100) (nlit 15 100))
    (mkGStr (nofZ 200) (100000000) (nlit 3 10) (60000000000) (nlit 1 10))
    (mkGRes (nlit 5 10) (nlit 1 10) (nlit 1 10)).

(** emerge/swarm/config.go:85-387 For. *)
Definition For (g : Goal) : GCfg :=
  match g with
  | MinimizeAPICalls => cfgMinimizeAPICalls
  | DistributeLoad => cfgDistributeLoad
  | ReachConsensus => cfgReachConsensus
  | MinimizeLatency => cfgMinimizeLatency
  | SaveEnergy => cfgSaveEnergy
  | MaintainRhythm => cfgMaintainRhythm
  | RecoverFromFailure => cfgRecoverFromFailure
  | AdaptToTraffic => cfgAdaptToTraffic
  | OtherGoal => defaultConfig
  end.

(** emerge/swarm/config.go:605-610 minValue, 613-618 maxValue. *)
Definition minValueF (a b : T) : T := if a <? b then a else b.
Definition minValueZ (a b : Z) : Z := if (a <? b)%Z then a else b.
Definition maxValueZ (a b : Z) : Z := if (b <? a)%Z then a else b.

(** time.Duration(float64(d) * f). *)
Definition scaleDur (d : Z) (f : T) : Z := ntrunc (nofZ d * f).

(** emerge/swarm/config.go:390-441 TuneFor. *)
Definition TuneFor (t : Trait) (c : GCfg) : GCfg :=
  let v := g_conv c in let th := g_thr c in let a := g_var c in let s := g_str c in let r := g_res c in
  match t with
  | Stability =>
    mkGC (mkGConv (gv_tolS v) (gv_tolM v) (gv_tolL v) (gv_goal v) (gv_dist v) (gv_scale v * nlit 6 10)) th
      (mkGVar (ga_min a * nlit 12 10) (ga_max a * nlit 13 10) (ga_coh a) (ga_walk a) (ga_pert a * nlit 7 10) (ga_chance a))
      (mkGStr (gs_iter s) (scaleDur (gs_upd s) (nlit 15 10)) (gs_bonus s) (gs_window s) (gs_explore s))
      (mkGRes (gr_noise r * nlit 6 10) (gr_aff r) (gr_act r))
  | Speed =>
    mkGC (mkGConv (gv_tolS v * nlit 15 10) (gv_tolM v * nlit 15 10) (gv_tolL v * nlit 15 10) (gv_goal v) (gv_dist v)
            (minValueF n1 (gv_scale v * nlit 13 10))) th a
      (mkGStr (gs_iter s * nlit 7 10) (scaleDur (gs_upd s) (nlit 5 10)) (gs_bonus s) (gs_window s) (gs_explore s)) r
  | Efficiency =>
    mkGC v th
      (mkGVar (ga_min a) (ga_max a) (ga_coh a) (ga_walk a) (ga_pert a) (ga_chance a * nlit 5 10))
      (mkGStr (gs_iter s) (scaleDur (gs_upd s) (nofZ 2)) (gs_bonus s * nlit 7 10) (gs_window s) (gs_explore s))
      (mkGRes (gr_noise r) (gr_aff r * nlit 5 10) (gr_act r))
  | Throughput =>
    mkGC (mkGConv (gv_tolS v) (gv_tolM v) (gv_tolL v) (gv_goal v) (gv_dist v) (gv_scale v * nlit 12 10)) th a
      (mkGStr (gs_iter s) (scaleDur (gs_upd s) (nlit 7 10)) (gs_bonus s) (gs_window s) (gs_explore s * nlit 15 10)) r
  | Resilience =>
    mkGC v th
      (mkGVar (ga_min a * nlit 13 10) (ga_max a * nlit 14 10) (ga_coh a) (ga_walk a) (ga_pert a) (ga_chance a)) s
      (mkGRes (gr_noise r * nlit 15 10) (gr_aff r * nlit 15 10) (gr_act r * nlit 18 10))
  | Precision =>
    mkGC (mkGConv (gv_tolS v * nlit 5 10) (gv_tolM v * nlit 5 10) (gv_tolL v * nlit 5 10)
            (minValueF (nlit 98 100) (gv_goal v * nlit 11 10)) (gv_dist v * nlit 5 10) (gv_scale v)) th a s r
  | OtherTrait => c
  end.

(** emerge/swarm/config.go:444-490 WithSize. *)
Definition WithSize (n : Z) (c : GCfg) : GCfg :=
  let v := g_conv c in let th := g_thr c in let a := g_var c in let s := g_str c in let r := g_res c in
  let upd d := mkGStr (gs_iter s) d (gs_bonus s) (gs_window s) (gs_explore s) in
  let milli := Z.quot (gs_upd s) 1000000 in
  if (n <=? 20)%Z then
    mkGC (mkGConv (nlit 2 100) (nlit 2 100) (nlit 2 100) (gv_goal v) (gv_dist v) (gv_scale v)) th
      (mkGVar (nlit 5 100) (nlit 1 10) (ga_coh a) (ga_walk a) (ga_pert a) (ga_chance a))
      (upd (20 * 1000000)%Z) r
  else if (n <=? 50)%Z then
    mkGC (mkGConv (nlit 15 1000) (nlit 15 1000) (nlit 15 1000) (gv_goal v) (gv_dist v) (gv_scale v)) th
      (mkGVar (ga_min a * nlit 8 10) (ga_max a * nlit 9 10) (ga_coh a) (ga_walk a) (ga_pert a) (ga_chance a))
      (upd (minValueZ 50 milli * 1000000)%Z) r
  else if (n <=? 200)%Z then c
  else if (n <=? 1000)%Z then
    mkGC (mkGConv (gv_tolS v * nlit 15 10) (gv_tolM v * nlit 13 10) (gv_tolL v * nlit 12 10)
            (gv_goal v) (gv_dist v) (gv_scale v)) th
      (mkGVar (ga_min a * nlit 12 10) (ga_max a * nlit 13 10) (ga_coh a) (ga_walk a) (ga_pert a) (ga_chance a))
      (mkGStr (gs_iter s * nlit 15 10) (maxValueZ 150 milli * 1000000)%Z (gs_bonus s) (gs_window s) (gs_explore s)) r
  else
    mkGC (mkGConv (gv_tolS v * nofZ 2) (gv_tolM v * nlit 18 10) (gv_tolL v * nlit 15 10)
            (gv_goal v) (gv_dist v) (gv_scale v)) th
      (mkGVar (ga_min a * nlit 15 10) (ga_max a * nlit 18 10) (ga_coh a) (ga_walk a) (ga_pert a) (ga_chance a))
      (mkGStr (gs_iter s * nofZ 2) (maxValueZ 200 milli * 1000000)%Z (gs_bonus s) (gs_window s) (gs_explore s))
      (mkGRes (gr_noise r) (minValueF (nlit 5 100) (gr_aff r)) (gr_act r)).

(** x < 0 || x > 1. *)
Definition outside01 (x : T) : bool := ((x <? n0) || (n1 <? x))%bool.

(** emerge/swarm/config.go:509-517 validateConvergence. *)
Definition validateConvergence (c : GCfg) : bool :=
  if outside01 (gv_scale (g_conv c)) then false
  else if outside01 (gv_goal (g_conv c)) then false else true.
(** emerge/swarm/config.go:519-529 validateThresholds. *)
Definition validateThresholds (c : GCfg) : bool :=
  let t := g_thr c in
  if gt_mod t >? gt_high t then false else if gt_high t >? gt_very t then false else true.
(** emerge/swarm/config.go:531-543 validateVariation. *)
Definition validateVariation (c : GCfg) : bool :=
  let a := g_var c in
  if ((ga_min a <? n0) || (ga_max a <? n0))%bool then false
  else if ga_min a >? ga_max a then false
  else if outside01 (ga_chance a) then false else true.
(** emerge/swarm/config.go:545-553 validateStrategy. *)
Definition validateStrategy (c : GCfg) : bool :=
  if (gs_upd (g_str c) <=? 0)%Z then false else if (gs_window (g_str c) <=? 0)%Z then false else true.
(** emerge/swarm/config.go:555-563 validateResonance. *)
Definition validateResonance (c : GCfg) : bool :=
  if outside01 (gr_aff (g_res c)) then false else if outside01 (gr_act (g_res c)) then false else true.
(** emerge/swarm/config.go:493-507 Validate (true = nil). *)
Definition ValidateG (c : GCfg) : bool :=
  (validateConvergence c && validateThresholds c && validateVariation c && validateStrategy c && validateResonance c)%bool.
End GoalConfig.
Arguments GCfg : clear implicits.
Arguments GConv : clear implicits.
Arguments GThr : clear implicits.
Arguments GVar : clear implicits.
Arguments GStr : clear implicits.
Arguments GRes : clear implicits.
