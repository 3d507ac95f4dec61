(** Property theorems C07-C12, C14, C44 (agent attributes, actions, strategies, decisions,
    goal blending, token manager, random helpers). *)
From Coq Require Import ZArith Reals Psatz Bool List String.
From Flocq Require Import Core.Core IEEE754.BinarySingleNaN.
From Verif Require Import Num GoBase F64 RealNum S_Circle S_Agent M_Core M_Random M_Resource M_Strategy M_Agent
  L_F64 L_PhaseF L_F64x L_State L_Circle L_Pattern L_Random L_Token L_Agent L_Strategy.
Import ListNotations.
Open Scope R_scope.

(* ------------------------------------------------------------------ C07 *)

(** Any constructor options followed by any calls, all with finite arguments. *)
Theorem C07_invariant : forall (tr : Trig) id b1 b2 b3 (opts calls : list (AgentOp F)),
  Forall (arg_fin tr) opts -> Forall (arg_fin tr) calls ->
  attrs_ok (@agentRun F (FNum tr)
    (@NewAgent F (FNum tr) id b1 b2 b3 (map (fun o a => @agentStep F (FNum tr) a o) opts)) calls).
Proof.
  intros tr id b1 b2 b3 opts calls Ho Hc. apply run_attrs; auto.
  unfold NewAgent.
  assert (G : forall l a, fold_left (fun a f => f a) (map (fun o a => @agentStep F (FNum tr) a o) l) a
                          = @agentRun F (FNum tr) a l).
  { induction l as [|o l IH]; intros a; [reflexivity|]. cbn [map fold_left]. rewrite IH. reflexivity. }
  rewrite G.
  pose proof (run_attrs tr opts _ (new_attrs_ok tr id b1 b2 b3) Ho) as [P Gl E I S].
  constructor; assumption.
Qed.
Print Assumptions C07_invariant.

(** What a setter changes, in exact arithmetic: its own attribute, to the clamped or wrapped
    argument, and nothing else. *)
Theorem C07_setter_effect : forall (a : Agent R) (x : R) (f : Z),
  let st := fun o => @agentStep R RNum a o in
  (cong (sd_phase (ag_sd (st (OSetPhase x)))) x /\
     st (OSetPhase x) = upd_sd (fun s => mkSD (sd_phase (ag_sd (st (OSetPhase x)))) (sd_energy s) (sd_goal s) (sd_freq s)) a) /\
  (cong (sd_goal (ag_sd (st (OSetLocalGoal x)))) x /\
     st (OSetLocalGoal x) = upd_sd (fun s => mkSD (sd_phase s) (sd_energy s) (sd_goal (ag_sd (st (OSetLocalGoal x)))) (sd_freq s)) a) /\
  st (OSetEnergy x) = upd_sd (fun s => mkSD (sd_phase s) (Rmax 0 x) (sd_goal s) (sd_freq s)) a /\
  st (OSetFrequency f) = upd_sd (fun s => mkSD (sd_phase s) (sd_energy s) (sd_goal s) f) a /\
  st (OSetInfluence x) = upd_bd (fun b => mkBD (Rmax 0 (Rmin 1 x)) (bd_stub b)) a /\
  st (OSetStubbornness x) = upd_bd (fun b => mkBD (bd_infl b) (Rmax 0 (Rmin 1 x))) a.
Proof.
  intros a x f. cbv zeta.
  assert (C : @clamp01 R RNum x = Rmax 0 (Rmin 1 x)).
  { unfold clamp01. cbn -[Rmax Rmin Rlt_bool IZR].
    destruct (Rlt_bool_spec x 0); [rewrite Rmin_right, Rmax_left; lra|].
    destruct (Rlt_bool_spec 1 x); [rewrite Rmin_left, Rmax_right; lra|rewrite Rmin_right, Rmax_right; lra]. }
  split; [split; [apply RWrap_spec|reflexivity]|]. split; [split; [apply RWrap_spec|reflexivity]|].
  split; [reflexivity|]. split; [reflexivity|].
  rewrite <- C. split; reflexivity.
Qed.
Print Assumptions C07_setter_effect.

(** A fresh agent: energy and token capacity 100, influence 0.1, stubbornness 0.2, period a
    whole number of milliseconds in 100..149. *)
Theorem C07_new_defaults : forall (tr : Trig) id b1 b2 b3,
  let a := @NewAgent F (FNum tr) id b1 b2 b3 [] in
  ag_id a = id /\ sd_energy (ag_sd a) = fofZ 100 /\ ag_res a = Some (mkTM (fofZ 100) (fofZ 100)) /\
  bd_infl (ag_bd a) = flit 1 10 /\ bd_stub (ag_bd a) = flit 2 10 /\ ag_strat a = Some (SKNudge (flit 3 10)) /\
  exists k, (0 <= k < 50)%Z /\ sd_freq (ag_sd a) = ((100 + k) * 1000000)%Z.
Proof.
  intros tr id b1 b2 b3. cbv zeta. repeat (split; [reflexivity|]). exact (randFreq_range tr b3).
Qed.
Print Assumptions C07_new_defaults.

(** A resource manager other than the token manager can hand over a negative energy. *)
Theorem C07_custom_resource_manager_refuted : forall (tr : Trig), exists (avail : F) (a : Agent F),
  is_finite avail = true /\ attrs_ok a /\
  flt (sd_energy (ag_sd (@WithCustomResources F avail a))) (fofZ 0) = true.
Proof.
  intros tr. exists (fofZ (-5)), (@NewAgent F (FNum tr) "x" 1 2 3 []).
  split; [vm_compute; reflexivity|]. split; [apply new_attrs_ok|vm_compute; reflexivity].
Qed.
Print Assumptions C07_custom_resource_manager_refuted.

(** NaN arguments are not repaired: the attribute becomes NaN. *)
Theorem C07_nan_refuted : forall tr (a : Agent F),
  sd_phase (ag_sd (@SetPhase F (FNum tr) fnan a)) = fnan /\
  sd_energy (ag_sd (@SetEnergy F (FNum tr) fnan a)) = fnan /\
  bd_infl (ag_bd (@SetInfluence F (FNum tr) fnan a)) = fnan.
Proof. intros tr a. repeat split. Qed.
Print Assumptions C07_nan_refuted.

Example C07_hyp : forall tr, Forall (arg_fin tr)
  [OSetPhase (fofZ (-9)); OSetEnergy (fofZ (-1)); OSetInfluence (fofZ 7);
   OApply (mkAction "pulse" (fofZ 100) (fofZ 1) (fofZ 0));
   OWithTokens (@tokRun F (FNum tr) (@NewTokenManager F (FNum tr) (fofZ 8)) [TReq (fofZ 3)])].
Proof.
  intros tr.
  assert (Fi : forall z, (Z.abs z <= 2 ^ 53)%Z -> is_finite (fofZ z) = true) by (intros; now apply fofZ_fin).
  apply Forall_cons; [apply Fi; lia|]. apply Forall_cons; [apply Fi; lia|]. apply Forall_cons; [apply Fi; lia|].
  apply Forall_cons; [split; apply Fi; cbn; lia|]. apply Forall_cons; [|constructor].
  exists (fofZ 8), [TReq (fofZ 3)]. split; [apply Fi; lia|]. split; [|reflexivity].
  apply Forall_cons; [apply Fi; lia|constructor].
Qed.

(* ------------------------------------------------------------------ C08 *)

Theorem C08_insufficient_iff : forall {T} (N : Num T) (a : Agent T) (act : Action T),
  snd (ApplyAction a act) = ErrInsufficientEnergy <->
  nlt (sd_energy (ag_sd a)) (ac_cost act) = true.
Proof. exact @apply_energy_err. Qed.
Print Assumptions C08_insufficient_iff.

Theorem C08_unknown_type_iff : forall {T} (N : Num T) (a : Agent T) (act : Action T),
  snd (ApplyAction a act) = ErrUnknownActionType <->
  nlt (sd_energy (ag_sd a)) (ac_cost act) = false /\
  ~ In (ac_type act) ["adjust_phase"; "phase_nudge"; "frequency_lock"; "energy_save"; "pulse";
                      "maintain"]%string.
Proof. exact @apply_type_err. Qed.
Print Assumptions C08_unknown_type_iff.

(** On an error nothing at all changes (the token manager included). *)
Theorem C08_error_unchanged : forall {T} (N : Num T) (a : Agent T) (act : Action T) r,
  snd (ApplyAction a act) = r -> (forall c, r <> ApplyOK c) -> fst (ApplyAction a act) = a.
Proof. exact @apply_err_unchanged. Qed.
Print Assumptions C08_error_unchanged.

Theorem C08_success_effect : forall {T} (N : Num T) (a : Agent T) (act : Action T) c,
  snd (ApplyAction a act) = ApplyOK c ->
  let s := ag_sd a in let s' := ag_sd (fst (ApplyAction a act)) in
  c = ac_cost act /\ sd_energy s' = nmax n0 (nsub (sd_energy s) (ac_cost act)) /\
  sd_goal s' = sd_goal s /\ sd_freq s' = sd_freq s /\
  ag_bd (fst (ApplyAction a act)) = ag_bd a /\ ag_ctx (fst (ApplyAction a act)) = ag_ctx a /\
  (ac_type act = "maintain"%string -> sd_phase s' = sd_phase s) /\
  (ac_type act <> "maintain"%string -> sd_phase s' = WrapPhase (nadd (sd_phase s) (ac_value act))).
Proof. exact @apply_ok. Qed.
Print Assumptions C08_success_effect.

(** Exact arithmetic: energy drops by exactly the billed cost, and over any history the bill
    plus what is left is the initial energy. *)
Theorem C08_energy_exact : forall (a : Agent R) (act : Action R),
  0 <= ac_cost act -> 0 <= sd_energy (ag_sd a) ->
  let r := @ApplyAction R RNum a act in
  sd_energy (ag_sd (fst r)) = sd_energy (ag_sd a) - (match snd r with ApplyOK c => c | _ => 0 end) /\
  0 <= sd_energy (ag_sd (fst r)).
Proof. exact Rapply_energy. Qed.
Print Assumptions C08_energy_exact.

Theorem C08_budget : forall (l : list (Action R)) (a : Agent R),
  0 <= sd_energy (ag_sd a) -> Forall (fun act => 0 <= ac_cost act) l ->
  let a' := fold_left (fun a act => fst (@ApplyAction R RNum a act)) l a in
  spent a l + sd_energy (ag_sd a') = sd_energy (ag_sd a) /\ 0 <= sd_energy (ag_sd a').
Proof. exact Rbudget. Qed.
Print Assumptions C08_budget.

(** Floats: one rounding, never above the old energy, never negative. *)
Theorem C08_energy_float : forall tr (a : Agent F) (act : Action F) c,
  is_finite (sd_energy (ag_sd a)) = true -> 0 <= B2R (sd_energy (ag_sd a)) ->
  is_finite (ac_cost act) = true -> 0 <= B2R (ac_cost act) ->
  snd (@ApplyAction F (FNum tr) a act) = ApplyOK c ->
  let e := B2R (sd_energy (ag_sd a)) in
  let e' := B2R (sd_energy (ag_sd (fst (@ApplyAction F (FNum tr) a act)))) in
  B2R (ac_cost act) <= e /\ e' = round radix2 (SpecFloat.fexp 53 1024) ZnearestE (e - B2R (ac_cost act)) /\
  0 <= e' <= e.
Proof.
  intros tr a act c Fe He Fc Hc Hok. cbv zeta.
  destruct (@apply_ok F (FNum tr) a act c Hok) as (_ & E & _). cbv zeta in E.
  assert (L : flt (sd_energy (ag_sd a)) (ac_cost act) = false).
  { destruct (flt _ _) eqn:L; auto. apply (@apply_energy_err F (FNum tr)) in L. congruence. }
  apply flt_false in L; auto using fin_nan. rewrite !ford_fin in L by auto.
  rewrite E. change (@nmax F (FNum tr)) with fmax. change (@n0 F (FNum tr)) with (fofZ 0).
  change (@nsub F (FNum tr)) with fsub.
  set (e := sd_energy (ag_sd a)) in *. set (k := ac_cost act) in *.
  destruct (fsub_ord e k Fe Fc) as [S1 S2].
  pose proof (B2R_lt_BIG e) as BB.
  assert (S3 : 0 <= rnd (B2R e - B2R k) <= B2R e).
  { split; [apply rnd_ge_0; lra|apply rnd_le_fmt; [apply fmt_B2R|lra]]. }
  rewrite sat_id in S2 by lra.
  destruct (fmax_cases (fofZ 0) (fsub e k) (fofZ_nan 0) S1) as [M1 M2].
  rewrite f0_ord, S2, Rmax_right in M2 by lra.
  assert (Fi : is_finite (fmax (fofZ 0) (fsub e k)) = true) by (apply ford_fin_inv; auto; lra).
  rewrite ford_fin in M2 by auto. rewrite M2. fold (rnd (B2R e - B2R k)). repeat split; lra.
Qed.
Print Assumptions C08_energy_float.

(** "The reported cost is what the resource manager granted" is false: the answer of Request
    is dropped.  New agent (100 tokens), SetEnergy(200), action of cost 150: 150 is reported,
    100 was granted. *)
Theorem C08_granted_refuted : forall (tr : Trig), exists (a : Agent F) (act : Action F) t,
  ag_res a = Some t /\ (exists c, snd (@ApplyAction F (FNum tr) a act) = ApplyOK c /\
    feq c (fofZ 150) = true) /\
  ag_res (fst (@ApplyAction F (FNum tr) a act)) = Some (fst (@Request F (FNum tr) t (ac_cost act))) /\
  feq (snd (@Request F (FNum tr) t (ac_cost act))) (fofZ 100) = true.
Proof.
  intros tr.
  exists (@SetEnergy F (FNum tr) (fofZ 200) (@NewAgent F (FNum tr) "x" 1 2 3 [])),
         (mkAction "maintain" (fofZ 0) (fofZ 150) (fofZ 0)), (@NewTokenManager F (FNum tr) (fofZ 100)).
  split; [reflexivity|]. split; [|split; [reflexivity|vm_compute; reflexivity]].
  exists (fofZ 150). split; [|vm_compute; reflexivity].
  rewrite apply_unfold. cbn [ac_cost ac_type].
  assert (flt (sd_energy (ag_sd (@SetEnergy F (FNum tr) (fofZ 200) (@NewAgent F (FNum tr) "x" 1 2 3 [])))) (fofZ 150) = false)
    as -> by (vm_compute; reflexivity).
  reflexivity.
Qed.
Print Assumptions C08_granted_refuted.

(** A NaN cost is accepted and destroys the energy; afterwards every cost is accepted. *)
Theorem C08_nan_cost_refuted : forall tr (a : Agent F) (v b k : F) (act : Action F),
  let a' := fst (@ApplyAction F (FNum tr) a (mkAction "maintain" v fnan b)) in
  snd (@ApplyAction F (FNum tr) a (mkAction "maintain" v fnan b)) = ApplyOK fnan /\
  (fisinf (sd_energy (ag_sd a)) = false -> sd_energy (ag_sd a') = fnan) /\
  (sd_energy (ag_sd a') = fnan -> snd (@ApplyAction F (FNum tr) a' act) <> ErrInsufficientEnergy).
Proof.
  intros tr a v b k act. cbv zeta.
  assert (L : flt (sd_energy (ag_sd a)) fnan = false) by apply flt_nan_false_r.
  split; [|split].
  - rewrite apply_unfold. cbn [ac_cost ac_type]. now rewrite L.
  - intros H. rewrite apply_unfold. cbn [ac_cost ac_type]. rewrite L. cbn [phaseAction String.eqb].
    change (fmax (fofZ 0) (fsub (sd_energy (ag_sd a)) fnan) = fnan). rewrite fsub_nan_r. reflexivity.
  - intros E H. apply (@apply_energy_err F (FNum tr)) in H. rewrite E in H.
    change (flt fnan (ac_cost act) = true) in H. rewrite flt_nan_false_l in H. discriminate.
Qed.
Print Assumptions C08_nan_cost_refuted.

Example C08_hyp : exists (a : Agent R) (l : list (Action R)),
  0 <= sd_energy (ag_sd a) /\ Forall (fun act => 0 <= ac_cost act) l /\ spent a l = 3.
Proof.
  exists (mkAgent "a" (mkSD 0 5 0 1) (mkBD 0 0) ctx0 0 0 true true None None),
    [mkAction "maintain" 0 3 0; mkAction "pulse" 1 4 0].
  repeat split.
  - cbn; lra.
  - repeat constructor; cbn; lra.
  - set (a := mkAgent _ _ _ _ _ _ _ _ _ _).
    assert (E1 : @ApplyAction R RNum a (mkAction "maintain" 0 3 0) =
                 (mkAgent "a" (mkSD 0 2 0 1) (mkBD 0 0) ctx0 0 0 true true None None, ApplyOK 3)).
    { unfold ApplyAction. cbn [ac_cost ac_type sd_energy ag_sd a].
      change (@nlt R RNum) with Rlt_bool. rewrite Rlt_bool_false by lra.
      unfold a. cbn -[IZR Rmax nmax]. unfold set_res, upd_sd, fSpend. cbn -[IZR Rmax]. do 3 f_equal. rewrite Rmax_right; lra. }
    cbn [spent]. rewrite E1. cbn [snd fst].
    unfold ApplyAction. cbn [ac_cost ac_type sd_energy ag_sd].
    change (@nlt R RNum) with Rlt_bool. rewrite Rlt_bool_true by lra. cbn [snd fst]. lra.
Qed.

(* ------------------------------------------------------------------ C09 *)

(** Exactly when an action is accepted, and which. *)
Theorem C09_accept_iff : forall {T} (N : Num T) strat dec r1 r2 nb (a : Agent T) g act,
  ProposeAdjustment strat dec r1 r2 nb a g = (act, true) <->
  nlt r1 (bd_stub (ag_bd a)) = false /\
  (let cur := mkState (sd_phase (ag_sd a)) (sd_freq (ag_sd a)) (localCoherence (sd_phase (ag_sd a)) nb) in
   let goal := mkState (sd_goal (ag_sd a)) (sd_freq (ag_sd a)) (st_coh g) in
   exists prop conf acc, strat cur goal (ag_ctx a) = (prop, conf) /\
     dec cur [prop; mkAction "maintain" n0 (nlit 1 10) (cx_stability (ag_ctx a))] = (act, acc) /\
     nlt (sd_energy (ag_sd a)) (ac_cost act) = false /\ nlt r2 (nmul conf acc) = true).
Proof.
  intros T N strat dec r1 r2 nb a g act. unfold ProposeAdjustment.
  destruct (nlt r1 _) eqn:E1; [split; [intros [=]|intros [[=] _]]|].
  cbv zeta. destruct (strat _ _ _) as [prop conf]. destruct (dec _ _) as [ch acc] eqn:E2.
  destruct (nlt (sd_energy (ag_sd a)) (ac_cost ch)) eqn:E3.
  { split; [intros [=]|]. intros (_ & p & c & k & H1 & H2 & H3 & _). injection H1 as <- <-.
    rewrite E2 in H2. injection H2 as <- <-. congruence. }
  destruct (nlt r2 _) eqn:E4; (split; [intros H|]).
  - injection H as <-. split; auto. exists prop, conf, acc. auto.
  - intros (_ & p & c & k & H1 & H2 & H3 & _). injection H1 as <- <-. rewrite E2 in H2.
    injection H2 as <- <-. reflexivity.
  - discriminate.
  - intros (_ & p & c & k & H1 & H2 & H3 & H4). injection H1 as <- <-. rewrite E2 in H2.
    injection H2 as <- <-. congruence.
Qed.
Print Assumptions C09_accept_iff.

Theorem C09_reject_maintain : forall {T} (N : Num T) strat dec r1 r2 nb (a : Agent T) g,
  snd (ProposeAdjustment strat dec r1 r2 nb a g) = false ->
  fst (ProposeAdjustment strat dec r1 r2 nb a g) = mkAction "maintain" n0 n0 n0.
Proof.
  intros T N strat dec r1 r2 nb a g. unfold ProposeAdjustment.
  destruct (nlt r1 _); [reflexivity|]. cbv zeta. destruct (strat _ _ _). destruct (dec _ _).
  destruct (nlt (sd_energy _) _); [reflexivity|]. destruct (nlt r2 _); [discriminate|reflexivity].
Qed.
Print Assumptions C09_reject_maintain.

(** An accepted action is affordable: applying it cannot fail for lack of energy. *)
Theorem C09_accepted_affordable : forall {T} (N : Num T) strat dec r1 r2 nb (a : Agent T) g act,
  ProposeAdjustment strat dec r1 r2 nb a g = (act, true) ->
  nlt (sd_energy (ag_sd a)) (ac_cost act) = false /\
  snd (ApplyAction a act) <> ErrInsufficientEnergy.
Proof.
  intros T N strat dec r1 r2 nb a g act H. apply C09_accept_iff in H.
  destruct H as (_ & p & c & k & _ & _ & H & _). split; auto. intros E. apply apply_energy_err in E. congruence.
Qed.
Print Assumptions C09_accepted_affordable.

(** Stubbornness 1 (with the library's own draw) and confidence 0 never accept. *)
Theorem C09_stubborn_never : forall (tr : Trig) strat dec b r2 nb (a : Agent F) g,
  is_finite (bd_stub (ag_bd a)) = true -> B2R (bd_stub (ag_bd a)) = 1 ->
  snd (@ProposeAdjustment F (FNum tr) strat dec (@Float64 F (FNum tr) b) r2 nb a g) = false.
Proof.
  intros tr strat dec b r2 nb a g Fs Hs. unfold ProposeAdjustment.
  destruct (Float64_unit tr b) as [A B].
  assert (@nlt F (FNum tr) (@Float64 F (FNum tr) b) (bd_stub (ag_bd a)) = true) as ->; [|reflexivity].
  apply flt_true. rewrite !ford_fin by auto. repeat split; auto using fin_nan; lra.
Qed.
Print Assumptions C09_stubborn_never.

Theorem C09_zero_confidence_never : forall (tr : Trig) strat dec r1 b nb (a : Agent F) g,
  (forall cur tgt cx, feq (snd (strat cur tgt cx)) (fofZ 0) = true) ->
  snd (@ProposeAdjustment F (FNum tr) strat dec r1 (@Float64 F (FNum tr) b) nb a g) = false.
Proof.
  intros tr strat dec r1 b nb a g H. unfold ProposeAdjustment.
  destruct (nlt r1 _); [reflexivity|]. cbv zeta.
  specialize (H (mkState (sd_phase (ag_sd a)) (sd_freq (ag_sd a)) (@localCoherence F (FNum tr) (sd_phase (ag_sd a)) nb))
                (mkState (sd_goal (ag_sd a)) (sd_freq (ag_sd a)) (st_coh g)) (ag_ctx a)).
  destruct (strat _ _ _) as [prop conf]. destruct (dec _ _) as [ch acc]. cbn [snd] in H.
  destruct (nlt (sd_energy _) _); [reflexivity|].
  assert (@nlt F (FNum tr) (@Float64 F (FNum tr) b) (fmul conf acc) = false) as E.
  { destruct (flt (@Float64 F (FNum tr) b) (fmul conf acc)) eqn:E; [|exact E]. exfalso.
    apply flt_true in E. destruct E as (_ & E1 & E2). destruct (Float64_unit tr b) as [A B].
    rewrite (ford_fin (@Float64 F (FNum tr) b)) in E2 by auto.
    assert (Z0 : exists s, conf = B754_zero s).
    { destruct conf as [s|s| |s m e Hb]; [eauto| | |]; [destruct s; discriminate H|discriminate H|].
      exfalso. apply feq_true in H. destruct H as (_ & _ & H). rewrite f0_ord in H. simpl in H.
      destruct s; simpl in H; [apply eq_0_F2R in H|apply eq_0_F2R in H]; discriminate H. }
    destruct Z0 as [s ->].
    assert (fisnan (fmul (B754_zero s) acc) = true \/ ford (fmul (B754_zero s) acc) = 0).
    { destruct acc as [s'|s'| |s' m e Hb]; auto. }
    destruct H0 as [H0|H0]; [congruence|lra]. }
  change (@nmul F (FNum tr)) with fmul. rewrite E. reflexivity.
Qed.
Print Assumptions C09_zero_confidence_never.

Example C09_hyp : forall (tr : Trig), exists (a : Agent F),
  bd_stub (ag_bd a) = fofZ 1 /\ a = @SetStubbornness F (FNum tr) (fofZ 3) (@NewAgent F (FNum tr) "x" 1 2 3 []).
Proof. intros tr. eexists. split; [|reflexivity]. reflexivity. Qed.

(* ------------------------------------------------------------------ C10 *)

(** The four strategies, in exact arithmetic.  [moved cur act] is the phase after applying. *)
Definition moved (cur : State R) (act : Action R) : R :=
  @WrapPhase R RNum (st_phase cur + ac_value act).

Theorem C10_phase_nudge : forall (rate : R) (cur tgt : State R) cx d, 0 <= rate <= 1 ->
  ~ pd_special (st_phase tgt) (st_phase cur) -> is_arc (st_phase tgt) (st_phase cur) d ->
  let r := @PhaseNudgePropose R RNum rate cur tgt cx in
  is_arc (st_phase tgt) (moved cur (fst r)) ((1 - rate) * d) /\
  ac_cost (fst r) = 2 * Rabs (ac_value (fst r)) /\ Rabs (ac_value (fst r)) = rate * d /\
  ac_benefit (fst r) = 3 / 2 * (1 - d / PI) /\
  ac_type (fst r) = "phase_nudge"%string /\ snd r = Rmax (1 / 2) (1 - cx_lc cx).
Proof.
  intros rate cur tgt cx d Hr N A. cbv zeta. destruct (RPD_spec _ _ N) as (T & C & A').
  pose proof (is_arc_unique _ _ _ _ A A') as ->.
  destruct (move_arc (st_phase cur) (st_phase tgt) _ rate N Hr A) as [M _].
  unfold PhaseNudgePropose, moved. cbn -[PhaseDifference WrapPhase IZR Rlt_bool Rle_bool Rmax Rmin].
  split; [exact M|]. split; [ring|]. split; [rewrite Rabs_mult, (Rabs_right rate) by lra; ring|].
  split; [replace (2 * PI / 2) with PI by field; field; apply PI_neq0|]. split; [reflexivity|].
  f_equal; lra.
Qed.
Print Assumptions C10_phase_nudge.

Theorem C10_frequency_lock : forall (rate : R) (cur tgt : State R) cx d, 0 <= rate <= 1 ->
  ~ pd_special (st_phase tgt) (st_phase cur) -> is_arc (st_phase tgt) (st_phase cur) d ->
  let r := @FrequencyLockPropose R RNum rate cur tgt cx in
  is_arc (st_phase tgt) (moved cur (fst r)) ((1 - rate) * d) /\
  ac_cost (fst r) = 3 * Rabs (ac_value (fst r)) /\ Rabs (ac_value (fst r)) = rate * d /\
  ac_benefit (fst r) = 2 * cx_lc cx /\
  ac_type (fst r) = "frequency_lock"%string /\ snd r = rate * cx_lc cx.
Proof.
  intros rate cur tgt cx d Hr N A. cbv zeta. destruct (RPD_spec _ _ N) as (T & C & A').
  pose proof (is_arc_unique _ _ _ _ A A') as ->.
  destruct (move_arc (st_phase cur) (st_phase tgt) _ rate N Hr A) as [M _].
  unfold FrequencyLockPropose, moved. cbn -[PhaseDifference WrapPhase IZR Rlt_bool Rle_bool Rmax Rmin].
  split; [exact M|]. split; [ring|]. split; [rewrite Rabs_mult, (Rabs_right rate) by lra; ring|].
  repeat split; ring.
Qed.
Print Assumptions C10_frequency_lock.

(** Energy-aware: a tenth of the way when the arc is at least 0.1, otherwise maintain. *)
Theorem C10_energy_aware : forall (cur tgt : State R) cx d,
  ~ pd_special (st_phase tgt) (st_phase cur) -> is_arc (st_phase tgt) (st_phase cur) d ->
  let r := @EnergyAwarePropose R RNum cur tgt cx in
  (1 / 10 <= d -> is_arc (st_phase tgt) (moved cur (fst r)) (9 / 10 * d) /\
     ac_cost (fst r) = Rmax (1 / 2) (Rabs (ac_value (fst r))) /\ Rabs (ac_value (fst r)) = d / 10 /\
     ac_benefit (fst r) = cx_progress cx / 2 /\
     ac_type (fst r) = "energy_save"%string /\ snd r = 3 / 10) /\
  (d < 1 / 10 -> fst r = mkAction "maintain" 0 (1 / 10) (cx_stability cx) /\ snd r = 1 / 2).
Proof.
  intros cur tgt cx d N A. cbv zeta. destruct (RPD_spec _ _ N) as (T & C & A').
  pose proof (is_arc_unique _ _ _ _ A A') as E.
  destruct (move_arc (st_phase cur) (st_phase tgt) _ (1 / 10) N ltac:(lra) A) as [M _].
  unfold EnergyAwarePropose, moved. cbn -[PhaseDifference WrapPhase IZR Rlt_bool Rle_bool Rmax Rmin]. rewrite E in *.
  split; intros H.
  - rewrite Rlt_bool_false by lra. cbn -[PhaseDifference WrapPhase IZR Rlt_bool Rle_bool Rmax Rmin]. 
    split; [replace (9 / 10) with (1 - 1 / 10) by lra; exact M|].
    split; [f_equal; lra|]. split; [rewrite Rabs_mult, (Rabs_right (1 / 10)) by lra; lra|].
    repeat split; lra.
  - rewrite Rlt_bool_true by lra. cbn -[IZR Rlt_bool Rle_bool Rmax Rmin WrapPhase]. split; [reflexivity|lra].
Qed.
Print Assumptions C10_energy_aware.

Theorem C10_pulse : forall (p : Pulse R) (now : Z) (cur tgt : State R) cx d, 0 <= pu_amp p <= 1 ->
  ~ pd_special (st_phase tgt) (st_phase cur) -> is_arc (st_phase tgt) (st_phase cur) d ->
  let r := snd (@PulsePropose R RNum p now cur tgt cx) in
  ((pu_period p <= now - pu_last p)%Z ->
     is_arc (st_phase tgt) (moved cur (fst r)) ((1 - pu_amp p) * d) /\
     ac_cost (fst r) = 4 * Rabs (ac_value (fst r)) /\ Rabs (ac_value (fst r)) = pu_amp p * d /\
     ac_benefit (fst r) = 2 /\ ac_type (fst r) = "pulse"%string /\ snd r = pu_amp p) /\
  ((now - pu_last p < pu_period p)%Z ->
     fst r = mkAction "maintain" 0 (1 / 10) (cx_stability cx * (5 / 10)) /\ snd r = 3 / 10).
Proof.
  intros p now cur tgt cx d Hr N A. cbv zeta. destruct (RPD_spec _ _ N) as (T & C & A').
  pose proof (is_arc_unique _ _ _ _ A A') as ->.
  destruct (move_arc (st_phase cur) (st_phase tgt) _ (pu_amp p) N Hr A) as [M _].
  unfold PulsePropose, moved. destruct (Z.ltb_spec (now - pu_last p) (pu_period p)); split; intros H'; try lia.
  - cbn -[IZR Rlt_bool Rle_bool Rmax Rmin WrapPhase]. split; reflexivity.
  - cbn -[PhaseDifference WrapPhase IZR Rlt_bool Rle_bool Rmax Rmin].
    split; [exact M|]. split; [ring|]. split; [rewrite Rabs_mult, (Rabs_right (pu_amp p)) by lra; ring|].
    repeat split.
Qed.
Print Assumptions C10_pulse.

(** Confidences are in [0,1]; every proposed type is one ApplyAction supports. *)
Theorem C10_confidence_and_type : forall (rate : R) (p : Pulse R) now (cur tgt : State R) (cx : Context R),
  0 <= rate <= 1 -> 0 <= cx_lc cx <= 1 -> 0 <= pu_amp p <= 1 ->
  forall r, In r [@PhaseNudgePropose R RNum rate cur tgt cx; @FrequencyLockPropose R RNum rate cur tgt cx;
                  @EnergyAwarePropose R RNum cur tgt cx; snd (@PulsePropose R RNum p now cur tgt cx)] ->
  0 <= snd r <= 1 /\
  In (ac_type (fst r)) ["phase_nudge"; "frequency_lock"; "energy_save"; "pulse"; "maintain"]%string.
Proof.
  intros rate p now cur tgt cx Hr Hl Hp r [<-|[<-|[<-|[<-|[]]]]].
  - unfold PhaseNudgePropose. cbn -[PhaseDifference IZR Rlt_bool Rle_bool Rmax Rmin]. split; [|auto].
    split; [apply Rle_trans with (5 / 10); [lra|apply Rmax_l]|apply Rmax_lub; lra].
  - unfold FrequencyLockPropose. cbn -[PhaseDifference IZR Rlt_bool Rle_bool Rmax Rmin]. split; [nra|auto].
  - unfold EnergyAwarePropose. cbn -[PhaseDifference IZR Rlt_bool Rle_bool Rmax Rmin]. destruct (Rlt_bool _ _); cbn; split; auto 6; lra.
  - unfold PulsePropose. destruct (_ <? _)%Z; cbn -[PhaseDifference IZR Rlt_bool Rle_bool Rmax Rmin]; split; auto 6; lra.
Qed.
Print Assumptions C10_confidence_and_type.

(** The constructors clamp rates into [0,1] for every non-NaN float. *)
Theorem C10_rates_clamped : forall tr (x : F), fisnan x = false ->
  in_unit (@NewPhaseNudge F (FNum tr) x) /\ in_unit (@NewFrequencyLock F (FNum tr) x) /\
  forall per now, in_unit (pu_amp (@NewPulse F (FNum tr) per x now)).
Proof.
  intros tr x N.
  assert (G : in_unit (fmax (fofZ 0) (fmin (fofZ 1) x))).
  { destruct (fmin_cases (fofZ 1) x (fofZ_nan 1) N) as [A B].
    destruct (fmax_cases (fofZ 0) _ (fofZ_nan 0) A) as [C D]. rewrite B, f0_ord, f1_ord in D.
    assert (0 <= Rmax 0 (Rmin 1 (ford x)) <= 1).
    { split; [apply Rmax_l|apply Rmax_lub; [lra|apply Rmin_l]]. }
    pose proof BIG_ge_1000.
    assert (Fi : is_finite (fmax (fofZ 0) (fmin (fofZ 1) x)) = true) by (apply ford_fin_inv; auto; lra).
    split; auto. rewrite ford_fin in D by auto. rewrite D. lra. }
  split; [exact G|]. split; [exact G|]. intros per now. exact G.
Qed.
Print Assumptions C10_rates_clamped.

(** "Always moves toward the target" is false next to the special-cased phase pair. *)
Theorem C10_toward_target_refuted : forall rate cx, 0 < rate <= 1 ->
  exists (cur tgt : State R) d d', is_arc (st_phase tgt) (st_phase cur) d /\
    is_arc (st_phase tgt) (moved cur (fst (@PhaseNudgePropose R RNum rate cur tgt cx))) d' /\ d < d'.
Proof.
  intros rate cx Hr. exists (mkState (3 * PI / 2) 1 0), (mkState 0 1 0), (PI / 2), ((1 + rate) * (PI / 2)).
  destruct (move_arc_window rate Hr) as [A B]. split; [exact A|]. split; [exact B|].
  pose proof PI_RGT_0. nra.
Qed.
Print Assumptions C10_toward_target_refuted.

(** Adaptive: whatever the selector returns, an existing strategy is used (index 0 when the
    selector is out of range). *)
Theorem C10_adaptive_in_range : forall {T} (N : Num T) {S} (ss : list S) (sel : Context T -> Z) cx,
  exists d s, AdaptivePropose ss (Some sel) cx = Some (d, s) /\
    match ss with
    | [] => d = DMaintain (nlit 5 10) /\ s = None
    | s0 :: _ => exists i, d = DStrategy i /\ (i < List.length ss)%nat /\ s = nth_error ss i /\
        (if ((0 <=? sel cx) && (sel cx <? Z.of_nat (List.length ss)))%Z
         then Z.of_nat i = sel cx else i = 0%nat)
    end.
Proof. exact @adaptive_total. Qed.
Print Assumptions C10_adaptive_in_range.

Theorem C10_adaptive_default : forall {T} (N : Num T) len (cx : Context T), (0 < len)%Z ->
  (0 <= defaultSelector len cx < len)%Z.
Proof. exact @default_selector_range. Qed.
Print Assumptions C10_adaptive_default.

(** WithSelector(nil) followed by Propose panics (nil function call). *)
Theorem C10_adaptive_nil_selector_refuted : forall {T} (N : Num T) {S} (s : S) ss (cx : Context T),
  AdaptivePropose (s :: ss) None cx = None.
Proof. reflexivity. Qed.
Print Assumptions C10_adaptive_nil_selector_refuted.

(** Pulses are at least one period apart, the first one at least a period after creation. *)
Theorem C10_pulse_spacing : forall {T} (N : Num T) period amp now (l : list (@call T)),
  spaced period (now :: pulses (NewPulse period amp now) l).
Proof. intros T N period amp now l. exact (pulses_spaced l (NewPulse period amp now)). Qed.
Print Assumptions C10_pulse_spacing.

Example C10_hyp : ~ pd_special 1 2 /\ is_arc 1 2 1 /\
  pulses (@NewPulse R RNum 10 1 0) [(5%Z, (mkState 0 1 0, mkState 0 1 0, ctx0));
    (12%Z, (mkState 0 1 0, mkState 0 1 0, ctx0)); (20%Z, (mkState 0 1 0, mkState 0 1 0, ctx0))] = [12%Z].
Proof.
  split; [unfold pd_special; rewrite (Rabs_right 1), (Rabs_right 2) by lra; lra|].
  split; [|reflexivity]. pose proof PI_gt3.
  assert (E : 1 = Rabs (-1)) by (rewrite Rabs_left; lra).
  cut (is_arc 1 2 (Rabs (-1))); [rewrite <- E; auto|].
  apply is_arc_of_rep; [lra|]. exists 0%Z. simpl. lra.
Qed.

(* ------------------------------------------------------------------ C11 *)

(** [score] is benefit/max(cost,0.1).  Either some score exceeds -MaxFloat64 and the result is
    the first option of maximal score (NaN scores count as smaller), or none does and the
    result is the first option. *)
Theorem C11_best_option : forall tr s (opts : list (Action F)), opts <> [] ->
  let c := fst (@Decide F (FNum tr) s opts) in
  let sc := fun a : Action F => fdiv (ac_benefit a) (fmax (ac_cost a) (flit 1 10)) in
  (hd_error opts = Some c /\ forall a, In a opts -> flt (fneg fmaxfloat) (sc a) = false) \/
  (exists l1 l2, opts = l1 ++ c :: l2 /\ flt (fneg fmaxfloat) (sc c) = true /\
     (forall a, In a l1 -> fle (sc c) (sc a) = false) /\
     (forall a, In a l2 -> flt (sc c) (sc a) = false)).
Proof. intros tr s opts H. exact (decide_best tr s opts H). Qed.
Print Assumptions C11_best_option.

(** The confidence is in [0,1] for all floats, NaN and infinities included. *)
Theorem C11_confidence : forall tr s (opts : list (Action F)), opts <> [] ->
  in_unit (snd (@Decide F (FNum tr) s opts)).
Proof. exact decide_confidence. Qed.
Print Assumptions C11_confidence.

(** ... and equals the best score halved, clamped. *)
Theorem C11_confidence_value : forall tr s (opts : list (Action F)) c conf, opts <> [] ->
  (forall a, In a opts -> is_finite (ac_benefit a) = true /\ 0 <= B2R (ac_benefit a) /\
                          is_finite (ac_cost a) = true) ->
  @Decide F (FNum tr) s opts = (c, conf) ->
  conf = fmin (fmax (fdiv (fdiv (ac_benefit c) (fmax (ac_cost c) (flit 1 10))) (fofZ 2)) (fofZ 0)) (fofZ 1).
Proof.
  intros tr s opts c conf Hne Hall HD. rewrite Decide_F in HD. destruct opts as [|a0 r]; [easy|].
  cbv zeta in HD.
  destruct (decide_fold tr (a0 :: r) (a0, fminf) fminf_nan) as [[R E]|(l1 & c' & l2 & R1 & R & E & E1 & E2)];
    rewrite R in HD; cbn [fst snd] in HD; injection HD as <- <-.
  2: reflexivity.
  exfalso. specialize (E a0 (or_introl eq_refl)). cbn [snd] in E.
  destruct (Hall a0 (or_introl eq_refl)) as (B1 & B2 & B3).
  assert (L : is_finite (flit 1 10) = true /\ 0 < B2R (flit 1 10)).
  { assert (H : B2SF (flit 1 10) = SpecFloat.S754_finite false 7205759403792794 (-56)) by (vm_compute; reflexivity).
    apply B2R_of_B2SF in H. destruct H as [H1 H2]. split; auto. rewrite H2. apply F2R_gt_0. simpl. lia. }
  destruct L as [L1 L2].
  destruct (fmax_cases (ac_cost a0) (flit 1 10) (fin_nan _ B3) (fin_nan _ L1)) as [M1 M2].
  rewrite (ford_fin (ac_cost a0)), (ford_fin (flit 1 10)) in M2 by auto.
  pose proof (B2R_lt_BIG (ac_cost a0)). pose proof (B2R_lt_BIG (flit 1 10)).
  assert (M3 : 0 < Rmax (B2R (ac_cost a0)) (B2R (flit 1 10)) < BIG).
  { split; [apply Rlt_le_trans with (2 := Rmax_r _ _); auto|apply Rmax_lub_lt; lra]. }
  assert (M4 : is_finite (fmax (ac_cost a0) (flit 1 10)) = true) by (apply ford_fin_inv; auto; lra).
  rewrite ford_fin in M2 by auto.
  destruct (fdiv_ord (ac_benefit a0) _ B1 M4 ltac:(lra)) as [D1 D2].
  change (@score F (FNum tr) a0) with (fdiv (ac_benefit a0) (fmax (ac_cost a0) (flit 1 10))) in E.
  apply flt_false in E; auto using fminf_nan.
  assert (0 <= ford (fdiv (ac_benefit a0) (fmax (ac_cost a0) (flit 1 10)))).
  { rewrite D2. apply sat_ge_0, rnd_ge_0. rewrite M2. apply Rmult_le_pos; auto.
    left. apply Rinv_0_lt_compat. lra. }
  assert (ford fminf < 0).
  { assert (H' : flt fminf (fofZ 0) = true) by (vm_compute; reflexivity). apply flt_true in H'.
    rewrite f0_ord in H'. tauto. }
  lra.
Qed.
Print Assumptions C11_confidence_value.

Theorem C11_no_options : forall {T} (N : Num T) s,
  @Decide T N s [] = (mkAction "maintain" n0 n0 n0, st_coh s).
Proof. reflexivity. Qed.
Print Assumptions C11_no_options.

(** Maximality fails only at the extreme: benefits -Inf and -MaxFloat64. *)
Theorem C11_maximal_refuted : forall tr s, exists a b : Action F,
  let sc := fun a : Action F => fdiv (ac_benefit a) (fmax (ac_cost a) (flit 1 10)) in
  flt (sc a) (sc b) = true /\ fst (@Decide F (FNum tr) s [a; b]) = a.
Proof.
  intros tr s. exists (mkAction "a" (fofZ 0) (fofZ 1) fninf), (mkAction "b" (fofZ 0) (fofZ 1) (fneg fmaxfloat)).
  cbv zeta. split; [vm_compute; reflexivity|]. rewrite Decide_F. cbv zeta. cbn [fold_left]. rewrite !decideStep_F. cbn [snd].
  assert (flt fminf (@score F (FNum tr) (mkAction "a" (fofZ 0) (fofZ 1) fninf)) = false) as -> by (vm_compute; reflexivity).
  cbn [snd].
  assert (flt fminf (@score F (FNum tr) (mkAction "b" (fofZ 0) (fofZ 1) (fneg fmaxfloat))) = false) as -> by (vm_compute; reflexivity).
  reflexivity.
Qed.
Print Assumptions C11_maximal_refuted.

Example C11_hyp : forall tr s, exists a b c : Action F,
  fst (@Decide F (FNum tr) s [a; b; c]) = b /\ ac_benefit b = fofZ 4.
Proof.
  intros tr s. exists (mkAction "a" (fofZ 0) (fofZ 1) fnan), (mkAction "b" (fofZ 0) (fofZ 2) (fofZ 4)),
    (mkAction "c" (fofZ 0) (fofZ 1) (fofZ 2)). split; [|reflexivity].
  rewrite Decide_F. cbv zeta. cbn [fold_left]. rewrite !decideStep_F. cbn [snd].
  assert (flt fminf (@score F (FNum tr) (mkAction "a" (fofZ 0) (fofZ 1) fnan)) = false) as -> by (vm_compute; reflexivity).
  cbn [snd].
  assert (flt fminf (@score F (FNum tr) (mkAction "b" (fofZ 0) (fofZ 2) (fofZ 4))) = true) as -> by (vm_compute; reflexivity).
  cbn [snd].
  assert (flt (@score F (FNum tr) (mkAction "b" (fofZ 0) (fofZ 2) (fofZ 4)))
     (@score F (FNum tr) (mkAction "c" (fofZ 0) (fofZ 1) (fofZ 2))) = false) as -> by (vm_compute; reflexivity).
  reflexivity.
Qed.

(* ------------------------------------------------------------------ C12 *)

(** For every weight (clamped into [0,1]) the blended phase lies on the shortest arc from local
    to global at the given fraction; coherence is the convex combination. *)
Theorem C12_blend : forall (l g : State R) (w d : R), 0 <= w <= 1 ->
  ~ pd_special (st_phase g) (st_phase l) -> is_arc (st_phase g) (st_phase l) d ->
  let r := @Blend R RNum l g w in
  0 <= st_phase r < 2 * PI /\
  is_arc (st_phase g) (st_phase r) ((1 - w) * d) /\ is_arc (st_phase l) (st_phase r) (w * d) /\
  st_coh r = (1 - w) * st_coh l + w * st_coh g /\ st_freq r = st_freq l.
Proof.
  intros l g w d Hw N A. cbv zeta. rewrite Blend_unfold, (Rclampw_id w Hw). cbn [st_phase st_coh st_freq].
  destruct (move_arc (st_phase l) (st_phase g) d w N Hw A) as [M1 M2].
  split; [apply RWrap_spec|]. repeat split; auto; try apply M1; try apply M2. ring.
Qed.
Print Assumptions C12_blend.

(** Windows included: range, frequency and coherence. *)
Theorem C12_blend_all : forall (l g : State R) (w : R),
  let r := @Blend R RNum l g w in
  0 <= st_phase r < 2 * PI /\ st_freq r = st_freq l /\
  st_coh r = (1 - Rmax 0 (Rmin 1 w)) * st_coh l + Rmax 0 (Rmin 1 w) * st_coh g /\
  (w <= 0 -> cong (st_phase r) (st_phase l) /\ st_coh r = st_coh l).
Proof.
  intros l g w. cbv zeta. rewrite Blend_unfold. cbn [st_phase st_coh st_freq]. fold (Rclampw w).
  split; [apply RWrap_spec|]. split; [reflexivity|]. split; [ring|].
  intros H. assert (Rclampw w = 0) as ->. { unfold Rclampw. rewrite Rmin_right, Rmax_left; lra. }
  split; [|ring]. rewrite Rmult_0_r, Rplus_0_r. apply RWrap_spec.
Qed.
Print Assumptions C12_blend_all.

Theorem C12_blend_one : forall (l g : State R) (w : R), 1 <= w ->
  ~ pd_special (st_phase g) (st_phase l) ->
  let r := @Blend R RNum l g w in cong (st_phase r) (st_phase g) /\ st_coh r = st_coh g.
Proof.
  intros l g w Hw N. cbv zeta. rewrite Blend_unfold. cbn [st_phase st_coh].
  assert (Rclampw w = 1) as ->. { unfold Rclampw. rewrite Rmin_left, Rmax_right; lra. }
  split; [|ring]. rewrite Rmult_1_r. destruct (RPD_spec _ _ N) as (_ & C & _).
  eapply cong_trans; [apply RWrap_spec|exact C].
Qed.
Print Assumptions C12_blend_one.

(** In the special-cased window weight 1 does not reach the global phase. *)
Theorem C12_shortest_arc_refuted : exists l g : State R,
  ~ cong (st_phase (@Blend R RNum l g 1)) (st_phase g).
Proof.
  exists (mkState (3 * PI / 2) 1 0), (mkState 0 1 0). rewrite Blend_unfold. cbn [st_phase].
  rewrite (Rclampw_id 1) by lra. rewrite special_wrong_way, Rmult_1_r.
  pose proof PI_RGT_0 as HP.
  rewrite (RWrap_unique _ PI); [|lra|exists 0%Z; simpl; lra].
  intros [k Hk]. assert (E2 : 2 * IZR k = 1). { apply Rmult_eq_reg_r with PI; lra. }
  rewrite <- mult_IZR in E2. apply eq_IZR in E2. lia.
Qed.
Print Assumptions C12_shortest_arc_refuted.

Example C12_hyp : exists l g : State R, ~ pd_special (st_phase g) (st_phase l) /\
  is_arc (st_phase g) (st_phase l) 1.
Proof.
  exists (mkState 2 1 0), (mkState 1 1 0). cbn [st_phase]. destruct C10_hyp as (A & B & _). auto.
Qed.

(* ------------------------------------------------------------------ C14 *)

(** Any history of calls (hence any interleaving of mutex-protected callers) with non-NaN,
    possibly infinite, arguments on a manager of finite capacity. *)
Theorem C14_invariant : forall tr (m : F) (l : list (TokOp F)), is_finite m = true ->
  (forall a, In (TReq a) l \/ In (TRel a) l -> fisnan a = false) ->
  let t := @tokRun F (FNum tr) (@NewTokenManager F (FNum tr) m) l in
  is_finite (tm_tokens t) = true /\ is_finite (tm_max t) = true /\
  B2R (tm_max t) = Rmax 0 (B2R m) /\ 0 <= B2R (tm_tokens t) <= B2R (tm_max t).
Proof.
  intros tr m l Hm Hl. cbv zeta. destruct (new_ok tr m Hm) as (A & B & C).
  destruct (run_ok tr l _ A) as [D E].
  { intros [a|a] Ho; apply Hl; auto. }
  destruct D as (D1 & D2 & D3). rewrite E in *. rewrite ford_fin in B by apply A. auto.
Qed.
Print Assumptions C14_invariant.

(** One request: grants min(x, available), nothing for x <= 0; the pool drops by the grant. *)
Theorem C14_request : forall tr (t : TokenManager F) (a : F),
  is_finite (tm_max t) = true -> is_finite (tm_tokens t) = true ->
  0 <= B2R (tm_tokens t) <= B2R (tm_max t) -> is_finite a = true ->
  let g := snd (@Request F (FNum tr) t a) in let t' := fst (@Request F (FNum tr) t a) in
  B2R g = Rmax 0 (Rmin (B2R a) (B2R (tm_tokens t))) /\
  B2R (tm_tokens t') = round radix2 (SpecFloat.fexp 53 1024) ZnearestE (B2R (tm_tokens t) - B2R g) /\
  tm_max t' = tm_max t /\ 0 <= B2R (tm_tokens t') <= B2R (tm_tokens t).
Proof.
  intros tr t a M K Rg Fa. cbv zeta.
  destruct (req_ok tr t a (conj M (conj K Rg)) (fin_nan _ Fa)) as (A & B & C & D & E & G).
  rewrite ford_fin in D, E by auto.
  assert (V : B2R (snd (@Request F (FNum tr) t a)) = Rmax 0 (Rmin (B2R a) (B2R (tm_tokens t)))).
  { destruct (Rle_or_lt (B2R a) 0) as [L|L].
    - destruct (D L) as [-> _]. rewrite Rmax_left; auto. pose proof (Rmin_l (B2R a) (B2R (tm_tokens t))). lra.
    - rewrite (E L). rewrite Rmax_right; auto. apply Rmin_glb; lra. }
  split; [exact V|]. split; [exact G|]. split; [exact B|]. rewrite G.
  assert (0 <= B2R (snd (@Request F (FNum tr) t a)) <= B2R (tm_tokens t)).
  { rewrite V. split; [apply Rmax_l|]. apply Rmax_lub; [lra|apply Rmin_r]. }
  fold (rnd (B2R (tm_tokens t) - B2R (snd (@Request F (FNum tr) t a)))).
  split; [apply rnd_ge_0; lra|apply rnd_le_fmt; [apply fmt_B2R|lra]].
Qed.
Print Assumptions C14_request.

Theorem C14_release : forall tr (t : TokenManager F) (a : F),
  is_finite (tm_max t) = true -> is_finite (tm_tokens t) = true ->
  0 <= B2R (tm_tokens t) <= B2R (tm_max t) -> is_finite a = true ->
  let t' := @Release F (FNum tr) t a in
  (B2R a <= 0 -> t' = t) /\ tm_max t' = tm_max t /\ B2R (tm_tokens t) <= B2R (tm_tokens t') <= B2R (tm_max t) /\
  (0 < B2R a -> B2R (tm_tokens t) + B2R a <= B2R (tm_max t) ->
   B2R (tm_tokens t') = round radix2 (SpecFloat.fexp 53 1024) ZnearestE (B2R (tm_tokens t) + B2R a)) /\
  (B2R (tm_max t) <= B2R (tm_tokens t) + B2R a -> 0 < B2R a -> B2R (tm_tokens t') = B2R (tm_max t)).
Proof.
  intros tr t a M K Rg Fa. cbv zeta.
  destruct (rel_ok tr t a (conj M (conj K Rg)) (fin_nan _ Fa)) as (A & B & C & D).
  rewrite ford_fin in C, D by auto. split; [exact C|]. split; [exact B|].
  pose proof (B2R_lt_BIG (tm_max t)) as BB.
  assert (SB : forall x, fmt x -> - BIG < x < BIG -> sat x = x) by (intros; apply sat_id; lra).
  split; [|split].
  - destruct A as (_ & _ & A). rewrite B in A. split; [|apply A].
    destruct (Rle_or_lt (B2R a) 0) as [L|L]; [rewrite (C L); lra|]. rewrite (D L).
    apply Rmin_glb; [|lra]. rewrite <- (sat_id (B2R (tm_tokens t))) at 1 by lra.
    apply sat_le, rnd_ge_fmt; [apply fmt_B2R|lra].
  - intros L H. rewrite (D L).
    assert (Q : 0 <= rnd (B2R (tm_tokens t) + B2R a) <= B2R (tm_max t)).
    { split; [apply rnd_ge_0; lra|apply rnd_le_fmt; [apply fmt_B2R|lra]]. }
    rewrite sat_id by lra. rewrite Rmin_left by lra. reflexivity.
  - intros H L. rewrite (D L). apply Rmin_right.
    rewrite <- (sat_id (B2R (tm_max t))) at 1 by lra. apply sat_le, rnd_ge_fmt; [apply fmt_B2R|lra].
Qed.
Print Assumptions C14_release.

(** Exact arithmetic: granted minus returned equals the drop of the pool unless a release was
    capped, and is never more than the drop. *)
Theorem C14_conservation : forall (l : list (TokOp R)) (t : TokenManager R),
  0 <= tm_tokens t <= tm_max t ->
  let t' := @tokRun R RNum t l in
  (0 <= tm_tokens t' <= tm_max t' /\ tm_max t' = tm_max t) /\
  tm_tokens t - tm_tokens t' >= granted t l - returned l /\
  (~ capped t l -> tm_tokens t - tm_tokens t' = granted t l - returned l).
Proof. exact Rconserve. Qed.
Print Assumptions C14_conservation.

(** "Arbitrary float arguments" is false: Request(NaN) poisons the pool, and so does
    Request(+Inf) on a manager of infinite capacity. *)
Theorem C14_nan_refuted : forall tr,
  tm_tokens (fst (@Request F (FNum tr) (@NewTokenManager F (FNum tr) (fofZ 10)) fnan)) = fnan /\
  tm_tokens (fst (@Request F (FNum tr) (@NewTokenManager F (FNum tr) finf) finf)) = fnan.
Proof. intros tr. split; reflexivity. Qed.
Print Assumptions C14_nan_refuted.

Example C14_hyp : exists l : list (TokOp R),
  let t := @NewTokenManager R RNum 10 in ~ capped t l /\ granted t l = 7 /\ returned l = 2.
Proof.
  exists [TReq 7; TRel 2; TReq (-1)]. cbv zeta.
  assert (@NewTokenManager R RNum 10 = mkTM 10 10) as ->.
  { unfold NewTokenManager. cbn -[IZR Rlt_bool Rle_bool Rmax Rmin WrapPhase]. rewrite Rlt_bool_false by lra. reflexivity. }
  assert (E : @Request R RNum (mkTM 10 10) 7 = (mkTM (10 - 7) 10, 7)).
  { unfold Request. cbn -[IZR Rlt_bool Rle_bool Rmax Rmin WrapPhase]. rewrite !Rle_bool_false by lra. rewrite Rmin_left by lra. reflexivity. }
  assert (E2 : @Release R RNum (mkTM (10 - 7) 10) 2 = mkTM (10 - 7 + 2) 10).
  { unfold Release. cbn -[IZR Rlt_bool Rle_bool Rmax Rmin WrapPhase]. rewrite !Rle_bool_false by lra. rewrite Rmin_left by lra. reflexivity. }
  assert (E3 : @Request R RNum (mkTM (10 - 7 + 2) 10) (-1) = (mkTM (10 - 7 + 2) 10, 0)).
  { unfold Request. cbn -[IZR Rlt_bool Rle_bool Rmax Rmin WrapPhase]. rewrite Rle_bool_true by lra. reflexivity. }
  cbn [capped granted returned]. rewrite E. cbn [fst snd]. rewrite E2, E3. cbn [fst snd tm_tokens tm_max].
  repeat split; try lra. rewrite Rmax_right; lra.
Qed.

(* ------------------------------------------------------------------ C44 *)

(** Float64 delivers exactly u/2^53 for the low 53 bits u of the source: in [0,1), and every
    multiple of 2^-53 has the same number of sources (2^11 of the 2^64). *)
Theorem C44_float64 : forall tr (b : Z),
  is_finite (@Float64 F (FNum tr) b) = true /\
  B2R (@Float64 F (FNum tr) b) = IZR (b mod 2 ^ 53) / IZR (2 ^ 53) /\
  0 <= B2R (@Float64 F (FNum tr) b) < 1.
Proof. intros tr b. destruct (Float64_exact tr b). destruct (Float64_unit tr b). auto. Qed.
Print Assumptions C44_float64.

Theorem C44_float64_uniform : forall tr (u b : Z), (0 <= u < 2 ^ 53)%Z -> (0 <= b < 2 ^ 64)%Z ->
  (B2R (@Float64 F (FNum tr) b) = IZR u / IZR (2 ^ 53) <->
   exists j, (0 <= j < 2 ^ 11)%Z /\ b = (u + 2 ^ 53 * j)%Z).
Proof.
  intros tr u b Hu Hb. rewrite (proj2 (Float64_exact tr b)).
  assert (P : IZR (2 ^ 53) <> 0) by (apply IZR_neq; lia).
  pose proof (Z.div_mod b (2 ^ 53) ltac:(lia)) as E. split.
  - intros H. assert (H' : b mod 2 ^ 53 = u).
    { apply eq_IZR. apply Rmult_eq_reg_r with (/ IZR (2 ^ 53)); auto. now apply Rinv_neq_0_compat. }
    exists (b / 2 ^ 53)%Z. split; [|lia]. split; [apply Z.div_pos; lia|]. apply Z.div_lt_upper_bound; lia.
  - intros (j & Hj & ->). f_equal. f_equal. rewrite Z.mul_comm, Z.mod_add by lia. apply Z.mod_small. lia.
Qed.
Print Assumptions C44_float64_uniform.

(** Phase is at most 2*math.Pi minus one unit in the last place. *)
Theorem C44_phase : forall tr (b : Z),
  is_finite (@RandPhase F (FNum tr) b) = true /\
  0 <= B2R (@RandPhase F (FNum tr) b) <= B2R (fhalfpi 4) - bpow radix2 (-50).
Proof. intros tr b. fold f2pi. rewrite f2pi_val. apply RandPhase_spec. Qed.
Print Assumptions C44_phase.

Theorem C44_intn_range : forall n bs k, Intn n bs = IntnVal k -> (0 <= k < n)%Z.
Proof. exact intn_range. Qed.
Print Assumptions C44_intn_range.

Theorem C44_intn_panics_iff : forall n bs, Intn n bs = IntnPanic <-> (n <= 0 \/ n > 2 ^ 31 - 1)%Z.
Proof. exact intn_panic_iff. Qed.
Print Assumptions C44_intn_panics_iff.

(** Exact uniformity: each result k has exactly (2^31-1)/n accepted source values, namely
    k, k+n, k+2n, ... *)
Theorem C44_intn_uniform : forall n k v, (2 <= n <= 2 ^ 31 - 1)%Z -> (0 <= v < 2 ^ 31)%Z ->
  (Intn n [v] = IntnVal k <->
   (0 <= k < n)%Z /\ exists j, (0 <= j < (2 ^ 31 - 1) / n)%Z /\ v = (k + n * j)%Z).
Proof.
  intros n k v Hn Hv. rewrite <- (intn_preimage n k v); auto. unfold Intn.
  rewrite (proj2 (Z.leb_gt n 0)), (proj2 (Z.leb_gt n 1)) by lia.
  unfold maxInt31. rewrite (proj2 (Z.leb_le n (2 ^ 31 - 1))) by lia. tauto.
Qed.
Print Assumptions C44_intn_uniform.

(** A rejected source value only moves on to the next one; less than half are rejected. *)
Theorem C44_intn_retry : forall n v bs, (2 <= n <= 2 ^ 31 - 1)%Z -> (0 <= v < 2 ^ 31)%Z ->
  (Intn n [v] = IntnMore -> Intn n (v :: bs) = Intn n bs /\ (2 ^ 30 <= v)%Z) /\
  (forall k, Intn n [v] = IntnVal k -> Intn n (v :: bs) = IntnVal k).
Proof.
  intros n v bs Hn Hv. unfold Intn.
  rewrite (proj2 (Z.leb_gt n 0)), (proj2 (Z.leb_gt n 1)) by lia.
  assert (n <=? maxInt31 = true)%Z as -> by (apply Z.leb_le; unfold maxInt31; lia).
  cbn [intnLoop]. unfold Int31n. rewrite (Z.mod_small v) by lia.
  destruct (Z.ltb_spec v (intnLimit n)); split; try discriminate; auto.
  intros _. split; auto. pose proof (intn_limit_lt n Hn). lia.
Qed.
Print Assumptions C44_intn_retry.

(** The simulation's helper: in range, but it takes a plain remainder. *)
Theorem C44_secure_intn_range : forall n b, (0 < n)%Z -> (0 <= secureRandIntn n b < n)%Z.
Proof.
  intros n b Hn. unfold secureRandIntn. rewrite (proj2 (Z.leb_gt n 0)) by lia.
  destruct b as [u|].
  - set (m := if (n >? maxInt31)%Z then maxInt31 else n).
    assert (Hm : (0 < m <= n /\ m <= maxInt31)%Z).
    { unfold m, maxInt31. destruct (Z.gtb_spec n (2 ^ 31 - 1)); lia. }
    pose proof (Z.mod_pos_bound u m ltac:(lia)).
    destruct (Z.gtb_spec (u mod m) maxInt31); lia.
  - split; [apply Z.div_pos; lia|]. apply Z.div_lt_upper_bound; lia.
Qed.
Print Assumptions C44_secure_intn_range.

(** The float32 helper stays within [0,1] but can return exactly 1 (the 129 largest sources). *)
Lemma f32ofZ_spec z : (0 <= z <= 2 ^ 32)%Z ->
  is_finite (f32ofZ z) = true /\ B2R (f32ofZ z) = round radix2 (SpecFloat.fexp 24 128) ZnearestE (IZR z).
Proof.
  intros Hz. unfold f32ofZ.
  pose proof (binary_normalize_correct 24 128 _ _ mode_NE z 0 false) as H.
  assert (E : F2R (Float radix2 z 0) = IZR z) by (unfold F2R; simpl; ring). cbv zeta in H. rewrite E in H.
  assert (G : 0 <= round radix2 (SpecFloat.fexp 24 128) ZnearestE (IZR z) <= IZR (2 ^ 32)).
  { split.
    - apply round_ge_generic; [apply fexp_correct; reflexivity|apply valid_rnd_N|apply generic_format_0|apply IZR_le; lia].
    - apply round_le_generic; [apply fexp_correct; reflexivity|apply valid_rnd_N| |apply IZR_le; lia].
      change (IZR (2 ^ 32)) with (bpow radix2 32). apply generic_format_bpow. vm_compute. discriminate. }
  rewrite Rlt_bool_true in H; [split; apply H|].
  change (round radix2 (SpecFloat.fexp 24 128) (round_mode mode_NE) (IZR z)) with
    (round radix2 (SpecFloat.fexp 24 128) ZnearestE (IZR z)).
  rewrite Rabs_right by lra. eapply Rle_lt_trans; [apply G|].
  change (IZR (2 ^ 32)) with (bpow radix2 32). apply bpow_lt. lia.
Qed.

Theorem C44_secure_float32 : forall u, (0 <= u < 2 ^ 32)%Z ->
  is_finite (secureRandFloat32 (Some u)) = true /\ 0 <= B2R (secureRandFloat32 (Some u)) <= 1.
Proof.
  intros u Hu. unfold secureRandFloat32.
  destruct (f32ofZ_spec u ltac:(lia)) as [A1 A2]. destruct (f32ofZ_spec (2 ^ 32) ltac:(lia)) as [B1 B2].
  assert (Fm : generic_format radix2 (SpecFloat.fexp 24 128) (IZR (2 ^ 32))).
  { change (IZR (2 ^ 32)) with (bpow radix2 32). apply generic_format_bpow. vm_compute. discriminate. }
  rewrite round_generic in B2; [|apply valid_rnd_N|exact Fm].
  assert (G : 0 <= B2R (f32ofZ u) <= IZR (2 ^ 32)).
  { rewrite A2. split.
    - apply round_ge_generic; [apply fexp_correct; reflexivity|apply valid_rnd_N|apply generic_format_0|apply IZR_le; lia].
    - apply round_le_generic; [apply fexp_correct; reflexivity|apply valid_rnd_N|exact Fm|apply IZR_le; lia]. }
  assert (P : 0 < IZR (2 ^ 32)) by (apply IZR_lt; lia).
  assert (Q : 0 <= B2R (f32ofZ u) / IZR (2 ^ 32) <= 1).
  { split; [apply Rmult_le_pos; [lra|left; now apply Rinv_0_lt_compat]|].
    apply Rmult_le_reg_r with (IZR (2 ^ 32)); auto. field_simplify; lra. }
  pose proof (Bdiv_correct 24 128 _ _ mode_NE (f32ofZ u) (f32ofZ (2 ^ 32)) ltac:(rewrite B2; lra)) as H.
  rewrite B2 in H.
  assert (G' : 0 <= round radix2 (SpecFloat.fexp 24 128) (round_mode mode_NE) (B2R (f32ofZ u) / IZR (2 ^ 32)) <= 1).
  { split.
    - apply round_ge_generic; [apply fexp_correct; reflexivity|apply valid_rnd_N|apply generic_format_0|apply Q].
    - apply round_le_generic; [apply fexp_correct; reflexivity|apply valid_rnd_N| |apply Q].
      change 1 with (bpow radix2 0). apply generic_format_bpow. vm_compute. discriminate. }
  rewrite Rlt_bool_true in H.
  - destruct H as (H1 & H2 & _). rewrite H1. split; [|exact G']. now rewrite H2.
  - rewrite Rabs_right by lra. apply Rle_lt_trans with 1; [apply G'|]. change 1 with (bpow radix2 0). apply bpow_lt. lia.
Qed.
Print Assumptions C44_secure_float32.

Theorem C44_secure_float32_below_one_refuted : exists u, (0 <= u < 2 ^ 32)%Z /\
  Beqb (secureRandFloat32 (Some u)) (f32ofZ 1) = true.
Proof. exists (2 ^ 32 - 1)%Z. split; [lia|vm_compute; reflexivity]. Qed.
Print Assumptions C44_secure_float32_below_one_refuted.

(** Its plain remainder is biased: for n = 3 result 0 has one more source than result 1. *)
Theorem C44_secure_intn_uniform_refuted : 
  (forall u, (0 <= u < 2 ^ 64)%Z -> secureRandIntn 3 (Some u) = (u mod 3)%Z) /\ ((2 ^ 64) mod 3 = 1)%Z.
Proof.
  split; [|reflexivity]. intros u Hu. unfold secureRandIntn, maxInt31. cbn [Z.leb Z.gtb Z.compare].
  change (3 >? 2 ^ 31 - 1)%Z with false. cbv iota zeta.
  pose proof (Z.mod_pos_bound u 3 ltac:(lia)). destruct (Z.gtb_spec (u mod 3) (2 ^ 31 - 1)); lia.
Qed.
Print Assumptions C44_secure_intn_uniform_refuted.

Example C44_hyp : Intn 6 [2147483647%Z; 13%Z] = IntnVal 1 /\ Intn 6 [2147483647%Z] = IntnMore /\
  Intn 0 [] = IntnPanic.
Proof. repeat split. Qed.
