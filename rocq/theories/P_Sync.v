(** Property theorems C27 (synchronisation run). *)
From Coq Require Import ZArith Reals Psatz Bool List String Lia.
From Flocq Require Import Core.Core IEEE754.BinarySingleNaN.
From Verif Require Import Num F64 M_Core M_Agent M_AgentConfig M_Limits M_GoalConfig M_Swarm M_SwarmConfig M_ConvMonitor M_Monitor M_Sync
  L_F64 L_F64x L_Ford P_Limits S_Swarm P_Swarm S_Sync L_TrigZero.
Import ListNotations.
Open Scope Z_scope.

Lemma tick_inv {T} (e : Env T) : Tick e <> Cancel. Proof. discriminate. Qed.

(** Complete description of the loop, for any number semantics. *)
Lemma loop_spec {T} {N : Num T} cfg target maxIter evs : forall it s res k s', (it <= Z.max it maxIter) ->
  syncLoop cfg target maxIter it evs s = (res, k, s') ->
  exists es rest s1, evs = map Tick es ++ rest /\ rounds cfg target es s s1 /\
  match res with
  | SNil => exists e post, rest = Tick e :: post /\ round cfg target e s1 = Some (s', true) /\
              k = it + Z.of_nat (List.length es) + 1 /\ k <= maxIter
  | SCtx => exists post, rest = Cancel :: post /\ k = it + Z.of_nat (List.length es) /\ k < maxIter /\ s' = s1
  | SFail n => n = maxIter /\ k = it + Z.of_nat (List.length es) /\ k = Z.max it maxIter /\ s' = s1
  | SPanic => exists e post, rest = Tick e :: post /\ round cfg target e s1 = None /\
              k = it + Z.of_nat (List.length es) + 1 /\ k <= maxIter
  | SRunning => rest = [] /\ k = it + Z.of_nat (List.length es) /\ k < maxIter /\ s' = s1
  end.
Proof.
  induction evs as [|ev evs IH]; intros it s res k s' HM H; cbn [syncLoop] in H; destruct (Z.ltb_spec it maxIter) as [L|L].
  - injection H as <- <- <-. exists [], [], s. cbn. repeat split; auto; try constructor; lia.
  - injection H as <- <- <-. exists [], [], s. cbn. repeat split; auto; try constructor; lia.
  - destruct ev as [|e].
    + injection H as <- <- <-. exists [], (Cancel :: evs), s. cbn. split; auto. split; [constructor|]. exists evs. repeat split; auto; lia.
    + destruct (round cfg target e s) as [[s0 [|]]|] eqn:R.
      * injection H as <- <- <-. exists [], (Tick e :: evs), s. cbn. split; auto. split; [constructor|].
        exists e, evs. repeat split; auto; lia.
      * apply IH in H; [|lia]. destruct H as (es & rest & s1 & -> & Hr & M). exists (e :: es), rest, s1.
        split; auto. split; [econstructor; eauto|]. cbn [List.length]. rewrite Nat2Z.inj_succ.
        destruct res; [destruct M as (e' & post & ? & ? & ? & ?); exists e', post|destruct M as (post & ? & ? & ? & ?); exists post| |destruct M as (e' & post & ? & ? & ? & ?); exists e', post|]; intuition lia.
      * injection H as <- <- <-. exists [], (Tick e :: evs), s. cbn. split; auto. split; [constructor|].
        exists e, evs. repeat split; auto; lia.
  - injection H as <- <- <-. exists [], (ev :: evs), s. cbn. repeat split; auto; try constructor; lia.
Qed.

Section C27.
Variable tr : Trig.
Local Instance NF : Num F := FNum tr.
Local Notation lim := (@GetCoherenceLimits F (FNum tr)).

(** The measurement made by one round, as seen by the environment. *)
Definition measured (e : Env F) (s : SyncState F) : TargetPattern F :=
  measureSystemPattern (ev_view e 0 (ss_agents s)) (ev_view e 1 (ev_view e 0 (ss_agents s))).
Definition seen (e : Env F) (s : SyncState F) : list (Agent F) :=
  ev_view e 3 (ev_view e 2 (ev_view e 1 (ev_view e 0 (ss_agents s)))).

Lemma achieved_iff cfg target agents cur : isPatternAchieved cfg target agents cur = true <->
  success tr cfg (Z.of_nat (List.length agents)) target cur (MeasurePhaseConvergence agents (tp_phase target)).
Proof.
  unfold isPatternAchieved, success, within, near_limit, base_tolerance, tolerance. cbv zeta.
  change (@nle F NF) with fle. change (@nlt F NF) with flt. change (@nsub F NF) with fsub. change (@nmul F NF) with fmul.
  change (@nlit F NF) with flit. change (@nofZ F NF) with fofZ. change (FNum tr) with NF.
  destruct (fle (fmul _ _) (tp_coh target)) eqn:E1.
  all: destruct (fle (gt_high (g_thr cfg)) (tp_coh target)) eqn:E2; rewrite ?andb_true_iff; intuition congruence.
Qed.
Lemma round_true cfg target e s s' : round cfg target e s = Some (s', true) ->
  isPatternAchieved cfg target (seen e s) (measured e s) = true.
Proof.
  unfold round, seen, measured. cbv zeta. destruct (isPatternAchieved _ _ _ _); auto.
  intros H. exfalso. revert H.
  destruct (if ShouldSwitchStrategy _ then _ else _) as [[? ?]|]; [|discriminate].
  destruct (M_Engine.CompletePattern _ _ _); [|discriminate].
  destruct (MeasurePhaseVariance _ _); [|discriminate].
  destruct (if IsStuck _ then _ else _); discriminate.
Qed.
Lemma round_false cfg target e s s' : round cfg target e s = Some (s', false) ->
  isPatternAchieved cfg target (seen e s) (measured e s) = false.
Proof. unfold round, seen, measured. cbv zeta. destruct (isPatternAchieved _ _ _ _); auto. discriminate. Qed.

(** ** How a run ends.  [n] is the number of agents when the run starts. *)
Local Notation size s := (Z.of_nat (List.length (ss_agents s))).
Local Notation tgt s target := (adjustTarget (size s) target).
Local Notation bud cfg s target := (budget tr cfg (size s) (tp_coh (tgt s target))).

(** nil is returned only if the success criterion held at the last measurement, made in the last round. *)
Theorem C27_nil : forall cfg target evs s k s',
  AchieveSynchronization tr cfg target evs s = (SNil, k, s') ->
  exists es e post s1, evs = map Tick es ++ Tick e :: post /\ k = Z.of_nat (List.length es) + 1 /\
    rounds cfg (tgt s target) es (setMonTarget (tgt s target) s) s1 /\
    success tr cfg (Z.of_nat (List.length (seen e s1))) (tgt s target) (measured e s1)
      (MeasurePhaseConvergence (seen e s1) (tp_phase target)).
Proof.
  intros cfg target evs s k s' H. unfold AchieveSynchronization in H. cbv zeta in H.
  destruct (gs_upd (g_str cfg) <=? 0); [discriminate|].
  apply loop_spec in H; [|lia]. destruct H as (es & rest & s1 & -> & R & (e & post & -> & RT & -> & _)).
  exists es, e, post, s1. split; [auto|]. split; [lia|]. split; auto.
  apply round_true, achieved_iff in RT. 
  assert (P : tp_phase (tgt s target) = tp_phase target).
  { unfold adjustTarget. cbv zeta. destruct (nlt _ _); reflexivity. }
  now rewrite <- P.
Qed.

(** The context's error is returned only if the context was cancelled, before the budget was used up. *)
Theorem C27_cancel : forall cfg target evs s k s',
  AchieveSynchronization tr cfg target evs s = (SCtx, k, s') ->
  exists es post, evs = map Tick es ++ Cancel :: post /\ k = Z.of_nat (List.length es) /\ k < bud cfg s target.
Proof.
  intros cfg target evs s k s' H. unfold AchieveSynchronization in H. cbv zeta in H.
  destruct (gs_upd (g_str cfg) <=? 0); [discriminate|].
  apply loop_spec in H; [|lia]. destruct H as (es & rest & s1 & -> & R & (post & -> & -> & L & _)). eauto.
Qed.

(** Conversely a cancellation seen while rounds remain ends the run with the context's error. *)
Theorem C27_cancel_prompt : forall cfg target es post s s1, 0 < gs_upd (g_str cfg) ->
  rounds cfg (tgt s target) es (setMonTarget (tgt s target) s) s1 -> Z.of_nat (List.length es) < bud cfg s target ->
  AchieveSynchronization tr cfg target (map Tick es ++ Cancel :: post) s = (SCtx, Z.of_nat (List.length es), s1).
Proof.
  intros cfg target es post s s1 U R L. unfold AchieveSynchronization. cbv zeta.
  destruct (Z.leb_spec (gs_upd (g_str cfg)) 0) as [|_]; [lia|].
  set (b := bud cfg s target) in *. change (budget tr cfg (size s) (tp_coh (tgt s target))) with b.
  change (Z.of_nat (List.length es)) with (0 + Z.of_nat (List.length es)) in L |- *.
  change (@adjustTarget F (FNum tr) (size s) target) with (tgt s target).
  generalize (setMonTarget (tgt s target) s) as s00, R. clear R. intros s00 R.
  revert L. generalize 0 at 1 2 3. induction R as [s0|e es s0 s2 s3 RT R IH]; intros it L.
  - cbn [map app syncLoop List.length] in *. rewrite Z.add_0_r in *. destruct (Z.ltb_spec it b); [reflexivity|lia].
  - cbn [map app syncLoop List.length] in *. rewrite Nat2Z.inj_succ in *.
    destruct (Z.ltb_spec it b); [|lia]. fold NF. rewrite RT. specialize (IH (it + 1)).
    replace (it + Z.succ (Z.of_nat (List.length es))) with (it + 1 + Z.of_nat (List.length es)) by lia.
    apply IH. lia.
Qed.

(** Otherwise the run fails after exactly the budget of rounds, none of which met the success criterion. *)
Lemma rounds_unsuccessful cfg target es s s1 : rounds cfg target es s s1 ->
  forall pre e post, es = pre ++ e :: post -> exists s0, rounds cfg target pre s s0 /\
  ~ success tr cfg (Z.of_nat (List.length (seen e s0))) target (measured e s0) (MeasurePhaseConvergence (seen e s0) (tp_phase target)).
Proof.
  induction 1 as [s|e0 es s s0 s2 RT R IH]; intros pre e post E; [now destruct pre|].
  destruct pre as [|e1 pre].
  - injection E as -> ->. exists s. split; [constructor|]. apply round_false in RT. intros C. apply achieved_iff in C. congruence.
  - injection E as -> ->. destruct (IH pre e post eq_refl) as (s3 & R3 & C). exists s3. split; auto. econstructor; eauto.
Qed.
Theorem C27_fail : forall cfg target evs s n k s',
  AchieveSynchronization tr cfg target evs s = (SFail n, k, s') ->
  n = bud cfg s target /\ k = Z.max 0 n /\
  exists es post, evs = map Tick es ++ post /\ k = Z.of_nat (List.length es) /\
    rounds cfg (tgt s target) es (setMonTarget (tgt s target) s) s' /\
    forall pre e suf, es = pre ++ e :: suf -> exists s0, rounds cfg (tgt s target) pre (setMonTarget (tgt s target) s) s0 /\
      ~ success tr cfg (Z.of_nat (List.length (seen e s0))) (tgt s target) (measured e s0)
          (MeasurePhaseConvergence (seen e s0) (tp_phase (tgt s target))).
Proof.
  intros cfg target evs s n k s' H. unfold AchieveSynchronization in H. cbv zeta in H.
  destruct (gs_upd (g_str cfg) <=? 0); [discriminate|].
  apply loop_spec in H; [|lia]. destruct H as (es & rest & s1 & -> & R & -> & -> & M & ->).
  split; [reflexivity|]. split; [exact M|]. exists es, rest. split; [auto|]. split; [auto|]. split; auto.
  intros pre e suf E. eapply rounds_unsuccessful; eauto.
Qed.

(** At most 1000 measurement rounds, for every configuration; and 1000 ticks always suffice for an answer. *)
Theorem C27_rounds_bounded : forall cfg target evs s res k s',
  AchieveSynchronization tr cfg target evs s = (res, k, s') ->
  0 <= k <= 1000 /\ (1000 <= Z.of_nat (List.length evs) -> res <> SRunning).
Proof.
  intros cfg target evs s res k s' H. unfold AchieveSynchronization in H. cbv zeta in H.
  destruct (gs_upd (g_str cfg) <=? 0); [injection H as <- <- <-; split; [lia|discriminate]|].
  assert (B : bud cfg s target <= 1000) by (unfold budget; lia).
  fold NF in H. set (b := bud cfg s target) in *.
  apply loop_spec in H; [|lia]. destruct H as (es & rest & s1 & -> & R & M).
  rewrite app_length, map_length, Nat2Z.inj_add.
  destruct res.
  - destruct M as (e & post & -> & _ & -> & L). split; [lia|discriminate].
  - destruct M as (post & -> & -> & L & _). split; [lia|discriminate].
  - destruct M as (_ & -> & L & _). split; [lia|discriminate].
  - destruct M as (e & post & -> & _ & -> & L). split; [lia|discriminate].
  - destruct M as (-> & -> & L & _). split; [lia|]. cbn [List.length] in *. intros G _. lia.
Qed.

(** ** The round budget. *)
Lemma mul_trunc x z : (Z.abs z <= 8)%Z -> 1 <= z -> fle (fofZ 1) x = true -> fle x (fofZ (2 ^ 52)) = true ->
  1 <= ftrunc (fmul x (fofZ z)) .
Proof.
  intros Hz Hz1 A B.
  apply fle_true in A. apply fle_true in B. rewrite !ford_fofZ in * by lia. destruct A as (_ & NX & A). destruct B as (_ & _ & B).
  assert (BB : (IZR (2 ^ 60) < BIG)%R).
  { unfold BIG. change (IZR (2 ^ 60)) with (bpow radix2 60). apply bpow_lt. lia. }
  assert (LL : (IZR (2 ^ 52) < IZR (2 ^ 60))%R) by (apply IZR_lt; lia).
  assert (FX : is_finite x = true).
  { apply ford_fin_inv; auto. assert (1 <= IZR (2 ^ 52))%R by (apply IZR_le; lia). pose proof BIG_pos. lra. }
  rewrite ford_fin in A, B by auto.
  destruct (fofZ_fin z ltac:(lia)) as [FZ VZ].
  assert (Z1 : (1 <= IZR z <= 8)%R) by (split; apply IZR_le; lia).
  assert (P : (1 <= B2R x * IZR z <= IZR (2 ^ 55))%R).
  { split; [nra|]. change (2 ^ 55)%Z with (2 ^ 52 * 8)%Z. rewrite mult_IZR. apply Rmult_le_compat; lra. }
  assert (B55 : (IZR (2 ^ 55) <= bpow radix2 1023)%R) by (apply bpow1023_ge; lia).
  destruct (fmul_fin x (fofZ z)) as [FM VM]; auto.
  { rewrite VZ. rewrite Rabs_pos_eq by lra. lra. }
  rewrite VZ in VM.
  assert (R1 : (1 <= B2R (fmul x (fofZ z)))%R).
  { rewrite VM. apply rnd_ge_fmt; [apply (fmt_IZR 1); lia|lra]. }
  assert (R2 : (B2R (fmul x (fofZ z)) <= IZR (2 ^ 55))%R).
  { rewrite VM. apply rnd_le_fmt; [|lra]. change (IZR (2 ^ 55)) with (bpow radix2 55). rewrite <- F2R_bpow. apply fmt_F2R; lia. }
  assert (T1 : 1 <= Ztrunc (B2R (fmul x (fofZ z)))).
  { rewrite <- (Ztrunc_IZR 1). now apply Ztrunc_le. }
  assert (T2 : Ztrunc (B2R (fmul x (fofZ z))) <= 2 ^ 55).
  { rewrite <- (Ztrunc_IZR (2 ^ 55)). now apply Ztrunc_le. }
  rewrite ftrunc_spec; auto. lia.
Qed.

(** For an iteration factor of at least 1 (up to 2^52) the budget is positive exactly when the target coherence does not
    exceed the practical limit of the size. *)
Theorem C27_budget_iff : forall cfg n t, fle (fofZ 1) (gs_iter (g_str cfg)) = true ->
  fle (gs_iter (g_str cfg)) (fofZ (2 ^ 52)) = true ->
  (0 < budget tr cfg n t <-> flt (lim_prac (lim n)) t = false).
Proof.
  intros cfg n t A B. unfold budget. rewrite tf_unfold. destruct (flt (lim_prac (lim n)) t) eqn:E.
  - split; [|discriminate]. intros H. exfalso.
    assert (M : ftrunc (fmul (gs_iter (g_str cfg)) finf) <= 0).
    { destruct (gs_iter (g_str cfg)) as [s|[|]| |[|] m e Hb]; vm_compute; discriminate. }
    lia.
  - split; [auto|]. intros _. apply Z.min_glb_lt; [|lia]. 
    repeat match goal with |- context [if ?b then _ else _] => destruct b end;
    match goal with |- 0 < ftrunc (fmul _ (fofZ ?z)) => pose proof (mul_trunc (gs_iter (g_str cfg)) z ltac:(lia) ltac:(lia) A B) end; lia.
Qed.

(** The default configuration and the eight goal presets have such factors. *)
Lemma preset_factor : (forall g, fle (fofZ 1) (gs_iter (g_str (@For F NF g))) = true /\
    fle (gs_iter (g_str (@For F NF g))) (fofZ (2 ^ 52)) = true) /\
  fle (fofZ 1) (gs_iter (g_str (@defaultConfig F NF))) = true /\ fle (gs_iter (g_str (@defaultConfig F NF))) (fofZ (2 ^ 52)) = true.
Proof. split; [intros g; destruct g; split; vm_compute; reflexivity|split; vm_compute; reflexivity]. Qed.

Lemma theo_ge_prac n : 0 < n -> fle (lim_prac (lim n)) (lim_theo (lim n)) = true.
Proof. intros H. now destruct (C24_limits_ordered tr n H) as (_ & _ & ? & _). Qed.

(** Every swarm built by New (default options) has a positive round budget. *)
Theorem C27_budget_new : forall cpus size goal dr ro fl il s now st,
  New cpus size goal [] dr ro fl il = NewOK s -> startState now s = Some st ->
  0 < bud (syncConfig s) st (goalPattern (s_goal s)) <= 1000.
Proof.
  intros cpus size goal dr ro fl il s now st H S.
  assert (SG : 1 <= size <= 1000000 /\ goal_valid goal).
  { destruct (ok_dec tr size goal) as [|C]; auto. exfalso.
    apply (C19_error_iff tr cpus size goal dr ro fl il) in C. destruct C as [e E]. discriminate (eq_trans (eq_sym H) E). }
  pose proof (C19_result tr _ _ _ _ _ _ _ _ H) as ((m & EA & LEN & _) & _ & _ & FL & _).
  assert (GC : s_gcfg s = None).
  { destruct SG as [Sz G]. rewrite (new_shape tr) in H by auto. unfold wire in H.
    destruct (collectAgents _ _); [|discriminate]. destruct (M_Conn.establishConnections _ _ _ _); [|discriminate].
    injection H as <-. cbn. unfold filled. destruct (100 <? size); reflexivity. }
  unfold startState in S. fold NF in EA. rewrite EA in S. injection S as <-.
  cbn [ss_agents newSync]. rewrite map_length, LEN. unfold syncConfig. rewrite GC.
  assert (NC : flt (lim_prac (lim size)) (st_coh (s_goal s)) = false) by now apply fle_not_lt.
  assert (AT : adjustTarget size (goalPattern (s_goal s)) = goalPattern (s_goal s)).
  { unfold adjustTarget. cbv zeta. change (@nlt F NF) with flt. change (@GetCoherenceLimits F NF) with lim. cbn [goalPattern tp_coh].
    rewrite (fle_not_lt _ _ (fle_trans _ _ _ FL (theo_ge_prac size ltac:(lia)))). reflexivity. }
  rewrite AT. cbn [goalPattern tp_coh].
  split; [|unfold budget; lia]. apply C27_budget_iff; auto; apply preset_factor.
Qed.
(** The same for any goal preset and any goal that New accepted (its coherence is at most the practical limit). *)
Theorem C27_budget_preset : forall g n t, fle t (lim_prac (lim n)) = true -> 0 < budget tr (For g) n t <= 1000.
Proof.
  intros g n t H. split; [|unfold budget; lia]. apply C27_budget_iff; try apply preset_factor. now apply fle_not_lt.
Qed.

(** REFUTED in general: a configuration that passes Validate can have an iteration factor below 1 ... *)
Definition slowConfig : GCfg F :=
  let d := @defaultConfig F NF in
  mkGC (g_conv d) (g_thr d) (g_var d)
    (mkGStr (flit 5 10) (gs_upd (g_str d)) (gs_bonus (g_str d)) (gs_window (g_str d)) (gs_explore (g_str d))) (g_res d).
Theorem C27_budget_config_refuted : exists cfg, ValidateG cfg = true /\
  forall target evs s, flt (tp_coh target) (flit 1 10) = true -> (0 < List.length (ss_agents s))%nat ->
  exists s', AchieveSynchronization tr cfg target evs s = (SFail 0, 0, s').
Proof.
  exists slowConfig. split; [vm_compute; reflexivity|]. intros target evs s H L.
  unfold AchieveSynchronization. cbv zeta. change (gs_upd (g_str slowConfig) <=? 0) with false. cbv iota.
  assert (P : flt (tp_coh target) (lim_prac (lim (size s))) = true /\ flt (fdiv (tp_coh target) (lim_prac (lim (size s)))) (flit 8 10) = true
     /\ fle (lim_prac (lim (size s))) (fofZ 0) = false /\ flt (tp_coh target) (lim_theo (lim (size s))) = true).
  { assert (Q : fle (flit 2 10) (lim_prac (lim (size s))) = true /\ fle (flit 2 10) (lim_theo (lim (size s))) = true).
    { unfold GetCoherenceLimits. repeat match goal with |- context [if ?b then _ else _] => destruct b eqn:? end; cbn [lim_prac lim_theo]; split; vm_compute; try reflexivity.
      all: exfalso; rewrite ?Z.leb_le, ?Z.leb_gt, ?Z.ltb_lt, ?Z.eqb_eq in *; lia. }
    destruct Q as [Q1 Q2].
    assert (H2 : flt (tp_coh target) (flit 2 10) = true) by (eapply L_Ford.flt_fle_trans; [exact H|vm_compute; reflexivity]).
    split; [eapply L_Ford.flt_fle_trans; [exact H2|auto]|]. split; [|split].
    - apply fle_flt_trans with (fdiv (flit 1 10) (lim_prac (lim (size s)))).
      + destruct (lim_fin tr (size s)) as (_ & Fp & _). apply fdiv_mono; auto using flt_le.
        apply fle_true in Q1. rewrite (ford_fin (lim_prac _)) in Q1 by auto.
        destruct (flit_fin 2 10 ltac:(lia) ltac:(lia)) as [F2 V2].
        rewrite ford_fin in Q1 by auto. destruct Q1 as (_ & _ & Q1).
        apply Rlt_le_trans with (2 := Q1). assert (G : flt (fofZ 0) (flit 2 10) = true) by (vm_compute; reflexivity).
        apply flt_true in G. rewrite ford_fofZ, ford_fin in G by (auto; lia). tauto.
      + unfold GetCoherenceLimits. repeat match goal with |- context [if ?b then _ else _] => destruct b eqn:? end; cbn [lim_prac]; vm_compute; try reflexivity.
        all: exfalso; rewrite ?Z.leb_le, ?Z.leb_gt, ?Z.ltb_lt, ?Z.eqb_eq in *; lia.
    - apply flt_not_le. eapply L_Ford.flt_fle_trans; [|exact Q1]. vm_compute; reflexivity.
    - eapply L_Ford.flt_fle_trans; [exact H2|auto]. }
  destruct P as (P1 & P2 & P3 & P4).
  assert (AT : tgt s target = target).
  { unfold adjustTarget. cbv zeta. change (@nlt F NF) with flt. change (@GetCoherenceLimits F NF) with lim. rewrite (fle_not_lt _ _ (flt_le _ _ P4)). reflexivity. }
  fold NF. rewrite AT.
  assert (B : budget tr slowConfig (size s) (tp_coh target) = 0).
  { unfold budget. rewrite tf_unfold, (fle_not_lt _ _ (flt_le _ _ P1)), P3, P2. vm_compute. reflexivity. }
  rewrite B. destruct evs; cbn [syncLoop]; eexists; reflexivity.
Qed.
Lemma from_config_gcfg size goal c dr ro fl il s : NewSwarmFromConfig size goal c dr ro fl il = NewOK s -> s_gcfg s = None.
Proof.
  unfold NewSwarmFromConfig. destruct (size <=? 0); [discriminate|].
  destruct (M_Core.Validate goal); [|discriminate]. cbn [negb].
  destruct (NormalizeAndValidate _ _) as [cc ok]. destruct ok; [|discriminate]. cbn [negb].
  unfold createDefaultAgents. destruct (createLoop _ _ _ _); [|discriminate]. unfold wire.
  destruct (collectAgents _ _); [|discriminate]. destruct (M_Conn.establishConnections _ _ _ _); [|discriminate].
  now intros [= <-].
Qed.
(** ... and a swarm from NewSwarmFromConfig keeps a goal coherence above the practical limit, for which the time factor
    is +Inf, its conversion to int is the smallest int64, and Run fails at once without a single round. *)
Theorem C27_budget_from_config_refuted : exists size goal c dr ro fl il s,
  NewSwarmFromConfig size goal c dr ro fl il = NewOK s /\
  forall now st evs, startState now s = Some st ->
    exists s', Run tr (syncConfig s) (s_goal s) evs st = (SFail (- 2 ^ 63), 0, s').
Proof.
  set (r := NewSwarmFromConfig 2 fullGoal (AutoScaleConfig 2) dr0 (fun l => l) [fofZ 0; fofZ 0] []).
  assert (O : isOK r = true) by (vm_compute; reflexivity).
  destruct r as [| | |s0] eqn:E; try discriminate O.
  exists 2, fullGoal, (AutoScaleConfig 2), dr0, (fun l => l), [fofZ 0; fofZ 0], [], s0. split; [exact E|].
  intros now st evs S.
  pose proof (C19_from_config tr 2 fullGoal (AutoScaleConfig 2) dr0 (fun l => l) [fofZ 0; fofZ 0] []) as [_ CF].
  assert (E' := E). apply (CF s0) in E'. destruct E' as ((m & EA & LEN & _) & ER).
  pose proof (from_config_gcfg _ _ _ _ _ _ _ _ E) as GC. destruct ER as (_ & _ & GG & _).
  unfold startState in S. fold NF in EA. rewrite EA in S. injection S as <-.
  unfold Run, AchieveSynchronization. cbv zeta. cbn [ss_agents newSync]. rewrite map_length, LEN, GG. unfold syncConfig. rewrite GC.
  change (gs_upd (g_str (@defaultConfig F NF)) <=? 0) with false. cbv iota.
  assert (B : budget tr (@defaultConfig F NF) 2 (tp_coh (@adjustTarget F (FNum tr) 2 (@goalPattern F (FNum tr) fullGoal))) = - 2 ^ 63) by (vm_compute; reflexivity).
  rewrite B. destruct evs; cbn [syncLoop]; eexists; reflexivity.
Qed.
End C27.

(** ** Concrete runs.  A swarm of two agents built by New (all random draws zero) with goal phase 0 reaches its goal in
    the first round ... *)
Definition zeroGoal : State F := mkState (fofZ 0) 100000000 (flit 7 10).
Definition quietEnv : Env F := mkEnv 0 (fun _ l => l) (fun l => l) (fun _ => 0) (fun _ _ => 0) (fun _ => []) (fun _ => 0) 4.
Definition zeroSwarm (tr : Trig) : NewRes F := @New F (FNum tr) 8 2 zeroGoal [] dr0 (fun l => l) [fofZ 0; fofZ 0] [].
Definition zeroRun (tr : Trig) (evs : list (SyncEvent F)) : option (SyncRes * Z * SyncState F) :=
  match zeroSwarm tr with
  | NewOK s => match @startState F (FNum tr) 0 s with
               | Some st => Some (Run tr (@syncConfig F (FNum tr) s) (s_goal s) evs st)
               | None => None
               end
  | _ => None
  end.
Definition endsWith (r : option (SyncRes * Z * SyncState F)) (res : SyncRes) (k : Z) : bool :=
  match r with Some (res', k', _) => match res, res' with
    | SNil, SNil | SCtx, SCtx => Z.eqb k k' | SFail n, SFail n' => Z.eqb k k' && Z.eqb n n' | _, _ => false end | None => false end.
Example C27_nil_happens tr : trig_zero tr -> endsWith (zeroRun tr [Tick quietEnv]) SNil 1 = true.
Proof. intros H. rewrite (at0_id tr H). vm_compute. reflexivity. Qed.
(** ... and is stopped by a cancellation before it. *)
Example C27_cancel_happens tr : endsWith (zeroRun tr [Cancel; Tick quietEnv]) SCtx 0 = true.
Proof. vm_compute. reflexivity. Qed.

Print Assumptions C27_nil.
Print Assumptions C27_cancel_prompt.
Print Assumptions C27_fail.
Print Assumptions C27_rounds_bounded.
Print Assumptions C27_budget_new.
Print Assumptions C27_budget_preset.
Print Assumptions C27_budget_config_refuted.
Print Assumptions C27_budget_from_config_refuted.
Print Assumptions C27_nil_happens.
