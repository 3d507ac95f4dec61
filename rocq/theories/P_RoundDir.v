(** Property C32, second half: the direction in which a round moves an agent (exact reals). *)
From Coq Require Import ZArith Reals Psatz Bool List String Lia.
From Flocq Require Import Core.Core.
From Verif Require Import Num GoBase F64 RealNum M_Core M_Random M_Strategy M_Agent M_Limits M_GoalConfig M_Monitor M_ConvMonitor M_Engine
  M_Swarm M_Sync S_Sync S_Circle S_Round L_Circle L_Coherence P_SimReset.
Import ListNotations.
Open Scope list_scope.
Open Scope R_scope.

Notation RA := (Agent R).
Ltac rops := change (@nadd R RNum) with Rplus in *; change (@nsub R RNum) with Rminus in *; change (@nmul R RNum) with Rmult in *;
  change (@ndiv R RNum) with Rdiv in *; change (@nlit R RNum) with (fun n d => IZR n / IZR d) in *; change (@nofZ R RNum) with IZR in *;
  change (@nabs R RNum) with Rabs in *; change (@nmax R RNum) with Rmax in *; change (@nmin R RNum) with Rmin in *;
  change (@n1 R RNum) with 1 in *; change (@n0 R RNum) with 0 in *; change (@nlt R RNum) with Rlt_bool in *;
  change (@nle R RNum) with Rle_bool in *; cbv beta in *.

Lemma rlt_true x y : Rlt_bool x y = true -> x < y.
Proof. destruct (Rlt_bool_spec x y); [auto|discriminate]. Qed.
Lemma Rdraw b : 0 <= @Float64 R RNum b < 1.
Proof.
  unfold Float64. rops. pose proof (Z.mod_pos_bound b (2 ^ 53) ltac:(lia)) as [A B].
  apply IZR_le in A. apply IZR_lt in B. assert (0 < IZR (2 ^ 53)) by (apply IZR_lt; lia). split.
  - unfold Rdiv. apply Rmult_le_pos; auto. left. now apply Rinv_0_lt_compat.
  - apply Rmult_lt_reg_r with (IZR (2 ^ 53)); auto. unfold Rdiv. rewrite Rmult_assoc, Rinv_l by lra. lra.
Qed.
Lemma set_phase p (a : RA) : phaseOf (@SetPhase R RNum p a) = RWrap p.
Proof. reflexivity. Qed.
Lemma wrap_id x : 0 <= x < 2 * PI -> RWrap x = x.
Proof. intros H. apply RWrap_unique; auto. apply cong_refl. Qed.
Lemma freq_phase z (a : RA) : phaseOf (@adjustFreq R RNum z a) = phaseOf a.
Proof. unfold adjustFreq. destruct (_ >? _)%num; [|reflexivity]. cbv zeta. now destruct (0 <? _)%Z. Qed.

(** ** The move toward a target that lies ahead *)
Lemma closer target cur delta disp : 0 < delta <= PI -> cong target (cur + delta) -> 0 < disp < 2 * delta ->
  exists d, is_arc target (RWrap (cur + disp)) d /\ d < delta.
Proof.
  intros D C P. exists (Rabs (delta - disp)). split; [|apply Rabs_def1; lra].
  destruct (RWrap_spec (cur + disp)) as [_ W].
  apply is_arc_cong with (cur + delta) (cur + disp); [now apply cong_sym|now apply cong_sym|].
  apply is_arc_of_rep; [lra|]. exists 0%Z. simpl. lra.
Qed.
Lemma wrap_wrap x : RWrap (RWrap x) = RWrap x.
Proof. apply wrap_id. apply RWrap_spec. Qed.

Lemma prod3 (A r w : R) : 0 < A -> 3 / 4 <= r <= 5 / 4 -> 0 < w -> 0 < A * r * w.
Proof. intros. repeat apply Rmult_lt_0_compat; lra. Qed.

Lemma agent_closer cfg target tcoh coh var padj fadj norm idx d scale (a : RA) delta :
  let x := mkAX cfg target tcoh coh var padj fadj norm in
  calm cfg -> 0 <= coh <= 1 -> 0 <= norm <= 1 ->
  0 < scale <= (if phaseAlign x then gv_scale (g_conv cfg) * (12 / 10) else Rmax (gv_scale (g_conv cfg)) (4 / 10)) ->
  0 < delta <= PI -> cong target (phaseOf a + delta) ->
  (if phaseAlign x then gv_dist (g_conv cfg) else thresholdOf x) < delta ->
  (phaseAlign x = false -> 0 <= padj <= delta) ->
  (phaseAlign x = false -> gt_very (g_thr cfg) < coh -> var < gt_var (g_thr cfg) -> Nat.modulo idx 3 = 0%nat) ->
  exists d', is_arc target (phaseOf (fst (@applyAgent R RNum x idx d scale a))) d' /\ d' < delta.
Proof.
  intros x CL Co No Sc De Cg Th Pa Cr. destruct CL as [C1 C2 C3 C4 C5 C6].
  assert (PD : RWrap (target - phaseOf a) = delta).
  { apply RWrap_unique; [pose proof PI_RGT_0; lra|]. destruct Cg as [k Ck]. exists (- k)%Z. rewrite opp_IZR. lra. }
  unfold applyAgent. cbv zeta. cbn [ax_cfg ax_target ax_coh ax_var ax_padj ax_fadj ax_norm x]. rops. fold x. rewrite PD.
  pose proof (Rdraw (d 0%nat)) as D0. pose proof (Rdraw (d 1%nat)) as D1.
  destruct (phaseAlign x) eqn:PA.
  - rewrite Rlt_bool_true by (rewrite Rabs_pos_eq; lra). cbn [fst]. rewrite freq_phase, set_phase, wrap_wrap.
    apply closer; auto. set (r := 95 / 100 + _) in *. assert (Hr : 95 / 100 <= r < 105 / 100) by (unfold r; lra).
    replace (delta * scale * (9 / 10) * r) with (delta * (scale * (9 / 10) * r)) by ring.
    assert (0 < scale * (9 / 10) * r < 2) by (split; [repeat apply Rmult_lt_0_compat; lra|nra]). nra.
  - set (crowded := (Rlt_bool (gt_very (g_thr cfg)) coh && Rlt_bool var (gt_var (g_thr cfg)))%bool). assert (Cw : (crowded && negb (Nat.eqb (Nat.modulo idx 3) 0))%bool = false).
    { destruct crowded eqn:E; [|reflexivity]. unfold crowded in E. apply andb_prop in E. destruct E as [E1 E2].
      assert (U : gt_very (g_thr cfg) < coh) by (now apply rlt_true).
      assert (V : var < gt_var (g_thr cfg)) by (now apply rlt_true).
      now rewrite (Cr eq_refl U V). }
    rewrite Cw. set (scale' := if crowded then _ else scale).
    assert (S' : 0 < scale' <= Rmax (gv_scale (g_conv cfg)) (4 / 10)) by (unfold scale'; destruct crowded; lra).
    clearbody scale'. clear crowded Cw Cr. rewrite Rlt_bool_true by (rewrite Rabs_pos_eq; lra). cbn [fst].
    rewrite freq_phase, set_phase, wrap_wrap. apply closer; auto. specialize (Pa eq_refl).
    set (rg := 3 / 10 + _). assert (Rg : 3 / 10 <= rg <= 5 / 10) by (unfold rg; lra).
    set (r := 1 - rg / 2 + _). assert (Hr : 3 / 4 <= r <= 5 / 4) by (unfold r; nra).
    set (M := Rmax _ _) in *. clearbody M.
    assert (Hv : - ((ga_max (g_var cfg) + ga_coh (g_var cfg)) / 2) <= @variationOf R RNum x (d 0%nat) <= (ga_max (g_var cfg) + ga_coh (g_var cfg)) / 2).
    { unfold variationOf. cbn [ax_cfg ax_norm ax_coh x]. cbv zeta. rops. set (f := @Float64 R RNum (d 0%nat)) in *.
      assert (B1 : 0 <= ga_min (g_var cfg) + (1 - norm) * (ga_max (g_var cfg) - ga_min (g_var cfg)) <= ga_max (g_var cfg)) by nra.
      assert (B2 : 0 <= coh * ga_coh (g_var cfg) <= ga_coh (g_var cfg)) by nra.
      set (w := ga_min _ + _ + _). assert (W : 0 <= w <= ga_max (g_var cfg) + ga_coh (g_var cfg)) by (unfold w; lra). clearbody w. nra. }
    set (v := variationOf x (d 0%nat)) in *. clearbody v r.
    set (G := ga_max (g_var cfg) + ga_coh (g_var cfg)) in *.
    assert (Q : 0 < padj * (3 / 10) + delta * scale' <= delta * (3 / 10 + M)) by (split; nra).
    set (q := padj * (3 / 10) + delta * scale') in *. clearbody q. split; [apply prod3; lra|].
    apply Rle_lt_trans with (delta * (3 / 10 + M) * (5 / 4) * (1 + G / 2)).
    + apply Rmult_le_compat; try lra; [apply Rmult_le_pos; lra|]. apply Rmult_le_compat; lra.
    + replace (delta * (3 / 10 + M) * (5 / 4) * (1 + G / 2)) with (delta * ((3 / 10 + M) * (5 / 4) * (1 + G / 2))) by ring.
      rewrite (Rmult_comm 2). apply Rmult_lt_compat_l; lra.
Qed.

Lemma scale_shrinks x idx d scale (a : RA) : 0 < scale -> 0 < snd (@applyAgent R RNum x idx d scale a) <= scale.
Proof.
  intros H. unfold applyAgent. cbv zeta. rops.
  repeat match goal with |- context [if ?c then _ else _] => destruct c end; cbn [snd]; lra.
Qed.
Lemma loop_nth x d : forall l idx scale i a', 0 < scale -> nth_error (@applyLoop R RNum x idx d scale l) i = Some a' ->
  exists a sc, nth_error l i = Some a /\ 0 < sc <= scale /\ a' = fst (@applyAgent R RNum x (idx + i) (d (idx + i)%nat) sc a).
Proof.
  induction l as [|a r IH]; intros idx scale i a' H E; [destruct i; discriminate E|]. cbn [applyLoop] in E.
  pose proof (scale_shrinks x idx (d idx) scale a H) as Q. destruct (applyAgent x idx (d idx) scale a) as [b sc] eqn:Eb. cbn [snd] in Q.
  destruct i as [|i].
  - cbn in E. injection E as <-. exists a, scale. rewrite Nat.add_0_r, Eb. repeat split; auto. lra.
  - cbn [nth_error] in E. destruct (IH _ _ _ _ (proj1 Q) E) as (a0 & s0 & A & B & C).
    exists a0, s0. rewrite <- plus_n_Sm. repeat split; auto; lra.
Qed.
Lemma start_scale x : 0 < gv_scale (g_conv (ax_cfg x)) -> 0 <= ax_coh x <= 1 -> 0 < @adjustmentScale R RNum x <=
  (if phaseAlign x then gv_scale (g_conv (ax_cfg x)) * (12 / 10) else Rmax (gv_scale (g_conv (ax_cfg x))) (4 / 10)).
Proof.
  intros H C. unfold adjustmentScale. cbv zeta. rops. destruct (phaseAlign x); [lra|].
  pose proof (Rmax_r (gv_scale (g_conv (ax_cfg x))) (4 / 10)). pose proof (Rmax_l (gv_scale (g_conv (ax_cfg x))) (4 / 10)).
  repeat match goal with |- context [if ?c then _ else _] => destruct c; [lra|] end.
  split; [eapply Rlt_le_trans; [|apply Rmax_r]; lra|]. apply Rmax_lub; nra.
Qed.
(** Outside the window, with the target ahead on the shorter arc, an agent ends strictly closer to the target: when the
    whole population is being aligned, and otherwise when the adjustment that completes the pattern does not pull past the
    target and the agent is not among the two thirds that wander when the population is crowded. *)
Theorem C32_toward : forall cfg target cp coh var d agents i a a' delta,
  calm cfg -> 0 <= coh <= 1 -> (4 / 10 <= tp_coh target \/ coh <= tp_coh target) ->
  nth_error agents i = Some a ->
  nth_error (@applyPatternCompletion R RNum cfg target cp coh var d agents) i = Some a' ->
  0 < delta <= PI -> cong (tp_phase target) (phaseOf a + delta) ->
  (aligning cfg coh var -> gv_dist (g_conv cfg) < delta) ->
  (~ aligning cfg coh var -> window coh (List.length agents) < delta /\ 0 <= @GetPhaseAdjustment R RNum cp <= delta /\
     (crowded cfg coh var -> Nat.modulo i 3 = 0%nat)) ->
  exists d', is_arc (tp_phase target) (phaseOf a') d' /\ d' < delta.
Proof.
  intros cfg target cp coh var d agents i a a' delta CL Co Tc Ea Ea' De Cg Al Na.
  unfold applyPatternCompletion in Ea'. rops. set (g := (_ && _)%bool) in Ea'. assert (G : g = false).
  { unfold g. destruct Tc as [T|T].
    - rewrite Rlt_bool_false by lra. reflexivity.
    - rewrite (Rlt_bool_false (tp_coh target) coh) by lra. apply andb_false_r. }
  rewrite G in Ea'. clear g G. cbv zeta in Ea'. set (x := applyCtx _ _ _ _ _ _) in Ea'.
  pose proof (start_scale x (proj1 (cl_scale _ CL)) Co) as S0.
  destruct (loop_nth x d agents 0 _ i a' (proj1 S0) Ea') as (b & sc & Eb & Sc & ->). rewrite Ea in Eb. injection Eb as <-.
  assert (PA : (phaseAlign x = true /\ aligning cfg coh var) \/ (phaseAlign x = false /\ ~ aligning cfg coh var)).
  { unfold phaseAlign, aligning. cbn [x applyCtx ax_cfg ax_coh ax_var]. rops.
    destruct (Rle_bool_spec (gt_high (g_thr cfg)) coh); destruct (Rlt_bool_spec (gt_var (g_thr cfg)) var); cbn [andb]; [left|right|right|right]; split; auto; lra. }
  assert (Nm : 0 <= Rmin (IZR (Z.of_nat (List.length agents)) / 100) 1 <= 1).
  { split; [|apply Rmin_r]. apply Rmin_glb; [|lra]. apply Rmult_le_pos; [apply IZR_le; lia|lra]. }
  cbn [Nat.add]. unfold x, applyCtx in *. rops. apply agent_closer; auto; [split; [apply Sc|eapply Rle_trans; [apply Sc|apply S0]]| | |].
  - destruct PA as [[-> P]|[-> P]]; [auto|]. unfold thresholdOf. cbn [ax_coh ax_norm]. rops.
    destruct (Na P) as [W _]. unfold window in W. rewrite INR_IZR_INZ in W. exact W.
  - intros E. destruct PA as [[Q _]|[_ P]]; [congruence|]. apply (Na P).
  - intros E U V. destruct PA as [[Q _]|[_ P]]; [congruence|]. apply (Na P). split; auto.
Qed.
(** The settings of every goal are calm. *)
Theorem C32_presets_calm : forall g, calm (@For R RNum g).
Proof.
  intros g. destruct g; constructor; cbn; try lra; rops;
  match goal with |- context [Rmax ?a ?b] => let H := fresh in assert (H : Rmax a b = a \/ Rmax a b = b) by (unfold Rmax; destruct (Rle_dec a b); auto);
    destruct H as [-> | ->] end; lra.
Qed.

(** ** The direction is not always right *)
Definition stateAt (p : R) (f : Z) : RA :=
  mkAgent "a" (mkSD p 100 0 f) (mkBD (1 / 2) (1 / 5)) (mkCtx 0 0 0 0 0) 0 0 true true None None.
Definition lone : RA := stateAt 0 100000000.
Definition behind : TargetPattern R := mkTP (2 * PI - 9 / 100) 200000000 1 (1 / 2) [] (9 / 10).
Definition loneState (cm : CM R) : SyncState R := @setMonTarget R behind (@newSync R [lone] cm).

Lemma no_phase_gap e cur gaps : Forall (fun g => gap_type g = GapFrequency \/ gap_type g = GapCoherence) gaps ->
  exists cp, @CompletePattern R RNum e cur gaps = Some cp /\ cp_phase cp = None.
Proof.
  intros H. unfold CompletePattern. destruct (findBestTemplate e (Some cur)) as [t|].
  - assert (K : forall c, cp_phase c = None -> exists cp, fold_left (@templateGap R RNum cur t) gaps (Some c) = Some cp /\ cp_phase cp = None).
    { induction H as [|g r G Hr IH]; intros c C; cbn [fold_left]; [eauto|].
      unfold templateGap at 2. destruct G as [-> | ->]; apply IH; exact C. }
    now apply K.
  - eexists. split; [reflexivity|]. unfold interpolatePattern.
    assert (K : forall c, cp_phase c = None -> cp_phase (fold_left (@interpolateGap R RNum) gaps c) = None).
    { induction H as [|g r G Hr IH]; intros c C; cbn [fold_left]; [auto|]. apply IH. unfold interpolateGap. destruct G as [-> | ->]; exact C. }
    now apply K.
Qed.
Lemma atan2_01 : Ratan2 (0 / 1) (1 / 1) = 0.
Proof. unfold Ratan2. rewrite Rlt_bool_true by lra. replace (0 / 1 / (1 / 1)) with 0 by field. apply atan_0. Qed.
Lemma lone_mean : @meanPhase R RNum [lone] = 0.
Proof.
  unfold meanPhase. cbn [fold_left List.length Z.of_nat]. change (phaseOf lone) with 0. rops.
  change (@nsin R RNum) with sin. change (@ncos R RNum) with cos. change (@natan2 R RNum) with Ratan2. change (Z.of_nat 1) with 1%Z.
  rewrite sin_0, cos_0, !Rplus_0_l. apply atan2_01.
Qed.
Lemma lone_coh : @swarmCoherence R RNum [lone] = 1.
Proof.
  unfold swarmCoherence. cbn [map]. change (phaseOf lone) with 0. rewrite RMC_unfold by discriminate.
  cbn [rsum map fold_right List.length INR]. unfold rsum, vlen. cbn [fold_right map]. rewrite sin_0, cos_0.
  replace ((1 + 0) * (1 + 0) + (0 + 0) * (0 + 0)) with 1 by ring. rewrite sqrt_1. lra.
Qed.
Lemma lone_var k : @MeasurePhaseVariance R RNum (S k) [lone] = Some 0.
Proof.
  unfold MeasurePhaseVariance. rewrite lone_mean. cbn [varLoop]. change (phaseOf lone) with 0. cbn [loopDown loopUp]. rops. pose proof PI_RGT_0.
  change (@npi R RNum) with (2 * PI / 2). rewrite Rlt_bool_false by lra. change (@nneg R RNum) with Ropp. rewrite Rlt_bool_false by lra.
  f_equal. cbn [List.length]. change (Z.of_nat 1) with 1%Z. lra.
Qed.
Lemma lone_pattern : @measureSystemPattern R RNum [lone] [lone] = mkTP 0 100000000 1 1 [] (5 / 10).
Proof.
  unfold measureSystemPattern. cbv zeta. rewrite lone_mean, lone_coh. reflexivity.
Qed.
Lemma lone_pd : RPD (2 * PI - 9 / 100) 0 = - (9 / 100).
Proof.
  pose proof PI_lo. pose proof PI_hi. assert (N : ~ pd_special (2 * PI - 9 / 100) 0).
  { intros [[A _]|[A _]]; apply Rabs_def2 in A; lra. }
  destruct (RPD_spec _ _ N) as (A & B & _). apply cong_unique_pi; [lra|lra|]. rewrite Rplus_0_l in B.
  apply cong_trans with (2 * PI - 9 / 100); [exact B|]. exists 1%Z. lra.
Qed.
Lemma lone_gaps : Forall (fun g => gap_type g = GapFrequency \/ gap_type g = GapCoherence)
  (@IdentifyGaps R RNum (mkTP 0 100000000 1 1 [] (5 / 10)) behind).
Proof.
  unfold IdentifyGaps. cbv zeta. cbn [behind tp_phase tp_freq tp_coh]. rops. rewrite lone_pd. rewrite Rabs_Ropp, Rabs_pos_eq by lra.
  rewrite Rlt_bool_false by lra. cbn [app]. apply Forall_app. split.
  - destruct (_ && _)%bool; [|constructor]. destruct (Rlt_bool _ _); constructor; auto.
  - destruct (Rlt_bool _ _); constructor; auto.
Qed.
(** One agent at phase 0, target 0.09 behind it: the round moves it forward, away from the target, for every random draw,
    although it is outside the window. *)
Theorem C32_moves_away : forall cm e, (forall k l, ev_view e k l = l) -> ev_fuel e <> 0%nat -> window 1 1 < 9 / 100 /\
  exists s' a' d d', @round R RNum (For OtherGoal) behind e (loneState cm) = Some (s', false) /\ ss_agents s' = [a'] /\
    is_arc (tp_phase behind) (phaseOf lone) d /\ is_arc (tp_phase behind) (phaseOf a') d' /\ d = 9 / 100 /\ d < d'.
Proof.
  intros cm e V Fu. split.
  { unfold window. change (INR 1) with 1. rewrite Rmin_left by lra. lra. }
  pose proof PI_lo. pose proof PI_hi.
  unfold round. cbv zeta. rewrite !V. change (ss_agents (loneState cm)) with [lone]. rewrite lone_pattern, lone_coh.
  set (mon := GRecord _ _ _ _). assert (M1 : ShouldSwitchStrategy mon = false) by reflexivity.
  assert (M2 : IsStuck mon = false) by reflexivity. clearbody mon.
  assert (NA : @isPatternAchieved R RNum (For OtherGoal) behind [lone] (mkTP 0 100000000 1 1 [] (5 / 10)) = false).
  { unfold isPatternAchieved. cbv zeta.
    set (dist := PatternDistance _ _). assert (D : 1 / 10 <= dist).
    { unfold dist, PatternDistance. cbv zeta. cbn [behind tp_phase tp_freq tp_coh]. rops. rewrite lone_pd. change (0 <? 200000000)%Z with true. cbv iota.
      change (@npi R RNum) with (2 * PI / 2). change (100000000 - 200000000)%Z with (-100000000)%Z.
      rewrite (Rabs_left (IZR (-100000000))) by lra. rewrite (Rabs_left (1 / 2 - 1)) by lra. rewrite Rabs_Ropp, Rabs_pos_eq by lra.
      rewrite Rmin_left by lra.
      assert (0 <= 9 / 100 / (2 * PI / 2)) by (apply Rmult_le_pos; [lra|]; left; apply Rinv_0_lt_compat; lra). lra. }
    change (gv_dist (g_conv (For OtherGoal))) with (1 / 10). rops. rewrite (Rlt_bool_false dist) by exact D.
    rewrite !andb_false_r. now destruct (Rle_bool _ _). }
  rewrite NA, M1. destruct (no_phase_gap (mkEngine (ev_tmpl e (en_templates defaultEngine)) (en_threshold defaultEngine)) (mkTP 0 100000000 1 1 [] (5 / 10)) _ lone_gaps) as (cp & -> & CP).
  destruct (ev_fuel e) as [|fu]; [congruence|]. rewrite lone_var, M2.
  set (ag := applyPatternCompletion _ _ _ _ _ _ _).
  assert (AG : exists p, 0 < p < 1 / 2 /\ map phaseOf ag = [p]).
  { unfold ag, applyPatternCompletion. change (tp_coh behind) with (1 / 2). rops. rewrite (Rlt_bool_false (1 / 2) (4 / 10)) by lra.
    cbn [andb]. cbv zeta. cbn [List.length applyLoop]. set (x := applyCtx _ _ _ _ _ _).
    assert (X : adjustmentScale x = 1 / 10).
    { unfold adjustmentScale, phaseAlign. cbn [x applyCtx ax_coh ax_var ax_cfg ax_tcoh]. change (gt_var (g_thr (For OtherGoal))) with (5 / 10).
      change (tp_coh behind) with (1 / 2). rops. rewrite (Rlt_bool_false (5 / 10)) by lra. rewrite andb_false_r.
      rewrite Rle_bool_true by lra. reflexivity. }
    rewrite X. destruct (applyAgent x 0 (ev_draw e 0) (1 / 10) lone) as [a' sc] eqn:E. cbn [map].
    exists (phaseOf a'). split; [|reflexivity]. apply (f_equal fst) in E. cbn [fst] in E. subst a'.
    unfold applyAgent. cbv zeta. unfold phaseAlign, variationOf, thresholdOf. cbn [x applyCtx ax_coh ax_var ax_cfg ax_tcoh ax_norm ax_target ax_padj ax_fadj].
    change (phaseOf lone) with 0. change (tp_phase behind) with (2 * PI - 9 / 100).
    change (gt_var (g_thr (For OtherGoal))) with (5 / 10). change (gt_very (g_thr (For OtherGoal))) with (92 / 100).
    change (ga_min (g_var (For OtherGoal))) with (15 / 100). change (ga_max (g_var (For OtherGoal))) with (3 / 10).
    change (ga_coh (g_var (For OtherGoal))) with (2 / 10).
    unfold GetPhaseAdjustment. rewrite CP. cbn [Nat.modulo Nat.divmod fst snd Nat.sub Nat.eqb negb andb]. change (Z.of_nat 1) with 1%Z. rops.
    rewrite (Rlt_bool_false (5 / 10) 0) by lra. rewrite andb_false_r. rewrite (Rlt_bool_true (92 / 100) 1), (Rlt_bool_true 0 (5 / 10)) by lra. cbn [andb].
    rewrite (Rmin_left (1 / 100) 1) by lra. replace (2 * PI - 9 / 100 - 0) with (2 * PI - 9 / 100) by ring. rewrite (wrap_id (2 * PI - 9 / 100)) by lra.
    rewrite (Rabs_pos_eq (2 * PI - 9 / 100)) by lra. rewrite (Rlt_bool_true (1 / 100 + 1 * (3 / 100) + (1 - 1 / 100) * (2 / 100))) by lra.
    cbn [fst]. rewrite freq_phase, set_phase, wrap_wrap.
    pose proof (Rdraw (ev_draw e 0 0%nat)) as D0. pose proof (Rdraw (ev_draw e 0 1%nat)) as D1.
    set (f0 := Float64 (ev_draw e 0 0%nat)) in *. set (f1 := Float64 (ev_draw e 0 1%nat)) in *. clearbody f0 f1.
    set (r := 1 - _ + _). assert (Hr : 7 / 10 <= r <= 13 / 10) by (unfold r; lra). clearbody r.
    set (v := 1 + _). assert (Hv : 7 / 10 <= v <= 13 / 10) by (unfold v; lra). clearbody v.
    replace (0 + (0 * (3 / 10) + (2 * PI - 9 / 100) * (1 / 10 * (2 / 10))) * r * v) with ((2 * PI - 9 / 100) * (1 / 50) * (r * v)) by field.
    assert (Rv : 49 / 100 <= r * v <= 169 / 100) by nra. set (w := r * v) in *. clearbody w.
    set (P := PI) in *. assert (B : 0 < (2 * P - 9 / 100) * (1 / 50) * w < 1 / 2) by nra. rewrite wrap_id; unfold P in *; lra. }
  destruct AG as (p & Hp & AG). clearbody ag. destruct ag as [|a' [|]]; try discriminate AG. cbn [map] in AG. injection AG as AG.
  eexists _, a', (9 / 100), (9 / 100 + p). split; [reflexivity|]. cbn [ss_agents]. split; [apply V|]. change (phaseOf lone) with 0. rewrite AG.
  change (tp_phase behind) with (2 * PI - 9 / 100). split; [|split; [|lra]].
  - assert (A : is_arc (2 * PI - 9 / 100) 0 (Rabs (- (9 / 100)))) by (apply is_arc_of_rep; [lra|]; exists 1%Z; lra).
    rewrite Rabs_Ropp, Rabs_pos_eq in A by lra. exact A.
  - assert (A : is_arc (2 * PI - 9 / 100) p (Rabs (- (9 / 100 + p)))) by (apply is_arc_of_rep; [lra|]; exists 1%Z; lra).
    rewrite Rabs_Ropp, Rabs_pos_eq in A by lra. exact A.
Qed.
(** Hence "an agent out of the tolerance window moves toward the target" fails for the default settings. *)
Theorem C32_direction_refuted : exists target e s s' a a' d d', calm (@For R RNum OtherGoal) /\
  ss_agents s = [a] /\ @round R RNum (For OtherGoal) target e s = Some (s', false) /\ ss_agents s' = [a'] /\
  is_arc (tp_phase target) (phaseOf a) d /\ is_arc (tp_phase target) (phaseOf a') d' /\ window (@swarmCoherence R RNum [a]) 1 < d /\ d < d'.
Proof.
  set (e := mkEnv 0 (fun _ l => l) (fun l => l) (fun _ => 0%Z) (fun _ _ => 0%Z) (fun _ => []) (fun _ => 0%Z) 4 : Env R).
  destruct (C32_moves_away (@NewConvergence R RNum (mkState 0 0 0) 0 0) e) as (W & s' & a' & d & d' & A & B & C & D & -> & E); [reflexivity|discriminate|].
  exists behind, e. eexists. exists s', lone, a', (9 / 100), d'. split; [apply C32_presets_calm|]. split; [|split; [exact A|]]; [reflexivity|].
  split; [exact B|]. split; [exact C|]. split; [exact D|]. rewrite lone_coh. now split.
Qed.

(** ** Non-vacuity *)
(** A population of three at phases 0, 1/2 and 3, target 3/2, as seen while it is spread out: agent 1 ends closer. *)
Example C32_toward_applies : forall cm d, let agents := [lone; stateAt (1 / 2) 100000000; stateAt 3 100000000] in
  let target := mkTP (3 / 2) 100000000 1 (9 / 10) [] (9 / 10) in
  exists a', nth_error (@applyPatternCompletion R RNum (For ReachConsensus) target (@emptyCompleted R cm) (1 / 2) 2 d agents) 1 = Some a' /\
    exists d', is_arc (3 / 2) (phaseOf a') d' /\ d' < 1.
Proof.
  intros cm d agents target. pose proof PI_lo. pose proof PI_hi.
  set (l := applyPatternCompletion _ _ _ _ _ _ _). assert (L : List.length l = 3%nat).
  { unfold l, applyPatternCompletion. destruct (_ && _)%bool; [reflexivity|]. cbv zeta. unfold agents. cbn [applyLoop].
    repeat match goal with |- context [let (_, _) := ?q in _] => destruct q end. reflexivity. }
  destruct (nth_error l 1) as [a'|] eqn:E; [|apply nth_error_None in E; lia].
  exists a'. split; [reflexivity|].
  refine (C32_toward (For ReachConsensus) target (emptyCompleted cm) (1 / 2) 2 d agents 1 _ a' 1 (C32_presets_calm _) _ _ eq_refl E _ _ _ _).
  - lra.
  - left. cbn. lra.
  - unfold tau in *. lra.
  - exists 0%Z. cbn. lra.
  - intros [A _]. cbn in A. lra.
  - intros _. split; [|split].
    + unfold window. cbn [List.length agents]. replace (INR 3) with 3 by (cbn; lra). rewrite Rmin_left by lra. lra.
    + cbn. lra.
    + intros [A _]. cbn in A. lra.
Qed.
Print Assumptions C32_toward.
Print Assumptions C32_presets_calm.
Print Assumptions C32_moves_away.
Print Assumptions C32_direction_refuted.
