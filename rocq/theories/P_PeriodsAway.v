(** C87: a synchronisation round can move the periods away from the target (exact arithmetic). *)
From Coq Require Import ZArith Reals Psatz Bool List String Lia.
From Flocq Require Import Core.Core.
From Verif Require Import Num GoBase F64 RealNum M_Core M_Random M_Strategy M_Agent M_Limits M_GoalConfig M_Monitor M_ConvMonitor M_Engine
  M_Swarm M_Sync S_Sync S_Circle S_Round L_Circle L_Pattern L_Coherence P_SimReset P_RoundDir P_Periods.
Import ListNotations.
Open Scope list_scope.
Open Scope R_scope.

(** A target of 50 ms for one agent at 100 ms. *)
Definition faster : TargetPattern R := mkTP 0 50000000 1 (1 / 2) [] (9 / 10).
Definition lonePattern : TargetPattern R := mkTP 0 100000000 1 1 [] (5 / 10).
Definition fasterState (cm : CM R) : SyncState R := @setMonTarget R faster (@newSync R [lone] cm).
Lemma pd_00 : RPD 0 0 = 0. Proof. apply RPD_0_iff. apply cong_refl. Qed.
Lemma dist_from f c w s a : (0 < f)%Z -> @PatternDistance R RNum (Some lonePattern) (Some (mkTP 0 f a c w s)) = 3 / 10 * Rmin (Rabs (IZR (100000000 - f)) / IZR f) 1 + 3 / 10 * Rabs (c - 1).
Proof.
  intros H. unfold PatternDistance. cbv zeta. cbn [lonePattern tp_phase tp_freq tp_coh]. rops. rewrite pd_00. rewrite (proj2 (Z.ltb_lt 0 f)) by exact H. cbv iota. rewrite Rabs_R0. unfold Rdiv at 2. rewrite Rmult_0_l, Rmult_0_r, Rplus_0_l. reflexivity.
Qed.
Lemma big_max : 1000 < @nmaxfloat R RNum.
Proof.
  change (@nmaxfloat R RNum) with ((2 - / bpow radix2 52) * bpow radix2 1023). assert (A : bpow radix2 10 <= bpow radix2 1023) by (apply bpow_le; lia). change (bpow radix2 10) with 1024 in A.
  assert (B : / bpow radix2 52 <= 1). { rewrite <- Rinv_1. apply Rinv_le_contravar; [lra|]. change 1 with (bpow radix2 0). apply bpow_le. lia. } nra.
Qed.
(** The template that matches the lone agent best is the one for perfect synchronisation, at 250 ms. *)
Lemma best_template : exists w, @findBestTemplate R RNum defaultEngine (Some lonePattern) = Some (mkTP 0 250000000 1 1 w 1).
Proof.
  exists (GenerateSineWave 100). unfold findBestTemplate, defaultEngine, LoadDefaultTemplates. cbv zeta. set (w := GenerateSineWave 100). clearbody w.
  unfold AddTemplate. cbn [NewEngine en_templates en_threshold filter app fst String.eqb Ascii.eqb Bool.eqb negb fold_left]. unfold bestStep. cbv zeta. cbn [fst snd]. rops.
  rewrite !dist_from by lia. pose proof big_max as BM. set (M := @nmaxfloat R RNum) in *. clearbody M.
  change (100000000 - 250000000)%Z with (-150000000)%Z. change (100000000 - 200000000)%Z with (-100000000)%Z. rewrite (Rabs_left (IZR (-150000000))), (Rabs_left (IZR (-100000000))) by lra.
  rewrite (Rmin_left (- (-150000000) / 250000000) 1), (Rmin_left (- (-100000000) / 200000000) 1) by lra. rewrite (Rabs_pos_eq (1 - 1)), (Rabs_left (65 / 100 - 1)), (Rabs_left (5 / 10 - 1)) by lra.
  rewrite (Rlt_bool_true _ M) by lra. rewrite (Rlt_bool_true _ (7 / 10)) by lra. cbn [andb fst snd].
  rewrite (Rlt_bool_false (3 / 10 * (- (-150000000) / 250000000) + 3 / 10 * - (65 / 100 - 1))) by lra. cbn [andb fst snd].
  rewrite (Rlt_bool_false (3 / 10 * (- (-100000000) / 200000000) + 3 / 10 * - (5 / 10 - 1))) by lra. reflexivity.
Qed.
Lemma faster_gaps : @IdentifyGaps R RNum lonePattern faster = [mkGap GapFrequency 100000000 50000000 1].
Proof.
  unfold IdentifyGaps. cbv zeta. cbn [faster lonePattern tp_phase tp_freq tp_coh]. rops. rewrite pd_00, Rabs_R0. rewrite (Rlt_bool_false (1 / 10) 0) by lra. cbn [app]. change (0 <? 50000000)%Z with true. change (0 <? 100000000)%Z with true. cbn [andb].
  replace (100000000 / 50000000 - 1) with 1 by field. rewrite Rabs_R1. rewrite (Rlt_bool_true (5 / 100) 1) by lra. rewrite (Rlt_bool_false 1 (1 / 2 - 5 / 100)) by lra. reflexivity.
Qed.
Lemma faster_completed : exists cp, @CompletePattern R RNum defaultEngine lonePattern [mkGap GapFrequency 100000000 50000000 1] = Some cp /\ cp_freq cp = Some 250000000%Z /\ cp_base cp = lonePattern.
Proof.
  unfold CompletePattern. destruct best_template as [w ->]. cbn [fold_left templateGap gap_type gap_severity]. eexists. split; [reflexivity|]. cbn [cp_freq cp_base emptyCompleted tp_freq lonePattern]. split; [|reflexivity]. f_equal.
  unfold blendFrequency. rops. change (@ntrunc R RNum) with Ztrunc. change (250000000 - 100000000)%Z with 150000000%Z. rewrite Rmult_1_r, Ztrunc_IZR. reflexivity.
Qed.
(** REFUTED: "a round brings the periods closer to the target's".  The lone agent goes from 100 ms to the 250 ms of the
    template although the target says 50 ms, for every random draw. *)
Theorem C87_away_refuted : forall cm e, (forall k l, ev_view e k l = l) -> (forall l, ev_tmpl e l = l) -> ev_fuel e <> 0%nat ->
  exists s' a', @round R RNum (For OtherGoal) faster e (fasterState cm) = Some (s', false) /\ ss_agents s' = [a'] /\ freqOf lone = 100000000%Z /\ freqOf a' = 250000000%Z.
Proof.
  intros cm e V VT Fu. unfold round. cbv zeta. rewrite !V, VT. change (ss_agents (fasterState cm)) with [lone]. rewrite lone_pattern, lone_coh. fold lonePattern.
  set (mon := GRecord _ _ _ _). assert (M1 : ShouldSwitchStrategy mon = false) by reflexivity. assert (M2 : IsStuck mon = false) by reflexivity. clearbody mon.
  assert (NA : @isPatternAchieved R RNum (For OtherGoal) faster [lone] lonePattern = false).
  { unfold isPatternAchieved. cbv zeta. replace (@PatternDistance R RNum (Some lonePattern) (Some faster)) with (3 / 10 * Rmin (Rabs (IZR (100000000 - 50000000)) / IZR 50000000) 1 + 3 / 10 * Rabs (1 / 2 - 1)) by (symmetry; apply dist_from; lia). change (100000000 - 50000000)%Z with 50000000%Z. rewrite (Rabs_pos_eq 50000000), (Rabs_left (1 / 2 - 1)) by lra. rewrite Rmin_left by lra.
    change (gv_dist (g_conv (For OtherGoal))) with (1 / 10). rops. rewrite (Rlt_bool_false (3 / 10 * (50000000 / 50000000) + _)) by lra. rewrite !andb_false_r. now destruct (Rle_bool _ _). }
  rewrite NA, M1, faster_gaps. destruct faster_completed as (cp & CP & C1 & C2).
  replace (mkEngine (en_templates defaultEngine) (en_threshold defaultEngine)) with (@defaultEngine R RNum) by reflexivity. rewrite CP.
  destruct (ev_fuel e) as [|fu]; [congruence|]. rewrite lone_var, M2. set (ag := applyPatternCompletion _ _ _ _ _ _ _).
  assert (AG : map freqOf ag = [250000000%Z]).
  { assert (N0 : nth_error (map freqOf ag) 0 = Some 250000000%Z).
    { unfold ag. rewrite C87_exact. cbn [nth_error option_map]. unfold leftOut. cbn [Nat.modulo Nat.divmod fst snd Nat.sub Nat.eqb negb]. rewrite andb_false_r, orb_false_r. change (tp_coh faster) with (1 / 2). rops. rewrite (Rlt_bool_false (1 / 2) (4 / 10)) by lra. cbn [andb].
      unfold GetFrequencyAdjustment. rewrite C1, C2. cbn [lonePattern tp_freq]. change (freqOf lone) with 100000000%Z. rewrite C87_significant by (split; lia). reflexivity. }
    assert (N1 : nth_error (map freqOf ag) 1 = None) by (unfold ag; rewrite C87_exact; reflexivity).
    destruct (map freqOf ag) as [|x [|y l]]; [discriminate N0| |discriminate N1]. cbn in N0. now injection N0 as ->. }
  clearbody ag. destruct ag as [|a' [|]]; try discriminate AG. cbn [map] in AG. injection AG as AG. eexists _, a'. split; [reflexivity|]. cbn [ss_agents]. split; [apply V|]. split; [reflexivity|exact AG].
Qed.
Definition quietEnv : Env R := mkEnv 0 (fun _ l => l) (fun l => l) (fun _ => 0%Z) (fun _ _ => 0%Z) (fun _ => []) (fun _ => 0%Z) 4.
Example away_applies : (forall k l, ev_view quietEnv k l = l) /\ (forall l, ev_tmpl quietEnv l = l) /\ ev_fuel quietEnv <> 0%nat /\ keepsPeriods quietEnv.
Proof. split; [reflexivity|]. split; [reflexivity|]. split; [discriminate|]. intros k l. reflexivity. Qed.
(** The frozen pair really runs: a round under an unreachable target coherence ends without success. *)
Definition pair : list RA := [stateAt 0 100000000; stateAt 0 300000000].
Lemma pair_mean : @meanPhase R RNum pair = 0.
Proof.
  unfold meanPhase, pair. cbn [fold_left]. change (Z.of_nat (List.length [stateAt 0 100000000; stateAt 0 300000000])) with 2%Z. change (phaseOf (stateAt 0 100000000)) with 0. change (phaseOf (stateAt 0 300000000)) with 0. rops.
  change (@nsin R RNum) with sin. change (@ncos R RNum) with cos. change (@natan2 R RNum) with Ratan2. rewrite sin_0, cos_0.
  unfold Ratan2. rewrite Rlt_bool_true by lra. replace ((0 + 0 + 0) / 2 / ((0 + 1 + 1) / 2)) with 0 by field. apply atan_0.
Qed.
Lemma pair_coh : @swarmCoherence R RNum pair = 1.
Proof.
  unfold swarmCoherence, pair. cbn [map]. change (phaseOf (stateAt 0 100000000)) with 0. change (phaseOf (stateAt 0 300000000)) with 0. rewrite RMC_unfold by discriminate.
  cbn [rsum map fold_right List.length INR]. unfold rsum, vlen. cbn [fold_right map]. rewrite sin_0, cos_0.
  replace ((1 + (1 + 0)) * (1 + (1 + 0)) + (0 + (0 + 0)) * (0 + (0 + 0))) with (2 * 2) by ring. rewrite sqrt_square by lra. lra.
Qed.
Lemma pair_var k : @MeasurePhaseVariance R RNum (S k) pair = Some 0.
Proof.
  unfold MeasurePhaseVariance. rewrite pair_mean. unfold pair. cbn [varLoop]. change (phaseOf (stateAt 0 100000000)) with 0. change (phaseOf (stateAt 0 300000000)) with 0. cbn [loopDown loopUp]. rops. pose proof PI_RGT_0.
  change (@npi R RNum) with (2 * PI / 2). rewrite (Rlt_bool_false (2 * PI / 2)) by lra. change (@nneg R RNum) with Ropp. rewrite (Rlt_bool_false (0 - 0)) by lra.
  f_equal. cbn [List.length]. change (Z.of_nat 2) with 2%Z. lra.
Qed.
Example frozen_applies : exists s', @rounds R RNum (For OtherGoal) (mkTP 0 200000000 1 10 [] (9 / 10)) [quietEnv] (@newSync R pair (@NewConvergence R RNum (mkState 0 0 0) 0 0)) s'.
Proof.
  set (s0 := newSync pair _). set (t := mkTP 0 200000000 1 10 [] (9 / 10)). assert (H : exists s', @round R RNum (For OtherGoal) t quietEnv s0 = Some (s', false)); [|destruct H as [s' H]; exists s'; econstructor; [exact H|constructor]].
  unfold round. cbv zeta. cbn [quietEnv ev_view ev_tmpl ev_fuel ev_now ev_sdraw ev_draw ev_bytes ev_noise]. change (ss_agents s0) with pair.
  set (mon := GRecord _ _ _ _). assert (M1 : ShouldSwitchStrategy mon = false) by reflexivity. assert (M2 : IsStuck mon = false) by reflexivity. clearbody mon.
  assert (MP : measureSystemPattern pair pair = mkTP 0 200000000 1 1 [] (5 / 10)) by (unfold measureSystemPattern; cbv zeta; cbn [pair]; fold pair; rewrite pair_mean, pair_coh; reflexivity). rewrite MP.
  assert (NA : @isPatternAchieved R RNum (For OtherGoal) t pair (mkTP 0 200000000 1 1 [] (5 / 10)) = false).
  { unfold isPatternAchieved. cbv zeta. cbn [t tp_coh]. set (b := nle _ 1). assert (B : b = false).
    { unfold b. rops. apply Rle_bool_false. assert (T : @tolerance R RNum (For OtherGoal) (Z.of_nat (List.length pair)) t <= 1). { unfold tolerance. cbv zeta. change (Z.of_nat (List.length pair)) with 2%Z. change (2 <? 10)%Z with true. cbv iota. rops. assert (G : gv_tolS (g_conv (@For R RNum OtherGoal)) <= 1 / 10) by (cbn; lra). brk; lra. } lra. }
    rewrite B. cbn [andb]. now destruct (nle _ 10). }
  rewrite NA, M1, M2, pair_var. destruct (CompletePattern _ _ _) as [cp|] eqn:CP; [eexists; reflexivity|]. exfalso. revert CP.
  assert (G : Forall (fun g => gap_type g = GapFrequency \/ gap_type g = GapCoherence) (@IdentifyGaps R RNum (mkTP 0 200000000 1 1 [] (5 / 10)) t)).
  { unfold IdentifyGaps. cbv zeta. cbn [t tp_phase tp_freq tp_coh]. rops. rewrite pd_00, Rabs_R0. rewrite (Rlt_bool_false (1 / 10) 0) by lra. cbn [app]. apply Forall_app. split; [destruct (_ && _)%bool; [|constructor]|]; destruct (Rlt_bool _ _); constructor; auto. }
  destruct (no_phase_gap (mkEngine (en_templates defaultEngine) (en_threshold defaultEngine)) (mkTP 0 200000000 1 1 [] (5 / 10)) _ G) as (cp & E & _). rewrite E. discriminate.
Qed.
Print Assumptions C87_exact.
Print Assumptions C87_frozen.
Print Assumptions C87_float_significant.
Print Assumptions C87_together_refuted.
Print Assumptions C87_away_refuted.
