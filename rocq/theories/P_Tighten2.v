(** Further theorems on C18, C19, C28, C29, C46 and C53: points that the earlier theorems left open to wrong programs. *)
From Coq Require Import ZArith Reals Psatz Bool List String Lia.
From Flocq Require Import Core.Core IEEE754.BinarySingleNaN.
From Verif Require Import Num F64 RealNum L_F64 L_F64x M_Core M_Agent M_Swarm M_Scale M_SwarmConfig M_GoalConfig M_Client M_Batch M_Continuous M_Random M_AgentConfig P_Agent2 P_Tighten.
Import ListNotations.
Open Scope Z_scope.

(** ** C18: an agent of the randomised preset *)
(** Phase, goal and period all come from the draws, none from the constants of the preset. *)
Theorem C18_randomized : forall id d (a : Agent R), @NewFromConfig R RNum id d (@RandomizedAgent R RNum) = Some a ->
  sd_phase (ag_sd a) = @RandPhase R RNum (dr_phase d) /\ sd_goal (ag_sd a) = @RandPhase R RNum (dr_goal d) /\ sd_freq (ag_sd a) = randFreq (dr_freq d).
Proof. intros id d a H. destruct (C18_attributes id d _ a H) as (_ & _ & A & B & C & _). unfold RandomizedAgent in A, B, C. cbv zeta in A, B, C. cbn [ac_rphase ac_rgoal ac_rfreq] in A, B, C. auto. Qed.
Example C18_randomized_example : forall d, exists a, @NewFromConfig R RNum "x"%string d (@RandomizedAgent R RNum) = Some a.
Proof.
  intros d. destruct (@NewFromConfig R RNum "x"%string d (@RandomizedAgent R RNum)) as [a|] eqn:E; [now exists a|exfalso]. apply C18_error_iff in E. apply E.
  unfold RandomizedAgent, DefaultAgent. cbv zeta. cbn [ac_dm ac_gm ac_rm ac_st In]. tauto.
Qed.

(** ** C19: the number of workers of the pool *)
Theorem C19_worker_count : forall cpus size, 1 <= cpus -> 1 <= getOptimalWorkerCount cpus size /\
  (1000 <= size -> getOptimalWorkerCount cpus size <= 32 /\ getOptimalWorkerCount cpus size <= 4 * cpus) /\
  (size < 1000 -> getOptimalWorkerCount cpus size <= 2 * cpus).
Proof.
  intros cpus size H. unfold getOptimalWorkerCount, minInt. destruct (Z.ltb_spec size 100); destruct (Z.ltb_spec size 1000); try lia. all: destruct (Z.ltb_spec (cpus * 4) 32); lia.
Qed.
(** On a machine with more than 16 processors a swarm of 1000 agents gets fewer workers than one of 999. *)
Theorem C19_worker_count_refuted : forall cpus size size', 16 < cpus -> 100 <= size < 1000 -> 1000 <= size' ->
  getOptimalWorkerCount cpus size' < getOptimalWorkerCount cpus size.
Proof.
  intros cpus size size' H A B. unfold getOptimalWorkerCount, minInt. rewrite (proj2 (Z.ltb_ge size 100)), (proj2 (Z.ltb_lt size 1000)), (proj2 (Z.ltb_ge size' 100)), (proj2 (Z.ltb_ge size' 1000)) by lia.
  destruct (Z.ltb_spec (cpus * 4) 32); lia.
Qed.

(** ** C28: the counter of quiet measurements, and the memory at the start and after a restart *)
(** The counter of quiet measurements goes up on a change below 0.001, is cleared by a rise above 0.001, and stays otherwise;
    a measurement that asks for a restart leaves it alone unless the fall against the last one is what asks. *)
Theorem C28_quiet_count : forall cfg target (st : MonState R) cur, fst (@needsResync R RNum cfg target st cur) = false ->
  let n := snd (@needsResync R RNum cfg target st cur) in let change := (cur - ms_last st)%R in
  ((Rabs change < 1 / 1000)%R -> n = ms_stable st + 1) /\ ((1 / 1000 < change)%R -> n = 0) /\ ((change <= - (1 / 1000))%R -> n = ms_stable st).
Proof.
  intros cfg target st cur. unfold needsResync. cbv zeta. destruct (nlt cur (rc_minviable cfg)); [discriminate|]. destruct (nlt cur (nmul target (rc_margin cfg))); [discriminate|].
  destruct (_ && _); [discriminate|]. rewrite !andb_false_r. intros _. cbn [snd]. unfold improvementThreshold.
  change (@nlit R RNum 1 1000) with (1 / 1000)%R. change (@nlt R RNum) with Rlt_bool. change (@nabs R RNum) with Rabs. change (@nsub R RNum) with Rminus. set (d := (cur - ms_last st)%R).
  repeat split; intros H.
  - now rewrite Rlt_bool_true.
  - rewrite Rlt_bool_false by (rewrite Rabs_pos_eq by lra; lra). now rewrite Rlt_bool_true.
  - rewrite Rlt_bool_false by (rewrite Rabs_left by lra; lra). rewrite Rlt_bool_false by lra. reflexivity.
Qed.
(** The first measurement of a run becomes the peak, whatever the coherence at the start was. *)
Theorem C28_first_peak : forall rec target t0 t1 (coh cur : R), (0 < cur)%R ->
  ms_peak (snd (@tickState R RNum (ct_rec (@contStart R RNum rec target t0 t1 coh)) target (ct_mon (@contStart R RNum rec target t0 t1 coh)) cur)) = cur.
Proof. intros rec target t0 t1 coh cur H. apply C28_peak_follows. cbn [contStart ct_mon ms_peak]. now apply Rlt_bool_true. Qed.
(** A restart forgets the peak: it becomes the coherence at the restart, however far that is below. *)
Theorem C28_restart_peak : forall {T} {N : Num T} (s : Cont T) t1 t2 t3 coh, let s' := tickCont s t1 t2 t3 coh in
  ct_old s' <> ct_old s -> ms_peak (ct_mon s') = coh /\ ms_last (ct_mon s') = coh /\ ms_active (ct_mon s') = true /\ ms_sync (ct_mon s') = t3 /\
    in_run (ct_cur s') = true /\ in_start (ct_cur s') = t2.
Proof.
  intros T N s t1 t2 t3 coh. cbv zeta. unfold tickCont. assert (L : ms_last (snd (tickState (ct_rec s) (ct_target s) (ct_mon s) coh)) = coh) by (unfold tickState; cbv zeta; now destruct (needsResync _ _ _ _)).
  destruct (tickState (ct_rec s) (ct_target s) (ct_mon s) coh) as [should m]. cbn [snd] in L. destruct (_ && _ && _); cbn [ct_old ct_mon ms_peak ms_last ms_active ms_sync ct_cur in_run in_start]; [auto 7|contradiction].
Qed.

(** ** C46: nothing is saved, and no division by zero, before anything was charged *)
Theorem C46_no_cost : forall {T} {N : Num T} (m : Metrics T), nlt n0 (m_without m) = false -> sn_percent (Current m) = n0.
Proof. intros T N m H. unfold Current. cbv zeta. cbn [sn_percent]. now rewrite H. Qed.
Theorem C46_percent : forall m : Metrics R, (0 < m_without m)%R ->
  (sn_percent (@Current R RNum m) * m_without m = 100 * (m_without m - m_with m))%R.
Proof.
  intros m H. unfold Current. cbv zeta. cbn [sn_percent]. change (@n0 R RNum) with 0%R. change (@nlt R RNum) with Rlt_bool. rewrite Rlt_bool_true by exact H.
  change (@nmul R RNum) with Rmult. change (@ndiv R RNum) with Rdiv. change (@nsub R RNum) with Rminus. change (@nofZ R RNum 100) with 100%R. field. lra.
Qed.

(** ** C53: the coherence a simulation asks for *)
Theorem C53_sim_target : forall {T} {N : Num T} g s, simTarget g s =
  match g with
  | DistributeLoad | RecoverFromFailure => nlit 2 10 | ReachConsensus => nlit 6 10 | SaveEnergy => nlit 4 10
  | MinimizeAPICalls | MinimizeLatency | MaintainRhythm | AdaptToTraffic | OtherGoal => DefaultTargetCoherence s
  end.
Proof. intros T N []; reflexivity. Qed.
(** The three disordered or frugal goals ask for less than the default of every scale. *)
Theorem C53_sim_target_low : forall tr g s, In g [DistributeLoad; RecoverFromFailure; SaveEnergy] ->
  flt (@simTarget F (FNum tr) g s) (@DefaultTargetCoherence F (FNum tr) s) = true.
Proof.
  intros tr g s H.
  assert (D : forall x, x = flit 2 10 \/ x = flit 4 10 -> flt x (@DefaultTargetCoherence F (FNum tr) s) = true).
  { intros x Hx. unfold DefaultTargetCoherence, onScale. destruct (s =? Tiny), (s =? Small), (s =? Medium), (s =? Large), (s =? Huge); destruct Hx as [-> | ->]; vm_compute; reflexivity. }
  apply D. destruct H as [<-|[<-|[<-|[]]]]; [left|left|right]; reflexivity.
Qed.
(** Consensus asks for less than the default too, except at the huge scale, where it asks for more. *)
Theorem C53_sim_target_consensus : forall tr s,
  flt (@simTarget F (FNum tr) ReachConsensus s) (@DefaultTargetCoherence F (FNum tr) s) = negb (s =? Huge) /\
  flt (@DefaultTargetCoherence F (FNum tr) s) (@simTarget F (FNum tr) ReachConsensus s) = (s =? Huge).
Proof.
  intros tr s. unfold DefaultTargetCoherence, onScale. destruct (Z.eqb_spec s Tiny) as [->|]; [split; vm_compute; reflexivity|]. destruct (Z.eqb_spec s Small) as [->|]; [split; vm_compute; reflexivity|].
  destruct (Z.eqb_spec s Medium) as [->|]; [split; vm_compute; reflexivity|]. destruct (Z.eqb_spec s Large) as [->|]; [split; vm_compute; reflexivity|].
  destruct (Z.eqb_spec s Huge) as [->|]; split; vm_compute; reflexivity.
Qed.

(** Witnesses. *)
Example tighten2_examples : getOptimalWorkerCount 32 999 = 64 /\ getOptimalWorkerCount 32 1000 = 32.
Proof. split; reflexivity. Qed.
Example quiet_example : fst (@needsResync R RNum (mkRec 0 0 0 0 30 0)%R 0%R (mkMS 1 1 0 true 0)%R 1%R) = false.
Proof.
  unfold needsResync. cbv zeta. cbn [rc_minviable rc_margin rc_small rc_large rc_stuck ms_peak ms_last ms_stable]. change (@nlt R RNum) with Rlt_bool. change (@nmul R RNum) with Rmult. change (@nsub R RNum) with Rminus.
  rewrite (Rlt_bool_false 1 _), (Rlt_bool_false 1 (0 * _)), (Rlt_bool_false (1 * _) (1 - 1)) by lra. cbn [andb]. rewrite !andb_false_r. cbn [fst]. apply Rlt_bool_false. lra.
Qed.
Example percent_example : nlt n0 (m_without (@NewMetricsCollector R RNum 0)) = false /\ (0 < m_without (@RecordBatch R RNum (@NewMetricsCollector R RNum 0) 2 2 1))%R.
Proof. cbn. split; [apply Rlt_bool_false; lra|lra]. Qed.

Print Assumptions C19_worker_count.
Print Assumptions C19_worker_count_refuted.
Print Assumptions C28_quiet_count.
Print Assumptions C28_first_peak.
Print Assumptions C28_restart_peak.
Print Assumptions C46_no_cost.
Print Assumptions C46_percent.
Print Assumptions C53_sim_target.
Print Assumptions C53_sim_target_low.
Print Assumptions C53_sim_target_consensus.
Print Assumptions C18_randomized.
