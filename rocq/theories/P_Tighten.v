(** Further theorems on C28, C29, C34, C42 and C45: points that the earlier theorems left open to wrong programs. *)
From Coq Require Import ZArith Reals Psatz Bool List String Lia.
From Flocq Require Import Core.Core IEEE754.BinarySingleNaN.
From Verif Require Import Num F64 M_Core M_Agent M_AgentConfig M_Limits M_GoalConfig M_Swarm M_Scale M_ConvMonitor M_Monitor M_Sync M_Continuous M_Patterns P_Resync.
From Verif Require P_Tables.
Import ListNotations.
Open Scope Z_scope.

(** ** C28: the memory of the monitor is the previous measurement, so a fall against it always asks for a restart,
    whatever happened before. *)
Section Mem.
Context {T : Type} {N : Num T}.
Definition afterTicks (cfg : RecoveryConfig T) (target : T) (st : MonState T) (l : list T) : MonState T :=
  fold_left (fun m c => snd (tickState cfg target m c)) l st.
Theorem C28_sudden_drop : forall cfg (target : T) st l prev cur, nlt cur (nsub prev (nmul prev (rc_small cfg))) = true ->
  fst (tickState cfg target (afterTicks cfg target st (l ++ [prev])) cur) = true.
Proof.
  intros cfg target st l prev cur H. unfold afterTicks. rewrite fold_left_app. cbn [fold_left].
  set (m := fold_left _ l st).
  assert (L : ms_last (snd (tickState cfg target m prev)) = prev) by (unfold tickState; cbv zeta; now destruct (needsResync _ _ _ _)).
  set (m' := snd (tickState cfg target m prev)) in *. unfold tickState. cbv zeta.
  set (q := mkMS _ _ _ _ _). assert (Q : fst (needsResync cfg target q cur) = true).
  { unfold needsResync. cbv zeta. destruct (nlt cur (rc_minviable cfg)); [reflexivity|]. destruct (nlt cur (nmul target _)); [reflexivity|].
    destruct (_ && (_ || _))%bool; [reflexivity|]. destruct (_ && (_ && _))%bool; [reflexivity|].
    subst q. cbn [ms_last fst]. now rewrite L. }
  destruct (needsResync cfg target q cur). exact Q.
Qed.
(** ... and a rise of the measurement is remembered as the peak at once. *)
Theorem C28_peak_follows : forall cfg (target : T) st c, nlt (ms_peak st) c = true -> ms_peak (snd (tickState cfg target st c)) = c.
Proof. intros cfg target st c H. unfold tickState, newPeak. cbv zeta. rewrite H. now destruct (needsResync _ _ _ _). Qed.

(** ** C29: every synchronisation that was replaced has been cancelled. *)
Theorem C29_replaced_cancelled : forall rec target t0 t1 coh l (s : Cont T),
  contRun (contStart rec target t0 t1 coh) l = Some s -> Forall (fun i => in_cancel i = true) (ct_old s).
Proof.
  intros rec target t0 t1 coh l.
  assert (G : forall l (a s : Cont T), Forall (fun i => in_cancel i = true) (ct_old a) -> contRun a l = Some s -> Forall (fun i => in_cancel i = true) (ct_old s)).
  { clear. induction l as [|m l IH]; intros a s F H; cbn [contRun] in H; [now injection H as <-|].
    destruct (contStep a m) as [b|] eqn:S; [|discriminate]. apply (IH b s); [|exact H]. clear IH H. unfold contStep in S.
    destruct m as [c|[|k] e| | |u1 u2 u3 c].
    - destruct (ct_ctx a); try discriminate. destruct c; try discriminate; injection S as <-; exact F.
    - destruct (mayEnd _ _ _); [|discriminate]. injection S as <-. exact F.
    - destruct (nth_error (ct_old a) k) as [i|] eqn:E; [|discriminate]. destruct (mayEnd _ _ _); [|discriminate]. injection S as <-. cbn [ct_old].
      assert (FI : in_cancel i = true) by (rewrite Forall_forall in F; apply F; eauto using nth_error_In).
      pose proof F as F1. rewrite <- (firstn_skipn k (ct_old a)) in F1. apply Forall_app in F1. destruct F1 as [F1 _].
      pose proof F as F2. rewrite <- (firstn_skipn (S k) (ct_old a)) in F2. apply Forall_app in F2. destruct F2 as [_ F2].
      apply Forall_app. split; [exact F1|]. constructor; [exact FI|exact F2].
    - destruct (ct_res a); try discriminate. destruct (ctxErr (ct_ctx a)); [|discriminate]. injection S as <-. exact F.
    - destruct (ct_res a); try discriminate. destruct (in_chan (ct_cur a)); [discriminate|]. injection S as <-. exact F.
    - destruct (ct_res a); try discriminate. injection S as <-. unfold tickCont. destruct (tickState _ _ _ _) as [should m].
      destruct (_ && _ && _)%bool; cbn [ct_old]; [constructor; [reflexivity|exact F]|exact F]. }
  intros s H. eapply G; [|exact H]. unfold contStart. cbn. constructor.
Qed.

(** ** C34: nothing measured before a disruption is left in either monitor, and nothing else changes. *)
Theorem C34_monitors : forall now (s : SyncState T), let s' := disruptMonitors now s in
  gm_hist (ss_mon s') = [] /\ gm_conv (ss_mon s') = false /\ gm_target (ss_mon s') = gm_target (ss_mon s) /\ gm_win (ss_mon s') = gm_win (ss_mon s) /\
  CMHistory (ss_cm s') = [] /\ IsConverged s' = false /\ cm_start (ss_cm s') = now /\ cm_goal (ss_cm s') = cm_goal (ss_cm s) /\ cm_at (ss_cm s') = cm_at (ss_cm s) /\
  ss_agents s' = ss_agents s /\ ss_perf s' = ss_perf s /\ ss_cur s' = ss_cur s.
Proof. intros now s. cbv zeta. unfold disruptMonitors, GReset, CMReset, IsConverged, CMIsConverged, CMHistory. cbn. repeat split. Qed.

(** ** C42: the period of a pattern is the mean of its intervals, truncated. *)
Lemma fold_sum l a : fold_left Z.add l a = a + fold_right Z.add 0 l.
Proof. revert a. induction l as [|x l IH]; intros a; cbn; [lia|]. rewrite IH. lia. Qed.
Theorem C42_period : forall phases freqs lo hi, freqs <> [] -> 0 <= lo -> Forall (fun d => lo <= d <= hi) freqs ->
  let p := mp_period (@NewMPattern T N phases freqs) in let n := Z.of_nat (List.length freqs) in
  lo <= p <= hi /\ p * n <= fold_right Z.add 0 freqs < (p + 1) * n.
Proof.
  intros phases freqs lo hi NE L0 FA p n. subst p. cbn [mp_period NewMPattern]. unfold calculatePeriod. destruct freqs as [|d r]; [congruence|]. fold n.
  rewrite fold_sum, Z.add_0_l. set (S := fold_right Z.add 0 (d :: r)).
  assert (B : lo * n <= S <= hi * n).
  { subst S n. clear NE. revert FA. generalize (d :: r). intros l. induction l as [|x l IH]; intros FA; [cbn; lia|]. inversion FA as [|? ? X1 X2]; subst. specialize (IH X2).
    cbn [fold_right List.length]. rewrite Nat2Z.inj_succ. nia. }
  assert (P : 0 < n) by (subst n; cbn [List.length]; lia). rewrite Z.quot_div_nonneg by nia.
  pose proof (Z.div_mod S n ltac:(lia)) as E. pose proof (Z.mod_pos_bound S n P) as M. nia.
Qed.
Theorem C42_period_empty : forall phases, mp_period (@NewMPattern T N phases []) = 0.
Proof. reflexivity. Qed.
End Mem.

(** ** C45: an agent of a declared scale never needs more neighbours than there are other agents, and the limit of
    neighbours is never larger than 20. *)
Theorem C45_neighbors : forall s, 3 <= ScaleMaxNeighbors s <= 20 /\ ScaleMaxNeighbors s < DefaultAgentCount s.
Proof. intros s. unfold ScaleMaxNeighbors, DefaultAgentCount, onScale. repeat match goal with |- context [s =? ?k] => destruct (s =? k) end; lia. Qed.

(** Instances: the restart of C29_restart_example has one replaced synchronisation; a fall from 0.9 to 0.1; a period. *)
Example C28_drop_instance tr : let cfg := @DefaultRecoveryConfig F (FNum tr) (flit 9 10) in flt (flit 1 10) (fsub (flit 9 10) (fmul (flit 9 10) (rc_small cfg))) = true.
Proof. vm_compute. reflexivity. Qed.
Example C42_period_instance : calculatePeriod [5; 8] = 6 /\ Forall (fun d => 5 <= d <= 8) [5; 8].
Proof. split; [reflexivity|]. repeat constructor; lia. Qed.
Print Assumptions C28_sudden_drop.
Print Assumptions C28_peak_follows.
Print Assumptions C29_replaced_cancelled.
Print Assumptions C34_monitors.
Print Assumptions C42_period.
Print Assumptions C42_period_empty.
Print Assumptions C45_neighbors.
