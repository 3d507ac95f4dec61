(** C97: the lifetime of a client: one Start after another with disruptions in between, and RunContinuous on top of it. *)
From Coq Require Import ZArith Reals Psatz Bool List String Lia Permutation.
From Flocq Require Import Core.Core IEEE754.BinarySingleNaN.
From Verif Require Import Num GoBase F64 RealNum M_Random M_Core M_Strategy M_Agent M_AgentConfig M_Limits M_GoalConfig M_Monitor M_ConvMonitor M_Engine M_Swarm M_Scale M_Sync M_Client M_Continuous
  S_Sync S_Acc S_Agent S_Round S_Swarm L_F64 L_F64x L_Ford L_Acc L_Bnd L_Random L_Agent L_Swarm L_Coherence P_Core P_Accuracy P_Round P_Periods P_Swarm P_Limits P_Sync P_Client L_Dist L_TrigZero P_Disrupt P_Reach.
Import ListNotations.
Open Scope list_scope.
Open Scope Z_scope.

(** ** A continuous run whose first synchronisation does not succeed *)
(** How the current synchronisation ends the first time it ends. *)
Fixpoint firstEnd {T} (l : list (Act T)) : option SyncErr :=
  match l with [] => None | AEnd O e :: _ => Some e | _ :: r => firstEnd r end.
(** The caller does not end the context. *)
Definition live {T} (a : Act T) : Prop := match a with ADone _ => False | _ => True end.
Section Once.
Context {T : Type} {N : Num T}.
Lemma tick_active (s : Cont T) t1 t2 t3 coh : ms_active (ct_mon s) = true ->
  let s' := tickCont s t1 t2 t3 coh in ct_ctx s' = ct_ctx s /\ ct_cur s' = ct_cur s /\ ct_old s' = ct_old s /\ ct_res s' = ct_res s /\ ms_active (ct_mon s') = true.
Proof.
  intros H. cbv zeta. unfold tickCont. assert (A : ms_active (snd (tickState (ct_rec s) (ct_target s) (ct_mon s) coh)) = true) by (unfold tickState; cbv zeta; now destruct (needsResync _ _ _ _)).
  destruct (tickState _ _ _ _) as [should m]. cbn [snd] in A. rewrite A. cbn [negb]. rewrite andb_false_r. cbn [andb]. cbn. auto.
Qed.
(** Waiting for the first end. *)
Definition waiting (s : Cont T) : Prop := ct_old s = [] /\ ct_ctx s = CtxLive /\ in_cancel (ct_cur s) = false /\ ct_res s = CRunning /\ ms_active (ct_mon s) = true /\ in_run (ct_cur s) = true /\ in_chan (ct_cur s) = Empty.
(** It failed; the result is still in the channel, or it was returned. *)
Definition failed (s : Cont T) : Prop := ct_old s = [] /\ ct_ctx s = CtxLive /\ in_run (ct_cur s) = false /\
  ((ct_res s = CRunning /\ ms_active (ct_mon s) = true /\ in_chan (ct_cur s) = Full EFailed) \/ ct_res s = CReturned EFailed).
Lemma failed_step s a s' : live a -> failed s -> contStep s a = Some s' -> failed s'.
Proof.
  intros HL (A & B & C & D). destruct a as [c|[|k] e| | |t1 t2 t3 coh]; cbn [contStep]; [contradiction| | | | |].
  - unfold mayEnd. rewrite C. discriminate.
  - rewrite A. destruct k; discriminate.
  - rewrite B. cbn [ctxErr]. destruct (ct_res s); discriminate.
  - destruct D as [(D1 & D2 & D3)|D]; [|rewrite D; discriminate]. rewrite D1, D3. intros E. injection E as <-. unfold failed. cbn. auto.
  - destruct D as [(D1 & D2 & D3)|D]; [|rewrite D; discriminate]. rewrite D1. intros E. injection E as <-. destruct (tick_active s t1 t2 t3 coh D2) as (E1 & E2 & E3 & E4 & E5).
    unfold failed. rewrite E1, E2, E3, E4, E5. auto 9.
Qed.
Lemma failed_run : forall l s s', Forall live l -> failed s -> contRun s l = Some s' -> failed s'.
Proof.
  induction l as [|a l IH]; intros s s' HL HF; cbn [contRun]; [congruence|]. inversion HL as [|? ? H1 H2]. subst. destruct (contStep s a) as [s1|] eqn:E; [|discriminate]. intros R. apply (IH s1 s' H2); [eapply failed_step; eauto|exact R].
Qed.
Lemma waiting_run : forall l s s', Forall live l -> firstEnd l <> Some ENil -> waiting s -> contRun s l = Some s' -> waiting s' \/ failed s'.
Proof.
  induction l as [|a l IH]; intros s s' HL HN HW; cbn [contRun]; [intros E; injection E as <-; now left|]. inversion HL as [|? ? H1 H2]. subst.
  pose proof HW as HW'. destruct HW as (A & B & C & D & E & F & G). destruct (contStep s a) as [s1|] eqn:ES; [|discriminate]. intros R.
  destruct a as [c|[|k] e| | |t1 t2 t3 coh]; cbn [contStep] in ES; cbn [firstEnd] in HN; [contradiction| | | | |].
  - unfold mayEnd in ES. rewrite B, C, F in ES. cbn [andb orb] in ES. destruct e; try discriminate; [now contradiction HN|]. injection ES as <-. right. eapply failed_run; [exact H2| |exact R]. unfold failed. cbn. auto 7.
  - rewrite A in ES. destruct k; discriminate.
  - rewrite B in ES. cbn [ctxErr] in ES. destruct (ct_res s); discriminate.
  - rewrite D, G in ES. discriminate.
  - rewrite D in ES. injection ES as <-. destruct (tick_active s t1 t2 t3 coh E) as (E1 & E2 & E3 & E4 & E5). apply (IH (tickCont s t1 t2 t3 coh) s' H2 HN); [|exact R]. unfold waiting. rewrite E1, E2, E3, E4, E5. auto 8.
Qed.
(** If the first synchronisation does not succeed there is never a second one: while it goes on nothing is restarted, whatever the
    measurements, and when it fails RunContinuous returns its error although the caller's context is alive. *)
Theorem C97_one_attempt : forall rec target t0 t1 (coh : T) l s, 0 <= rc_interval rec -> Forall live l -> firstEnd l <> Some ENil ->
  contRun (contStart rec target t0 t1 coh) l = Some s ->
  ct_old s = [] /\ (ct_res s = CRunning \/ ct_res s = CReturned EFailed) /\ (in_run (ct_cur s) = true -> ct_res s = CRunning).
Proof.
  intros rec target t0 t1 coh l s HI HL HN HR. assert (P : ct_res (contStart rec target t0 t1 coh) = CRunning).
  { unfold contStart. cbv zeta. cbn [ct_res]. destruct (Z.eqb_spec (rc_interval rec) 0) as [Z|Z].
    - unfold DefaultRecoveryConfig. repeat match goal with |- context [if nle ?a ?b then _ else _] => destruct (nle a b) end; reflexivity.
    - destruct (Z.leb_spec (rc_interval rec) 0); [lia|reflexivity]. }
  apply (waiting_run l _ s HL HN) in HR; [|unfold waiting; rewrite P; cbn; auto 8]. destruct HR as [(A & B & C & D & E & F & G)|(A & B & C & D)].
  - split; [exact A|]. split; [now left|auto].
  - split; [exact A|]. split; [destruct D as [(D & _)|D]; auto|]. rewrite C. discriminate.
Qed.
(** And it can go on to that end: the failure, then the select that reads it. *)
Theorem C97_one_attempt_returns : forall rec target t0 t1 (coh : T) l s, 0 <= rc_interval rec -> Forall live l -> firstEnd l = Some EFailed ->
  contRun (contStart rec target t0 t1 coh) l = Some s -> ct_res s = CRunning -> exists s', contStep s ASelSync = Some s' /\ ct_res s' = CReturned EFailed.
Proof.
  intros rec target t0 t1 coh l s HI HL HN HR HC. assert (NN : firstEnd l <> Some ENil) by congruence. destruct (C97_one_attempt rec target t0 t1 coh l s HI HL NN HR) as (A & _ & _).
  assert (Q : failed s).
  { assert (P : ct_res (contStart rec target t0 t1 coh) = CRunning).
    { unfold contStart. cbv zeta. cbn [ct_res]. destruct (Z.eqb_spec (rc_interval rec) 0) as [Z|Z].
      - unfold DefaultRecoveryConfig. repeat match goal with |- context [if nle ?a ?b then _ else _] => destruct (nle a b) end; reflexivity.
      - destruct (Z.leb_spec (rc_interval rec) 0); [lia|reflexivity]. }
    assert (W : waiting (contStart rec target t0 t1 coh)) by (unfold waiting; rewrite P; cbn; auto 8). revert W HN HL HR. generalize (contStart rec target t0 t1 coh). clear. induction l as [|a l IH]; intros s0 W HN HL HR; [discriminate|]. cbn [contRun] in HR.
    inversion HL as [|? ? H1 H2]. subst. destruct (contStep s0 a) as [s1|] eqn:ES; [|discriminate]. pose proof W as (A & B & C & D & E & F & G). destruct a as [c|[|k] e| | |u1 u2 u3 co]; cbn [contStep] in ES; cbn [firstEnd] in HN; [contradiction| | | | |].
    - injection HN as ->. unfold mayEnd in ES. rewrite F in ES. cbn [andb] in ES. injection ES as <-. eapply failed_run; [exact H2| |exact HR]. unfold failed. cbn. auto 7.
    - rewrite A in ES. destruct k; discriminate.
    - rewrite B in ES. cbn [ctxErr] in ES. destruct (ct_res s0); discriminate.
    - rewrite D, G in ES. discriminate.
    - rewrite D in ES. injection ES as <-. destruct (tick_active s0 u1 u2 u3 co E) as (E1 & E2 & E3 & E4 & E5). apply (IH (tickCont s0 u1 u2 u3 co)) in HR; auto. unfold waiting. rewrite E1, E2, E3, E4, E5. auto 8. }
  destruct Q as (_ & _ & _ & [(Q1 & Q2 & Q3)|Q]); [|congruence]. cbn [contStep]. rewrite Q1, Q3. eexists. split; reflexivity.
Qed.

(** ** A second Start after a success *)
(** Nobody else touches the agents and the traversals keep the order. *)
Definition still (ev : SyncEvent T) : Prop := match ev with Tick e => forall k l, ev_view e k l = l | Cancel => True end.
Lemma round_still cfg target e s s' : (forall k l, ev_view e k l = l) -> round cfg target e s = Some (s', true) ->
  ss_agents s' = ss_agents s /\ isPatternAchieved cfg target (ss_agents s) (measureSystemPattern (ss_agents s) (ss_agents s)) = true.
Proof.
  intros V. unfold round. cbv zeta. rewrite !V. destruct (isPatternAchieved _ _ _ _) eqn:Q; [intros E; injection E as <-; split; reflexivity|].
  destruct (if ShouldSwitchStrategy _ then _ else _) as [[pf cu]|]; [|discriminate]. destruct (CompletePattern _ _ _); [|discriminate]. destruct (MeasurePhaseVariance _ _); [|discriminate].
  destruct (if IsStuck _ then _ else _); discriminate.
Qed.
Lemma loop_still cfg target : forall evs mx it s k s', Forall still evs -> syncLoop cfg target mx it evs s = (SNil, k, s') ->
  isPatternAchieved cfg target (ss_agents s') (measureSystemPattern (ss_agents s') (ss_agents s')) = true.
Proof.
  induction evs as [|ev evs IH]; intros mx it s k s' HS; cbn [syncLoop]; destruct (it <? mx); try discriminate. inversion HS as [|? ? H1 H2]. subst. destruct ev as [|e]; [discriminate|].
  destruct (round cfg target e s) as [[s1 [|]]|] eqn:R; [|now apply IH|discriminate]. intros E. injection E as _ <-. destruct (round_still cfg target e s s1 H1 R) as [A B]. now rewrite A.
Qed.
(** A run that succeeded succeeds again at its first look and moves nobody, as long as nothing else happens in between. *)
Theorem C97_again : forall cfg target evs mx it s k s' mx' e r, Forall still evs -> still (Tick e) -> syncLoop cfg target mx it evs s = (SNil, k, s') -> 0 < mx' ->
  exists s'', syncLoop cfg target mx' 0 (Tick e :: r) (setMonTarget target s') = (SNil, 1, s'') /\ ss_agents s'' = ss_agents s'.
Proof.
  intros cfg target evs mx it s k s' mx' e r HS HE HR HM. apply loop_still in HR; [|exact HS]. cbn [syncLoop]. rewrite (proj2 (Z.ltb_lt 0 mx') HM). unfold round. cbv zeta. rewrite !HE. cbn [setMonTarget ss_agents]. rewrite HR. eexists. split; reflexivity.
Qed.
End Once.

(** ** The lifetime of a client made by the library *)
Section Life.
Variable tr : Trig.
Hypothesis SANE : trig_sane tr.
Variable e : R.
Hypothesis ACC : trig_acc tr e.
Hypothesis EB : (0 <= e <= 1 / 1000)%R.
Local Notation NF := (FNum tr).
(** What can happen to a client: client/emerge/emerge.go:40-42 Start, and emerge/swarm/swarm.go:560-608 DisruptAgents or any other change of the agents
    through their handles, together with the reset of the monitors. *)
Inductive COp := CStart (evs : list (SyncEvent F)) | CChange (now : Z) (f : list (Agent F) -> list (Agent F)).
Definition lifeStep cfg goal (o : COp) (s : SyncState F) : option SyncRes * SyncState F :=
  match o with
  | CStart evs => (Some (fst (fst (Run tr cfg goal evs s))), snd (Run tr cfg goal evs s))
  | CChange now f => (None, @disruptMonitors F NF now (mkSS (f (ss_agents s)) (ss_mon s) (ss_perf s) (ss_cur s) (ss_cm s)))
  end.
Fixpoint life cfg goal (ops : list COp) (s : SyncState F) : list SyncRes * SyncState F :=
  match ops with
  | [] => ([], s)
  | o :: r => let (x, s') := lifeStep cfg goal o s in let (xs, s'') := life cfg goal r s' in (match x with Some y => y :: xs | None => xs end, s'')
  end.
(** Nothing touches the periods: phases may be changed to any other phase of the circle, in any number of agents. *)
Definition phasesOnly (f : list (Agent F) -> list (Agent F)) : Prop :=
  forall l, List.length (f l) = List.length l /\ Permutation (map freqOf (f l)) (map freqOf l) /\ (Forall agent_fine l -> Forall agent_fine (f l)).
Definition phasesOp (o : COp) : Prop := match o with CStart evs => Forall quiet evs | CChange _ f => phasesOnly f end.
Lemma loop_trapped cfg t mx : cfg_moderate cfg -> fair t -> outOfReach cfg (tp_freq t) -> forall evs it s, Forall quiet evs -> trapped (ss_agents s) ->
  trapped (ss_agents (snd (@syncLoop F NF cfg t mx it evs s))).
Proof.
  intros HC HT HO. induction evs as [|ev evs IH]; intros it s HE HS; cbn [syncLoop]; destruct (it <? mx); try exact HS. inversion HE as [|? ? H1 H2]. subst. destruct ev as [|en]; [exact HS|].
  destruct (round cfg t en s) as [[s' b]|] eqn:R; [|exact HS]. destruct (C91_round tr e SANE ACC EB cfg t en s s' b HC HT HO H1 HS R) as [-> T]. now apply IH.
Qed.
Lemma run_trapped cfg goal evs s : cfg_moderate cfg -> fair (@goalPattern F NF goal) -> outOfReach cfg (st_freq goal) -> Forall quiet evs -> trapped (ss_agents s) ->
  fst (fst (Run tr cfg goal evs s)) <> SNil /\ trapped (ss_agents (snd (Run tr cfg goal evs s))).
Proof.
  intros HC HT HO HE HS. split; [now apply (C91_never_succeeds tr e SANE ACC EB)|]. unfold Run, AchieveSynchronization. cbv zeta. destruct (_ <=? 0); [exact HS|].
  destruct (adjust_fair tr e EB (Z.of_nat (List.length (ss_agents s))) (goalPattern goal) HT) as [A B]. apply loop_trapped; [exact HC|exact A|rewrite B; exact HO|exact HE|exact HS].
Qed.
Theorem C97_life : forall cfg goal ops s, cfg_moderate cfg -> fair (@goalPattern F NF goal) -> outOfReach cfg (st_freq goal) -> Forall phasesOp ops -> trapped (ss_agents s) ->
  ~ In SNil (fst (life cfg goal ops s)) /\ trapped (ss_agents (snd (life cfg goal ops s))).
Proof.
  intros cfg goal ops s HC HT HO. revert s. induction ops as [|o ops IH]; intros s HF HS; [split; [auto|exact HS]|]. inversion HF as [|? ? H1 H2]. subst. cbn [life].
  destruct o as [evs|now f]; cbn [lifeStep].
  - destruct (run_trapped cfg goal evs s HC HT HO H1 HS) as [A B]. specialize (IH _ H2 B). destruct (life cfg goal ops _) as [xs s'']. cbn [fst snd] in *. destruct IH as [I1 I2]. split; [intros [H|H]; [congruence|contradiction]|exact I2].
  - match goal with |- context [life cfg goal ops ?x] => set (s1 := x) end. assert (T1 : trapped (ss_agents s1)).
    { unfold s1. cbn [disruptMonitors ss_agents]. destruct HS as (S1 & S2 & S3 & S4). destruct (H1 (ss_agents s)) as (P1 & P2 & P3). split; [|split; [|split]].
      - intros H. rewrite H in P1. now destruct (ss_agents s).
      - now rewrite P1.
      - auto.
      - eapply short_perm; [exact P2|exact S4]. }
    specialize (IH s1 H2 T1). destruct (life cfg goal ops s1) as [xs s'']. exact IH.
Qed.
(** What C91 needs of a client, for every state of its agents. *)
Lemma client_needs b cpus dr ro fl il cl now st : b_goal b <> AdaptToTraffic -> @Build F NF b cpus dr ro fl il = BuildOK cl -> @startState F NF now (cl_swarm cl) = Some st ->
  (exists a, In a (ss_agents st) /\ freqOf a <> 100000000) ->
  cfg_moderate (@syncConfig F NF (cl_swarm cl)) /\ fair (@goalPattern F NF (s_goal (cl_swarm cl))) /\ outOfReach (@syncConfig F NF (cl_swarm cl)) (st_freq (s_goal (cl_swarm cl))) /\ trapped (ss_agents st).
Proof.
  intros HG HB HS HA. destruct (C91_client_agents tr b cpus dr ro fl il cl HB) as (m & M1 & M2 & M3 & _). pose proof (count_range (M_Client.b_scale b)) as CR.
  unfold startState in HS. rewrite M1 in HS. injection HS as HS. subst st. destruct b as [g sc c]. destruct (C53_result tr g sc c cpus dr ro fl il cl HB) as (_ & _ & R3 & R4 & _ & R6 & _ & R8 & R9). cbn [M_Client.b_scale b_goal] in *.
  unfold syncConfig. rewrite R4, R3. split; [apply size_moderate|]. split; [|split].
  - unfold goalPattern. constructor; cbn [tp_phase tp_coh].
    + rewrite R9. apply zero60.
    + rewrite R6. set (want := if fle c (fofZ 0) then _ else _). set (top := lim_prac _).
      assert (T : unitF top).
      { assert (L1 : is_finite top = true) by (destruct (lim_fin tr (DefaultAgentCount sc)) as (_ & L1 & _); exact L1). split; [exact L1|].
        assert (Q : (fle (fofZ 0) top && fle top (fofZ 1))%bool = true) by (unfold top, GetCoherenceLimits; repeat match goal with |- context [if ?b then _ else _] => destruct b end; vm_compute; reflexivity).
        clearbody top. apply andb_prop in Q. destruct Q as [Q1 Q2]. apply fle_true in Q1, Q2. destruct Q1 as (_ & _ & Q1). destruct Q2 as (_ & _ & Q2). rewrite (ford_fofZ 0), (ford_fin _ L1) in Q1 by lia. rewrite (ford_fofZ 1), (ford_fin _ L1) in Q2 by lia. lra. }
      destruct (flt top want); [exact T|].
      assert (G : goal_valid (stateOf tr (mkBuilder g sc c))).
      { destruct (ok_dec tr (DefaultAgentCount sc) (stateOf tr (mkBuilder g sc c))) as [[_ G]|C]; [exact G|]. exfalso. apply (C19_error_iff tr cpus (DefaultAgentCount sc) (stateOf tr (mkBuilder g sc c)) dr ro fl il) in C. destruct C as [er C]. rewrite (build_eq tr) in HB. cbn [M_Client.b_scale] in HB. change (P_Swarm.NF tr) with NF in C. change (P_Client.NF tr) with NF in HB. rewrite C in HB. discriminate. }
      destruct G as (_ & G1 & G2 & _). change (st_coh (stateOf tr (mkBuilder g sc c))) with want in G1, G2. apply fle_true in G1, G2. destruct G1 as (_ & N1 & G1). destruct G2 as (_ & _ & G2). rewrite (ford_fofZ 0) in G1 by lia. rewrite (ford_fofZ 1) in G2 by lia.
      assert (Fw : is_finite want = true) by (apply ford_fin_inv; [exact N1|pose proof BIG_ge_1000; lra]). split; [exact Fw|]. rewrite ford_fin in G1, G2 by exact Fw. lra.
  - rewrite R8. now apply C91_goals.
  - cbn [newSync ss_agents] in *. apply fresh_trapped; [exact M3|rewrite map_length; lia|exact HA].
Qed.
(** REFUTED, for the whole lifetime: however often Start is called on a client of the library, and whatever is done to the phases in between
    (DisruptAgents included), no Start ever succeeds. *)
Theorem C97_client_life_refuted : forall b cpus dr ro fl il cl now st ops, b_goal b <> AdaptToTraffic -> @Build F NF b cpus dr ro fl il = BuildOK cl ->
  @startState F NF now (cl_swarm cl) = Some st -> (exists a, In a (ss_agents st) /\ freqOf a <> 100000000) -> Forall phasesOp ops ->
  ~ In SNil (fst (life (@syncConfig F NF (cl_swarm cl)) (s_goal (cl_swarm cl)) ops st)).
Proof.
  intros b cpus dr ro fl il cl now st ops HG HB HS HA HO. destruct (client_needs b cpus dr ro fl il cl now st HG HB HS HA) as (A & B & C & D). now apply C97_life.
Qed.
(** REFUTED: "This method only exits when the context is canceled" and "continuous recovery attempts".  On such a client RunContinuous makes a single attempt:
    if the way the first synchronisation ends is a way a run of it can end, then nothing is ever restarted and the only way out, with the context alive, is the error. *)
Theorem C97_client_continuous_refuted : forall b cpus dr ro fl il cl now st rec target t0 t1 coh l s, b_goal b <> AdaptToTraffic -> @Build F NF b cpus dr ro fl il = BuildOK cl ->
  @startState F NF now (cl_swarm cl) = Some st -> (exists a, In a (ss_agents st) /\ freqOf a <> 100000000) -> 0 <= rc_interval rec -> Forall live l ->
  (firstEnd l = Some ENil -> exists ops evs st', Forall phasesOp ops /\ Forall quiet evs /\ st' = snd (life (@syncConfig F NF (cl_swarm cl)) (s_goal (cl_swarm cl)) ops st) /\
    fst (fst (Run tr (@syncConfig F NF (cl_swarm cl)) (s_goal (cl_swarm cl)) evs st')) = SNil) ->
  @contRun F NF (@contStart F NF rec target t0 t1 coh) l = Some s -> ct_old s = [] /\ (ct_res s = CRunning \/ ct_res s = CReturned EFailed).
Proof.
  intros b cpus dr ro fl il cl now st rec target t0 t1 coh l s HG HB HS HA HI HL HJ HR. destruct (client_needs b cpus dr ro fl il cl now st HG HB HS HA) as (A & B & C & D).
  destruct (@C97_one_attempt F NF rec target t0 t1 coh l s HI HL) as (P & Q & _); [|exact HR|auto]. intros E. destruct (HJ E) as (ops & evs & st' & H1 & H2 & -> & H4).
  apply (run_trapped (syncConfig (cl_swarm cl)) (s_goal (cl_swarm cl)) evs _ A B C H2) in H4; [exact H4|]. now apply C97_life.
Qed.
End Life.

(** ** DisruptAgents is one of these changes *)
Definition disruptList (tr : Trig) (target : Z) (d : nat -> Z) (l : list (Agent F)) : list (Agent F) :=
  map snd (@disruptLoop F (FNum tr) target 0 d (map (fun a => (ag_id a, a)) l)).
Lemma disrupt_freqs tr target d : forall l i, map freqOf (map snd (@disruptLoop F (FNum tr) target i d l)) = map freqOf (map snd l).
Proof. induction l as [|[k a] l IH]; intros i; [reflexivity|]. cbn [disruptLoop]. destruct (_ >=? _); [reflexivity|]. cbn [map snd]. rewrite IH. reflexivity. Qed.
Lemma disrupt_fine tr target d : forall l i, Forall agent_fine (map snd l) -> Forall agent_fine (map snd (@disruptLoop F (FNum tr) target i d l)).
Proof.
  induction l as [|[k a] l IH]; intros i H; [constructor|]. cbn [disruptLoop]. destruct (_ >=? _); [exact H|]. cbn [map snd] in *. inversion H as [|? ? [H1 H2] H3]. subst. constructor; [|now apply IH].
  split; [exact (C34_new_phase tr (d (Z.to_nat i)))|exact H2].
Qed.
Theorem C97_disruptions_count : forall tr target d, phasesOnly (disruptList tr target d).
Proof.
  intros tr target d l. unfold disruptList. assert (E : map snd (map (fun a : Agent F => (ag_id a, a)) l) = l) by (rewrite map_map; cbn [snd]; apply map_id).
  pose proof (disrupt_freqs tr target d (map (fun a => (ag_id a, a)) l) 0) as Q. rewrite E in Q. split; [|split].
  - apply (f_equal (@List.length _)) in Q. rewrite !map_length in Q. rewrite map_length. exact Q.
  - now rewrite Q.
  - intros H. apply disrupt_fine. now rewrite E.
Qed.

(** ** Start does return without an error and without the context being canceled *)
(** REFUTED: "The method blocks until the context is canceled or an error occurs" (client/emerge/emerge.go:39): Start is Run, and a run that reaches its goal
    returns nil. *)
Theorem C97_blocks_refuted : forall tr, trig_zero tr -> exists s st evs st', zeroSwarm tr = NewOK s /\ @startState F (FNum tr) 0 s = Some st /\
  Forall (fun ev => ev <> Cancel) evs /\ Run tr (@syncConfig F (FNum tr) s) (s_goal s) evs st = (SNil, 1, st').
Proof.
  intros tr Z. assert (Q : silent tr (zeroSwarm tr) = true) by (rewrite (at0_id tr Z); vm_compute; reflexivity).
  revert Q. generalize (zeroSwarm tr). intros r Q. unfold silent in Q.
  destruct r as [| | |s]; [discriminate Q|discriminate Q|discriminate Q|]. destruct (@startState F (FNum tr) 0 s) as [st|] eqn:EST; [|discriminate Q].
  destruct (Run tr _ _ [Tick quietEnv] st) as [[res k] st'] eqn:ER. destruct res; [|discriminate Q|discriminate Q|discriminate Q|discriminate Q].
  rewrite !andb_true_iff, Z.eqb_eq in Q. destruct Q as [[[-> _] _] _]. exists s, st, [Tick quietEnv], st'. split; [reflexivity|]. split; [exact EST|]. split; [constructor; [discriminate|constructor]|exact ER].
Qed.

(** ** Exact arithmetic: the order of the traversals does not matter either *)
Section Order.
Open Scope R_scope.
Lemma fold_perm {A B} (g : B -> A -> B) : (forall s a b, g (g s a) b = g (g s b) a) -> forall l l', Permutation l l' -> forall s, fold_left g l s = fold_left g l' s.
Proof. intros C l l' P. induction P; intros s; cbn [fold_left]; [reflexivity|apply IHP|now rewrite C|now rewrite IHP1, IHP2]. Qed.
Lemma fold_permR (A : Type) (f : A -> R) l l' s : Permutation l l' -> fold_left (fun s a => @nadd R RNum s (f a)) l s = fold_left (fun s a => @nadd R RNum s (f a)) l' s.
Proof. intros P. apply (fold_perm (fun s a => @nadd R RNum s (f a))); [|exact P]. intros x a b. change (x + f a + f b = x + f b + f a). ring. Qed.
Lemma coherence_perm (l l' : list (Agent R)) : Permutation l l' -> @swarmCoherence R RNum l = @swarmCoherence R RNum l'.
Proof.
  intros P. unfold swarmCoherence, MeasureCoherence. apply (Permutation_map (@phaseOf R)) in P. destruct (map phaseOf l) as [|x r] eqn:E1; [apply Permutation_nil in P; now rewrite P|].
  destruct (map phaseOf l') as [|y q] eqn:E2; [symmetry in P; apply Permutation_nil in P; discriminate|]. cbv zeta. rewrite (Permutation_length P), (fold_permR _ (@ncos R RNum) _ _ _ P), (fold_permR _ (@nsin R RNum) _ _ _ P). reflexivity.
Qed.
Lemma measured_perm (l1 l1' l2 l2' : list (Agent R)) : Permutation l1 l1' -> Permutation l2 l2' -> @measureSystemPattern R RNum l1 l2 = @measureSystemPattern R RNum l1' l2'.
Proof.
  intros P Q. pose proof (measured_mean (N := RNum) l1 l2) as M1. pose proof (measured_mean (N := RNum) l1' l2') as M2. rewrite (meanPeriod_perm _ _ (Permutation_map freqOf P)) in M1. rewrite <- M2 in M1. clear M2.
  unfold measureSystemPattern, meanPhase in *. destruct l1 as [|x r]; [apply Permutation_nil in P; now rewrite P|]. destruct l1' as [|y q]; [symmetry in P; apply Permutation_nil in P; discriminate|].
  cbv zeta in *. cbn [tp_freq] in M1. rewrite M1, (coherence_perm _ _ Q), (fold_permR _ (fun a => @ncos R RNum (phaseOf a)) _ _ _ P), (fold_permR _ (fun a => @nsin R RNum (phaseOf a)) _ _ _ P), (Permutation_length P). reflexivity.
Qed.
Lemma achieved_perm cfg target (l l' : list (Agent R)) cur : Permutation l l' -> @isPatternAchieved R RNum cfg target l cur = @isPatternAchieved R RNum cfg target l' cur.
Proof.
  intros P. unfold isPatternAchieved. cbv zeta. rewrite (Permutation_length P). assert (M : @MeasurePhaseConvergence R RNum l (tp_phase target) = @MeasurePhaseConvergence R RNum l' (tp_phase target)).
  { unfold MeasurePhaseConvergence. destruct l as [|x r]; [apply Permutation_nil in P; now rewrite P|]. destruct l' as [|y q]; [symmetry in P; apply Permutation_nil in P; discriminate|].
    cbv zeta. now rewrite (Permutation_length P), (fold_permR _ (fun a => @phaseGap R RNum (tp_phase target) (phaseOf a)) _ _ _ P). }
  now rewrite M.
Qed.
(** Nobody else touches the agents; the traversals may come in any order. *)
Definition shuffled (ev : SyncEvent R) : Prop := match ev with Tick e => forall k l, Permutation (ev_view e k l) l | Cancel => True end.
Definition there cfg target (l : list (Agent R)) : bool := @isPatternAchieved R RNum cfg target l (@measureSystemPattern R RNum l l).
Lemma round_shuffled cfg target e s : shuffled (Tick e) -> there cfg target (ss_agents s) = true -> exists s', @round R RNum cfg target e s = Some (s', true) /\ Permutation (ss_agents s') (ss_agents s).
Proof.
  intros V H. cbn in V. unfold round. cbv zeta. set (a0 := ev_view e 0 _). set (a1 := ev_view e 1 _). set (a2 := ev_view e 2 _). set (a3 := ev_view e 3 _).
  assert (P0 : Permutation a0 (ss_agents s)) by apply V. assert (P1 : Permutation a1 (ss_agents s)) by (unfold a1; now rewrite V). assert (P2 : Permutation a2 (ss_agents s)) by (unfold a2; now rewrite V). assert (P3 : Permutation a3 (ss_agents s)) by (unfold a3; now rewrite V).
  rewrite (measured_perm _ _ _ _ P0 P1), (achieved_perm cfg target _ _ _ P3). unfold there in H. rewrite H. eexists. split; [reflexivity|exact P3].
Qed.
Lemma round_found cfg target e s s' : shuffled (Tick e) -> @round R RNum cfg target e s = Some (s', true) -> there cfg target (ss_agents s') = true.
Proof.
  intros V HR. cbn in V. revert HR. unfold round. cbv zeta. set (a0 := ev_view e 0 _). set (a1 := ev_view e 1 _). set (a2 := ev_view e 2 _). set (a3 := ev_view e 3 _).
  assert (P1 : Permutation a1 a0) by apply V. assert (P3 : Permutation a3 a0) by (unfold a3, a2; now rewrite !V).
  destruct (isPatternAchieved cfg target a3 _) eqn:Q.
  - intros E. injection E as <-. cbn [ss_agents]. unfold there. rewrite <- Q. f_equal. apply measured_perm; [exact P3|]. now rewrite P1.
  - destruct (if ShouldSwitchStrategy _ then _ else _) as [[pf cu]|]; [|discriminate]. destruct (CompletePattern _ _ _); [|discriminate]. destruct (MeasurePhaseVariance _ _); [|discriminate]. destruct (if IsStuck _ then _ else _); discriminate.
Qed.
Theorem C97_again_any_order : forall cfg target evs mx it s k s' mx' e r, Forall shuffled evs -> shuffled (Tick e) -> @syncLoop R RNum cfg target mx it evs s = (SNil, k, s') -> (0 < mx')%Z ->
  exists s'', @syncLoop R RNum cfg target mx' 0 (Tick e :: r) (@setMonTarget R target s') = (SNil, 1%Z, s'') /\ Permutation (ss_agents s'') (ss_agents s').
Proof.
  intros cfg target evs mx it s k s' mx' e r HS HE HR HM. assert (TH : there cfg target (ss_agents s') = true).
  { revert it s HR HS. induction evs as [|ev evs IH]; intros it s; cbn [syncLoop]; destruct (it <? mx)%Z; try discriminate. destruct ev as [|e0]; [discriminate|]. intros HR HS. inversion HS as [|? ? H1 H2]. subst.
    destruct (round cfg target e0 s) as [[s1 [|]]|] eqn:R; [|now apply (IH _ _ HR)|discriminate]. injection HR as _ <-. now apply (round_found cfg target e0 s). }
  cbn [syncLoop]. rewrite (proj2 (Z.ltb_lt 0 mx') HM). destruct (round_shuffled cfg target e (setMonTarget target s') HE TH) as (s'' & A & B). rewrite A. now exists s''.
Qed.
End Order.

(** ** Witnesses *)
Example C97_life_example : exists cl st, trig_sane crTrig /\ trig_acc crTrig (/ 2 ^ 51) /\ (0 <= / 2 ^ 51 <= 1 / 1000)%R /\
  @Build F (FNum crTrig) (@ClientMinimizeAPICalls F (FNum crTrig) Tiny) 4 halfDraws (fun l => l) (repeat (fofZ 0) 400) [] = BuildOK cl /\ @startState F (FNum crTrig) 0 (cl_swarm cl) = Some st /\
  (exists a, In a (ss_agents st) /\ freqOf a <> 100000000) /\
  Forall phasesOp [CStart (repeat (Tick quietEnv) 1000); CChange 5 (disruptList crTrig 7 (fun _ => 3)); CStart [Tick quietEnv; Cancel]].
Proof.
  destruct C91_applies as (cl & st & A & B & C & D & E & F & _). exists cl, st. repeat (split; [assumption|]). constructor; [|constructor; [|constructor; [|constructor]]].
  - cbn [phasesOp]. apply Forall_forall. intros ev H. apply repeat_spec in H. subst. exact quiet_env.
  - apply C97_disruptions_count.
  - cbn [phasesOp]. constructor; [exact quiet_env|constructor; [exact I|constructor]].
Qed.
Example C97_one_attempt_example tr : let l := [ASelTick 600000000 600000001 600000002 (flit 1 10); AEnd 0 EFailed; ASelSync] in exists s,
  @contRun F (FNum tr) (@contStart F (FNum tr) (@DefaultRecoveryConfig F (FNum tr) (flit 9 10)) (flit 9 10) 0 1 (flit 95 100)) l = Some s /\ Forall live l /\ firstEnd l = Some EFailed /\ ct_res s = CReturned EFailed.
Proof.
  cbv zeta. set (c0 := contStart _ _ _ _ _). assert (P : ct_res c0 = CRunning) by (vm_compute; reflexivity). cbn [contRun contStep]. rewrite P. destruct (@tick_active F (FNum tr) c0 600000000 600000001 600000002 (flit 1 10) eq_refl) as (E1 & E2 & E3 & E4 & E5).
  set (c1 := tickCont _ _ _ _ _) in *. clearbody c1. unfold mayEnd. rewrite E2. change (in_run (ct_cur c0)) with true. cbn [andb ct_res ct_cur endInst in_chan]. rewrite E4, P. eexists. split; [reflexivity|]. split; [repeat constructor|]. split; reflexivity.
Qed.
Example C97_again_example : Forall (@still F) [Tick quietEnv; Cancel] /\ trig_zero flatTrig.
Proof. split; [constructor; [intros k l; reflexivity|constructor; [exact I|constructor]]|exact flat_zero]. Qed.

Print Assumptions C97_one_attempt.
Print Assumptions C97_one_attempt_returns.
Print Assumptions C97_again.
Print Assumptions C97_life.
Print Assumptions C97_client_life_refuted.
Print Assumptions C97_client_continuous_refuted.
Print Assumptions C97_disruptions_count.
Print Assumptions C97_blocks_refuted.
Print Assumptions C97_again_any_order.
