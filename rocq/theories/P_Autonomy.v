(** C92: what of an agent a synchronisation looks at and changes. *)
From Coq Require Import ZArith Reals Psatz Bool List String Lia Permutation.
From Flocq Require Import Core.Core IEEE754.BinarySingleNaN.
From Verif Require Import Num GoBase F64 RealNum L_Circle M_Random M_Core M_Resource M_Strategy M_Agent M_Limits M_GoalConfig M_Monitor M_ConvMonitor M_Engine M_Swarm M_Sync S_Circle P_Agent P_RoundDir.
Import ListNotations.
Open Scope list_scope.

Section Blind.
Context {T : Type} {N : Num T}.
(** ** Vocabulary *)
(** Same phase and same period; energy, local goal, influence, stubbornness, strategy, context, resources may differ. *)
Definition alike (a b : Agent T) : Prop := sd_phase (ag_sd a) = sd_phase (ag_sd b) /\ sd_freq (ag_sd a) = sd_freq (ag_sd b).
(** Whatever else happens to the agents during the round does not depend on those attributes either. *)
Definition blindEnv (e : Env T) : Prop := forall k l l', Forall2 alike l l' -> Forall2 alike (ev_view e k l) (ev_view e k l').
Definition blindEvent (ev : SyncEvent T) : Prop := match ev with Tick e => blindEnv e | Cancel => True end.
(** Two states of the synchroniser with agents that are alike and the same history. *)
Record alikeS (s s' : SyncState T) : Prop := {
  ak_agents : Forall2 alike (ss_agents s) (ss_agents s'); ak_mon : ss_mon s = ss_mon s'; ak_perf : ss_perf s = ss_perf s';
  ak_cur : ss_cur s = ss_cur s'; ak_cm : ss_cm s = ss_cm s' }.

(** ** Measurements *)
Lemma al_len l l' : Forall2 alike l l' -> List.length l = List.length l'.
Proof. induction 1; cbn; auto. Qed.
Lemma al_phases l l' : Forall2 alike l l' -> map phaseOf l = map phaseOf l'.
Proof. induction 1 as [|a b l l' [A _] _ IH]; cbn [map]; [reflexivity|]. unfold phaseOf at 1 3. now rewrite A, IH. Qed.
Lemma al_fold {S} (f : S -> T -> S) l l' : Forall2 alike l l' -> forall s, fold_left (fun s a => f s (phaseOf a)) l s = fold_left (fun s a => f s (phaseOf a)) l' s.
Proof. induction 1 as [|a b l l' [A _] _ IH]; intros s; cbn [fold_left]; [reflexivity|]. unfold phaseOf at 2 4. now rewrite A. Qed.
Lemma al_foldF l l' : Forall2 alike l l' -> forall s, fold_left (fun s a => wrap64 (s + freqOf a)) l s = fold_left (fun s a => wrap64 (s + freqOf a)) l' s.
Proof. induction 1 as [|a b l l' [_ A] _ IH]; intros s; cbn [fold_left]; [reflexivity|]. unfold freqOf at 2 4. now rewrite A. Qed.
Lemma al_mean l l' : Forall2 alike l l' -> meanPhase l = meanPhase l'.
Proof. intros H. unfold meanPhase. cbv zeta. now rewrite (al_len _ _ H), (al_fold (fun s p => nadd s (ncos p)) _ _ H), (al_fold (fun s p => nadd s (nsin p)) _ _ H). Qed.
Lemma al_coh l l' : Forall2 alike l l' -> swarmCoherence l = swarmCoherence l'.
Proof. intros H. unfold swarmCoherence. now rewrite (al_phases _ _ H). Qed.
Lemma al_pattern l l' m m' : Forall2 alike l l' -> Forall2 alike m m' -> measureSystemPattern l m = measureSystemPattern l' m'.
Proof.
  intros H K. unfold measureSystemPattern. rewrite (al_mean _ _ H), (al_coh _ _ K), (al_len _ _ H). rewrite (al_foldF _ _ H). now destruct H.
Qed.
Lemma al_conv l l' t : Forall2 alike l l' -> MeasurePhaseConvergence l t = MeasurePhaseConvergence l' t.
Proof. intros H. unfold MeasurePhaseConvergence. rewrite (al_len _ _ H), (al_fold (fun s p => nadd s (phaseGap t p)) _ _ H). now destruct H. Qed.
Lemma al_varloop fuel m l l' : Forall2 alike l l' -> forall acc, varLoop fuel m l acc = varLoop fuel m l' acc.
Proof. induction 1 as [|a b l l' [A _] _ IH]; intros acc; cbn [varLoop]; [reflexivity|]. unfold phaseOf. rewrite A. destruct (loopDown _ _); [|reflexivity]. destruct (loopUp _ _); [|reflexivity]. apply IH. Qed.
Lemma al_var fuel l l' : Forall2 alike l l' -> MeasurePhaseVariance fuel l = MeasurePhaseVariance fuel l'.
Proof. intros H. unfold MeasurePhaseVariance. rewrite (al_mean _ _ H), (al_varloop _ _ _ _ H), (al_len _ _ H). now destruct H. Qed.
Lemma al_achieved cfg t l l' cur : Forall2 alike l l' -> isPatternAchieved cfg t l cur = isPatternAchieved cfg t l' cur.
Proof. intros H. unfold isPatternAchieved. cbv zeta. now rewrite (al_len _ _ H), (al_conv _ _ _ H). Qed.

(** ** Moves *)
Lemma al_setphase p a b : alike a b -> alike (SetPhase p a) (SetPhase p b).
Proof. intros [A B]. split; [reflexivity|exact B]. Qed.
Lemma al_adjfreq f a b : alike a b -> alike (adjustFreq f a) (adjustFreq f b).
Proof. intros [A B]. unfold adjustFreq, freqOf. rewrite B. destruct (nlt _ _); [|now split]. destruct (0 <? _)%Z; now split. Qed.
Lemma al_scatter d : forall l l' i, Forall2 alike l l' -> Forall2 alike (scatterLoop i d l) (scatterLoop i d l').
Proof. intros l l' i H. revert i. induction H as [|a b l l' A _ IH]; intros i; cbn [scatterLoop]; constructor; [|apply IH]. unfold scatterAgent, phaseOf. destruct A as [A1 A2]. rewrite A1. now apply al_setphase. Qed.
Lemma al_agent x i d sc a b : alike a b -> alike (fst (applyAgent x i d sc a)) (fst (applyAgent x i d sc b)) /\ snd (applyAgent x i d sc a) = snd (applyAgent x i d sc b).
Proof.
  intros [A B]. unfold applyAgent, phaseOf. cbv zeta. rewrite A. assert (K : alike a b) by (split; assumption).
  repeat match goal with |- context [if ?c then _ else _] => destruct c end; cbn [fst snd]; (split; [|reflexivity]); auto using al_setphase, al_adjfreq.
Qed.
Lemma al_apply x d : forall l l', Forall2 alike l l' -> forall i sc, Forall2 alike (applyLoop x i d sc l) (applyLoop x i d sc l').
Proof.
  induction 1 as [|a b l l' A _ IH]; intros i sc; cbn [applyLoop]; [constructor|]. destruct (al_agent x i (d i) sc a b A) as [B C].
  destruct (applyAgent x i (d i) sc a) as [a1 s1]. destruct (applyAgent x i (d i) sc b) as [b1 s2]. cbn [fst snd] in B, C. subst s2. constructor; [exact B|apply IH].
Qed.
Lemma al_completion cfg t cp coh var d l l' : Forall2 alike l l' -> Forall2 alike (applyPatternCompletion cfg t cp coh var d l) (applyPatternCompletion cfg t cp coh var d l').
Proof. intros H. unfold applyPatternCompletion. rewrite (al_len _ _ H). destruct (_ && _)%bool; [now apply al_scatter|now apply al_apply]. Qed.
Lemma al_nth l l' i : Forall2 alike l l' -> match nth_error l i, nth_error l' i with Some a, Some b => alike a b | None, None => True | _, _ => False end.
Proof. intros H. revert i. induction H as [|a b l l' A _ IH]; intros [|i]; cbn; auto. apply IH. Qed.
Lemma al_set l l' i a b : Forall2 alike l l' -> alike a b -> match setnth l i a, setnth l' i b with Some m, Some m' => Forall2 alike m m' | None, None => True | _, _ => False end.
Proof.
  intros H K. revert i. induction H as [|x y l l' A H IH]; intros [|i]; cbn [setnth]; auto. specialize (IH i). destruct (setnth l i a); destruct (setnth l' i b); auto.
Qed.
Lemma al_resonance cfg ord by_ no : (forall k l l', Forall2 alike l l' -> Forall2 alike (ord k l) (ord k l')) -> forall todo k l l', Forall2 alike l l' ->
  match resonanceLoop cfg ord by_ no k todo l, resonanceLoop cfg ord by_ no k todo l' with Some m, Some m' => Forall2 alike m m' | None, None => True | _, _ => False end.
Proof.
  intros HO. induction todo as [|todo IH]; intros k l l' H; cbn [resonanceLoop]; [exact H|]. pose proof (HO k _ _ H) as HK. rewrite (al_len _ _ HK). destruct (Intn _ _) as [z| |]; auto. apply IH.
  unfold nthZ, setZ. destruct (z <? 0)%Z; [exact HK|]. pose proof (al_nth _ _ (Z.to_nat z) HK) as NN. destruct (nth_error (ord k l) _) as [a|]; destruct (nth_error (ord k l') _) as [b|]; try contradiction; [|exact HK].
  assert (KA : alike (noiseAgent cfg (no k) a) (noiseAgent cfg (no k) b)). { unfold noiseAgent, phaseOf. destruct NN as [N1 N2]. rewrite N1. apply al_setphase. now split. }
  pose proof (al_set _ _ (Z.to_nat z) _ _ HK KA) as SS. destruct (setnth (ord k l) _ _); destruct (setnth (ord k l') _ _); try contradiction; assumption.
Qed.

(** ** Rounds *)
(** A round reads nothing of the agents but their phases and periods: agents which are alike before are alike after, and
    the round ends in the same way. *)
Theorem C92_round_blind : forall cfg t e s s', blindEnv e -> alikeS s s' ->
  match round cfg t e s, round cfg t e s' with
  | Some (r, b), Some (r', b') => b = b' /\ alikeS r r'
  | None, None => True
  | _, _ => False
  end.
Proof.
  intros cfg t e s s' HE [HA HM HP HC HK]. unfold round. cbv zeta.
  pose proof (HE 0%nat _ _ HA) as H0. set (a0 := ev_view e 0 (ss_agents s)) in *. set (b0 := ev_view e 0 (ss_agents s')) in *.
  pose proof (HE 1%nat _ _ H0) as H1. set (a1 := ev_view e 1 a0) in *. set (b1 := ev_view e 1 b0) in *.
  pose proof (HE 2%nat _ _ H1) as H2. set (a2 := ev_view e 2 a1) in *. set (b2 := ev_view e 2 b1) in *.
  pose proof (HE 3%nat _ _ H2) as H3. set (a3 := ev_view e 3 a2) in *. set (b3 := ev_view e 3 b2) in *.
  pose proof (HE 4%nat _ _ H3) as H4. set (a4 := ev_view e 4 a3) in *. set (b4 := ev_view e 4 b3) in *.
  pose proof (HE 5%nat _ _ H4) as H5. set (a5 := ev_view e 5 a4) in *. set (b5 := ev_view e 5 b4) in *.
  pose proof (HE 6%nat _ _ H5) as H6. set (a6 := ev_view e 6 a5) in *. set (b6 := ev_view e 6 b5) in *.
  pose proof (HE 7%nat _ _ H6) as H7. set (a7 := ev_view e 7 a6) in *. set (b7 := ev_view e 7 b6) in *.
  rewrite (al_pattern _ _ _ _ H0 H1), (al_coh _ _ H2), HM, HP, HC, (al_achieved _ _ _ _ _ H3), (al_coh _ _ H5), (al_var _ _ _ H6).
  destruct (isPatternAchieved _ _ _ _); [split; [reflexivity|]; constructor; auto|].
  destruct (if ShouldSwitchStrategy _ then _ else _) as [[pf cu]|]; [|exact I]. destruct (CompletePattern _ _ _) as [cp|]; [|exact I]. destruct (MeasurePhaseVariance _ _) as [va|]; [|exact I].
  pose proof (al_completion cfg t cp (swarmCoherence b5) va (ev_draw e) _ _ H7) as H8. pose proof (HE 8%nat _ _ H8) as H9.
  rewrite (al_len _ _ H9). destruct (IsStuck _); [|split; [reflexivity|]; constructor; auto].
  pose proof (al_resonance cfg (fun k => ev_view e (9 + k)) (ev_bytes e) (ev_noise e) (fun k => HE (9 + k)%nat) (Z.to_nat (perturbCount cfg (List.length (ev_view e 8 (applyPatternCompletion cfg t cp (swarmCoherence b5) va (ev_draw e) b7))))) 0%nat _ _ H9) as HR.
  destruct (resonanceLoop _ _ _ _ _ _ _); destruct (resonanceLoop _ _ _ _ _ _ _); try contradiction; [|exact I]. split; [reflexivity|]. constructor; auto.
Qed.
Lemma loop_blind cfg t mx : forall evs it s s', Forall blindEvent evs -> alikeS s s' ->
  let r := syncLoop cfg t mx it evs s in let r' := syncLoop cfg t mx it evs s' in fst r = fst r' /\ alikeS (snd r) (snd r').
Proof.
  induction evs as [|ev evs IH]; intros it s s' HE HS; cbn [syncLoop]; destruct (it <? mx)%Z; cbn [fst snd]; auto. inversion HE as [|? ? H1 H2]. subst. destruct ev as [|e]; cbn [fst snd]; auto.
  pose proof (C92_round_blind cfg t e s s' H1 HS) as R. destruct (round cfg t e s) as [[r [|]]|]; destruct (round cfg t e s') as [[r' b']|]; try contradiction; [destruct R as [<- R]|destruct R as [<- R]|]; cbn [fst snd]; auto.
Qed.

(** ** What a round leaves alone *)
(** Everything of an agent but its phase and its period. *)
Definition mute (a : Agent T) : Agent T := upd_sd (fun s => mkSD n0 (sd_energy s) (sd_goal s) 0) a.
Definition politeEnv (e : Env T) : Prop := forall k l, Permutation (map mute (ev_view e k l)) (map mute l).
Definition politeEvent (ev : SyncEvent T) : Prop := match ev with Tick e => politeEnv e | Cancel => True end.
Lemma mute_phase p a : mute (SetPhase p a) = mute a. Proof. reflexivity. Qed.
Lemma mute_freq f a : mute (adjustFreq f a) = mute a.
Proof. unfold adjustFreq. destruct (nlt _ _); [|reflexivity]. destruct (0 <? _)%Z; reflexivity. Qed.
Lemma mute_agent x i d sc a : mute (fst (applyAgent x i d sc a)) = mute a.
Proof. unfold applyAgent. cbv zeta. repeat match goal with |- context [if ?c then _ else _] => destruct c end; cbn [fst]; rewrite ?mute_freq, ?mute_phase; reflexivity. Qed.
Lemma mute_apply x d l : forall i sc, map mute (applyLoop x i d sc l) = map mute l.
Proof. induction l as [|a l IH]; intros i sc; cbn [applyLoop map]; [reflexivity|]. pose proof (mute_agent x i (d i) sc a) as M. destruct (applyAgent x i (d i) sc a) as [a1 s1]. cbn [map]. now rewrite IH, <- M. Qed.
Lemma mute_scatter d l : forall i, map mute (scatterLoop i d l) = map mute l.
Proof. induction l as [|a l IH]; intros i; cbn [scatterLoop map]; [reflexivity|]. now rewrite IH. Qed.
Lemma mute_completion cfg t cp coh var d l : map mute (applyPatternCompletion cfg t cp coh var d l) = map mute l.
Proof. unfold applyPatternCompletion. destruct (_ && _)%bool; [apply mute_scatter|apply mute_apply]. Qed.
Lemma mute_setnth l i a b m : nth_error l i = Some a -> mute b = mute a -> setnth l i b = Some m -> map mute m = map mute l.
Proof.
  revert i m. induction l as [|x l IH]; intros [|i] m H K; cbn [nth_error setnth] in *; try discriminate.
  - injection H as ->. intros [= <-]. cbn [map]. now rewrite K.
  - destruct (setnth l i b) as [q|] eqn:E; [|discriminate]. intros [= <-]. cbn [map]. now rewrite (IH _ _ H K E).
Qed.
Lemma mute_resonance cfg ord by_ no : (forall k l, Permutation (map mute (ord k l)) (map mute l)) -> forall todo k l m,
  resonanceLoop cfg ord by_ no k todo l = Some m -> Permutation (map mute m) (map mute l).
Proof.
  intros HO. induction todo as [|todo IH]; intros k l m; cbn [resonanceLoop]; [intros [= <-]; apply Permutation_refl|]. destruct (Intn _ _) as [z| |]; try discriminate. intros H. apply IH in H. eapply Permutation_trans; [exact H|]. clear H.
  eapply Permutation_trans; [|apply (HO k)]. unfold nthZ, setZ. destruct (z <? 0)%Z; [apply Permutation_refl|]. destruct (nth_error (ord k l) _) as [a|] eqn:E; [|apply Permutation_refl]. destruct (setnth _ _ _) as [q|] eqn:E2; [|apply Permutation_refl].
  rewrite (mute_setnth _ _ _ _ _ E (eq_refl _ : mute (noiseAgent cfg (no k) a) = mute a) E2). apply Permutation_refl.
Qed.
(** Nothing of the agents but their phases and periods is changed: no energy is spent or gained, no goal or strategy set. *)
Theorem C92_round_keeps : forall cfg t e s s' b, politeEnv e -> round cfg t e s = Some (s', b) -> Permutation (map mute (ss_agents s')) (map mute (ss_agents s)).
Proof.
  intros cfg t e s s' b HE. unfold round. cbv zeta. destruct (isPatternAchieved _ _ _ _); [intros [= <- _]; cbn [ss_agents]; repeat (eapply Permutation_trans; [apply HE|]); apply Permutation_refl|].
  destruct (if ShouldSwitchStrategy _ then _ else _) as [[pf cu]|]; [|discriminate]. destruct (CompletePattern _ _ _) as [cp|]; [|discriminate]. destruct (MeasurePhaseVariance _ _) as [va|]; [|discriminate].
  set (l := ev_view e 8 _). assert (H8 : Permutation (map mute l) (map mute (ss_agents s))) by (unfold l; eapply Permutation_trans; [apply HE|]; rewrite mute_completion; repeat (eapply Permutation_trans; [apply HE|]); apply Permutation_refl).
  destruct (IsStuck _); [|intros [= <- _]; exact H8]. destruct (resonanceLoop _ _ _ _ _ _ _) as [m|] eqn:E; [|discriminate]. intros [= <- _]. cbn [ss_agents]. eapply Permutation_trans; [|exact H8]. refine (mute_resonance _ _ _ _ _ _ _ _ _ E). intros k q. apply HE.
Qed.
Lemma loop_keeps cfg t mx : forall evs it s, Forall politeEvent evs -> Permutation (map mute (ss_agents (snd (syncLoop cfg t mx it evs s)))) (map mute (ss_agents s)).
Proof.
  induction evs as [|ev evs IH]; intros it s HE; cbn [syncLoop]; destruct (it <? mx)%Z; try apply Permutation_refl. inversion HE as [|? ? H1 H2]. subst. destruct ev as [|e]; [apply Permutation_refl|].
  destruct (round cfg t e s) as [[s' [|]]|] eqn:E; [|eapply Permutation_trans; [now apply IH|]|apply Permutation_refl]; now apply (C92_round_keeps cfg t e s s' _ H1 E).
Qed.

(** ** Strategies *)
(** Which strategy is selected, and how the strategies fared so far, changes nothing about where the agents go. *)
Theorem C92_strategy_blind : forall cfg t e s pf cu s1 b1 s2 b2, round cfg t e s = Some (s1, b1) -> round cfg t e (mkSS (ss_agents s) (ss_mon s) pf cu (ss_cm s)) = Some (s2, b2) ->
  b1 = b2 /\ ss_agents s1 = ss_agents s2 /\ ss_mon s1 = ss_mon s2.
Proof.
  intros cfg t e s pf cu s1 b1 s2 b2. unfold round. cbv zeta. cbn [ss_agents ss_mon ss_perf ss_cur ss_cm]. destruct (isPatternAchieved _ _ _ _); [intros [= <- <-] [= <- <-]; auto|].
  set (x1 := if ShouldSwitchStrategy _ then switchStrategy _ _ _ (ss_perf s) (ss_cur s) else _). set (x2 := if ShouldSwitchStrategy _ then switchStrategy _ _ _ pf cu else _).
  destruct x1 as [[? ?]|]; [|discriminate]. destruct x2 as [[? ?]|]; [|destruct (CompletePattern _ _ _); [destruct (MeasurePhaseVariance _ _)|]; discriminate].
  destruct (CompletePattern _ _ _) as [cp|]; [|discriminate]. destruct (MeasurePhaseVariance _ _) as [va|]; [|discriminate].
  destruct (if IsStuck _ then _ else _) as [m|]; [|discriminate]. intros [= <- <-] [= <- <-]. auto.
Qed.
End Blind.

(** A whole synchronisation: same outcome, same number of rounds, same phases and periods, whatever the agents' energy,
    stubbornness, strategy, local goal and influence. *)
Theorem C92_run_blind : forall tr cfg goal evs s s', Forall blindEvent evs -> alikeS s s' ->
  let r := Run tr cfg goal evs s in let r' := Run tr cfg goal evs s' in fst r = fst r' /\ alikeS (snd r) (snd r').
Proof.
  intros tr cfg goal evs s s' HE HS. unfold Run, AchieveSynchronization. cbv zeta. pose proof HS as [HA HM HP HC HK]. rewrite (al_len _ _ HA). destruct (_ <=? 0)%Z; [cbn [fst snd]; auto|].
  apply (@loop_blind F (FNum tr)); [exact HE|]. unfold setMonTarget. constructor; cbn [ss_agents ss_mon ss_perf ss_cur ss_cm]; auto. now rewrite HM.
Qed.
(** And it leaves all of these as they were. *)
Theorem C92_run_keeps : forall tr cfg goal evs s, Forall (@politeEvent F (FNum tr)) evs ->
  Permutation (map (@mute F (FNum tr)) (ss_agents (snd (Run tr cfg goal evs s)))) (map (@mute F (FNum tr)) (ss_agents s)).
Proof.
  intros tr cfg goal evs s HE. unfold Run, AchieveSynchronization. cbv zeta. destruct (_ <=? 0)%Z; [apply Permutation_refl|].
  eapply Permutation_trans; [apply (@loop_keeps F (FNum tr)); exact HE|apply Permutation_refl].
Qed.

(** ** The agents are moved against their will *)
(** No energy, fully stubborn, no influence, wants to stay at its phase. *)
Definition spent : RA := mkAgent "a" (mkSD 0 0 0 100000000) (mkBD 0 1) (mkCtx 0 0 0 0 0) 0 0 true true None None.
(** Asked itself, it refuses: it accepts no proposal of any strategy, and can pay for no action that costs anything. *)
Theorem C92_spent_refuses : (forall strat dec r1 r2 nb g, r1 < 1 -> snd (@ProposeAdjustment R RNum strat dec r1 r2 nb spent g) = false) /\
  (forall act, 0 < ac_cost act -> @ApplyAction R RNum spent act = (spent, ErrInsufficientEnergy)).
Proof.
  split.
  - intros strat dec r1 r2 nb g H. unfold ProposeAdjustment. change (@nlt R RNum r1 (bd_stub (ag_bd spent))) with (Rlt_bool r1 1). now rewrite Rlt_bool_true.
  - intros act H. unfold ApplyAction. change (@nlt R RNum (sd_energy (ag_sd spent)) (ac_cost act)) with (Rlt_bool 0 (ac_cost act)). now rewrite Rlt_bool_true.
Qed.
(** A round moves it all the same, and for nothing. *)
Theorem C92_autonomy_refuted : forall cm e, (forall k l, ev_view e k l = l) -> ev_fuel e <> 0%nat ->
  exists s' a', @round R RNum (For OtherGoal) behind e (@setMonTarget R behind (@newSync R [spent] cm)) = Some (s', false) /\ ss_agents s' = [a'] /\
    phaseOf a' <> phaseOf spent /\ mute a' = mute spent /\ sd_energy (ag_sd a') = 0.
Proof.
  intros cm e V Fu. destruct (C32_moves_away cm e V Fu) as (_ & s1 & a1 & d & d' & R1 & A1 & D1 & D2 & -> & D).
  assert (HE : blindEnv e) by (intros k l l' H; now rewrite !V).
  assert (HS : alikeS (loneState cm) (@setMonTarget R behind (@newSync R [spent] cm))).
  { constructor; try reflexivity. constructor; [split; reflexivity|constructor]. }
  pose proof (C92_round_blind (For OtherGoal) behind e _ _ HE HS) as B. rewrite R1 in B.
  destruct (round (For OtherGoal) behind e (setMonTarget behind (newSync [spent] cm))) as [[s2 b2]|] eqn:R2; [|contradiction]. destruct B as [<- [B _ _ _ _]]. rewrite A1 in B.
  inversion B as [|x a2 y r [P _] Q E1 E2]. subst. inversion Q. subst. symmetry in E2. exists s2, a2. split; [reflexivity|]. split; [exact E2|].
  assert (K : Permutation (map mute (ss_agents s2)) (map mute [spent])).
  { refine (C92_round_keeps (For OtherGoal) behind e _ s2 false _ R2). intros k l. rewrite V. apply Permutation_refl. }
  rewrite E2 in K. cbn [map] in K. apply Permutation_length_1 in K. repeat split; [|exact K|].
  - intros X. unfold phaseOf in X. rewrite <- P in X. change (phaseOf a1 = phaseOf lone) in X. rewrite X in D2. rewrite (is_arc_unique _ _ _ _ D1 D2) in D. lra.
  - apply (f_equal (fun a => sd_energy (ag_sd a))) in K. exact K.
Qed.

(** ** Examples *)
(** The undisturbed view is blind and polite, and so is any fixed permutation of the agents. *)
Example C92_applies : let e := @mkEnv R 0 (fun _ l => rev l) (fun l => l) (fun _ => 0%Z) (fun _ _ => 0%Z) (fun _ => []) (fun _ => 0%Z) 4 in
  blindEnv e /\ politeEnv e /\ Forall2 alike [lone; lone] [spent; lone] /\ lone <> spent.
Proof.
  cbv zeta. repeat split.
  - intros k l l' H. cbn [ev_view]. induction H as [|a b l l' A H IH]; cbn [rev]; [constructor|]. apply Forall2_app; [exact IH|]. constructor; [exact A|constructor].
  - intros k l. cbn [ev_view]. apply Permutation_map. apply Permutation_sym, Permutation_rev.
  - repeat constructor.
  - intros H. apply (f_equal (fun a => sd_energy (ag_sd a))) in H. cbn in H. lra.
Qed.
Print Assumptions C92_run_blind. Print Assumptions C92_run_keeps. Print Assumptions C92_strategy_blind. Print Assumptions C92_autonomy_refuted.
