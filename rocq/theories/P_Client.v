(** Property theorems C53: the client builder, on float64 coherences (NaN and infinities included). *)
From Coq Require Import ZArith Reals Psatz Bool List String Lia Permutation.
From Flocq Require Import Core.Core IEEE754.BinarySingleNaN.
From Verif Require Import Num F64 M_Core M_Agent M_AgentConfig M_SwarmConfig M_Limits M_GoalConfig M_Swarm M_Scale M_Client
  S_Conn S_Swarm L_F64 L_F64x L_Ford M_Conn P_GoalConfig P_Swarm P_Tables.
Import ListNotations.
Open Scope Z_scope.

Section C53.
Variable tr : Trig.
Local Instance NF : Num F := FNum tr.
Local Notation lim := (@GetCoherenceLimits F NF).

(** Adding a valid goal configuration only stores it. *)
Definition storing (gc : GCfg F) (r : NewRes F) : NewRes F :=
  match r with NewOK s => NewOK (set_gcfg gc s) | _ => r end.
Lemma wire_gcfg gc ro fl il s : wire ro fl il (set_gcfg gc s) = storing gc (wire ro fl il s).
Proof.
  unfold wire. change (collectAgents ro (set_gcfg gc s)) with (collectAgents ro s). destruct (collectAgents ro s); [|reflexivity].
  change (s_cfg (set_gcfg gc s)) with (s_cfg s). destruct (establishConnections (s_cfg s) _ fl il); reflexivity.
Qed.
Lemma new_gcfg gc cpus size goal dr ro fl il : ValidateG gc = true ->
  M_Swarm.New cpus size goal [WithGoalConfig gc] dr ro fl il = storing gc (M_Swarm.New cpus size goal [] dr ro fl il).
Proof.
  intros V. unfold M_Swarm.New. destruct (size <=? 0); [reflexivity|]. destruct (negb (M_Core.Validate goal)); [reflexivity|].
  destruct (M_SwarmConfig.NormalizeAndValidate (AutoScaleConfig size) size) as [cfg ok]. destruct ok; [|reflexivity]. cbv zeta. cbn [negb applyOpts].
  set (s0 := mkSwarm _ _ _ _ _ _ _ _ _ _ _ _). unfold WithGoalConfig. rewrite V. change (s_cfg (set_gcfg gc s0)) with (s_cfg s0).
  destruct (M_SwarmConfig.NormalizeAndValidate (s_cfg s0) size) as [cfg2 ok2]. destruct ok2; [|reflexivity]. cbn [negb].
  destruct ((0 <? sc_maxsize cfg2) && (sc_maxsize cfg2 <? size))%bool; [reflexivity|].
  set (s2 := set_cfg cfg2 s0). change (set_cfg cfg2 (set_gcfg gc s0)) with (set_gcfg gc s2).
  change (s_opt (set_gcfg gc s2)) with (s_opt s2). change (s_slice (set_gcfg gc s2)) with (s_slice s2). change (s_map (set_gcfg gc s2)) with (s_map s2).
  assert (CO : createOptimizedAgents dr (set_gcfg gc s2) = match createOptimizedAgents dr s2 with Some x => Some (set_gcfg gc x) | None => None end).
  { unfold createOptimizedAgents. change (agentConfig (set_gcfg gc s2)) with (agentConfig s2). change (s_size (set_gcfg gc s2)) with (s_size s2).
    change (s_index (set_gcfg gc s2)) with (s_index s2). destruct (optOuter _ _ _ _ _ _ _) as [[l x]|]; reflexivity. }
  assert (CD : createDefaultAgents dr (set_gcfg gc s2) = match createDefaultAgents dr s2 with Some x => Some (set_gcfg gc x) | None => None end).
  { unfold createDefaultAgents. change (agentConfig (set_gcfg gc s2)) with (agentConfig s2). change (s_size (set_gcfg gc s2)) with (s_size s2).
    change (s_map (set_gcfg gc s2)) with (s_map s2). destruct (createLoop _ _ _ _); reflexivity. }
  rewrite CO, CD. clear CO CD.
  match goal with |- match ?a with _ => _ end = storing gc (match ?b with _ => _ end) => assert (E : a = match b with Some x => Some (set_gcfg gc x) | None => None end) end.
  { destruct (s_opt s2); [destruct (s_slice s2)|destruct (s_map s2)]; reflexivity. }
  rewrite E. match goal with |- context [match ?b with Some x => Some (set_gcfg gc x) | None => None end] => destruct b as [s3|] end; [|reflexivity].
  change (s_conn (set_gcfg gc s3)) with (s_conn s3). destruct (s_conn s3); [reflexivity|]. apply wire_gcfg.
Qed.

Lemma count_range s : 20 <= DefaultAgentCount s <= 2000.
Proof. unfold DefaultAgentCount, onScale. repeat match goal with |- context [if ?b then _ else _] => destruct b end; lia. Qed.
Definition stateOf (b : Builder F) : State F := mkState (fofZ 0) 1000000000 (buildCoherence b).
Lemma build_eq b cpus dr ro fl il : Build b cpus dr ro fl il =
  match M_Swarm.New cpus (DefaultAgentCount (b_scale b)) (stateOf b) [] dr ro fl il with
  | NewErr _ => BuildErr | NewRunning => BuildRunning | NewPanic => BuildPanic
  | NewOK s => BuildOK (mkClient (set_gcfg (WithSize (DefaultAgentCount (b_scale b)) (For (b_goal b))) s) (WithSize (DefaultAgentCount (b_scale b)) (For (b_goal b))))
  end.
Proof.
  unfold Build. cbv zeta. rewrite new_gcfg by apply (C25_presets tr). change (mkState n0 (1000 * 1000000) (buildCoherence b)) with (stateOf b).
  destruct (M_Swarm.New _ _ _ _ _ _ _ _); reflexivity.
Qed.
Lemma default_ok s : fle (fofZ 0) (@DefaultTargetCoherence F NF s) = true /\ fle (@DefaultTargetCoherence F NF s) (fofZ 1) = true /\
  flt (lim_prac (lim (DefaultAgentCount s))) (@DefaultTargetCoherence F NF s) = false.
Proof.
  unfold DefaultTargetCoherence, DefaultAgentCount, onScale.
  repeat match goal with |- context [s =? ?k] => destruct (s =? k) end; repeat split; vm_compute; reflexivity.
Qed.
(** A coherence a client can be built with: anything not above 1 and not NaN. *)
Definition usable (c : F) : Prop := fle c (fofZ 1) = true.
Lemma state_valid b : goal_valid (stateOf b) <-> usable (b_coh b).
Proof.
  unfold goal_valid, usable, stateOf, buildCoherence. cbn [st_freq st_coh st_phase]. change (@nle F NF) with fle. change (@n0 F NF) with (fofZ 0).
  destruct (fle (b_coh b) (fofZ 0)) eqn:E.
  - destruct (default_ok (b_scale b)) as (A & B & _). split; intros _.
    + apply (L_Ford.fle_trans _ _ _ E). vm_compute. reflexivity.
    + repeat split; auto; lia.
  - split; [tauto|]. intros U. repeat split; auto; try lia. apply not_lt_fle; [apply fofZ_nan|eapply fle_nan_l; exact U|].
    destruct (flt (b_coh b) (fofZ 0)) eqn:X; [|reflexivity]. apply L_Ford.flt_le in X. congruence.
Qed.

(** Build fails exactly for a coherence above 1 or NaN, for every goal (also unknown ones) and every
    integer used as a scale. *)
Theorem C53_error_iff : forall g s c cpus dr ro fl il,
  Build (mkBuilder g s c) cpus dr ro fl il = BuildErr <-> (flt (fofZ 1) c = true \/ fisnan c = true).
Proof.
  intros g s c cpus dr ro fl il. rewrite build_eq. cbn [b_scale b_goal].
  pose proof (C19_error_iff tr cpus (DefaultAgentCount s) (stateOf (mkBuilder g s c)) dr ro fl il) as H. change (P_Swarm.NF tr) with NF in H.
  pose proof (state_valid (mkBuilder g s c)) as SV. cbn [b_coh] in SV. pose proof (count_range s) as CR.
  assert (U : usable c <-> ~ (flt (fofZ 1) c = true \/ fisnan c = true)).
  { unfold usable. split.
    - intros A [B|B]; [|apply fle_nan_l in A; congruence]. pose proof (L_Ford.flt_fle_trans _ _ _ B A) as X. rewrite L_Ford.flt_irr in X. discriminate.
    - intros A. apply not_lt_fle; [destruct (fisnan c); auto; exfalso; auto|apply fofZ_nan|destruct (flt (fofZ 1) c); auto; exfalso; auto]. }
  assert (D : (flt (fofZ 1) c = true \/ fisnan c = true) \/ ~ (flt (fofZ 1) c = true \/ fisnan c = true)) by (destruct (flt (fofZ 1) c), (fisnan c); intuition congruence).
  split.
  - intros E. destruct D as [D|D]; [exact D|]. exfalso. apply U, SV in D.
    destruct (M_Swarm.New _ _ _ _ _ _ _ _) eqn:EN; try discriminate. destruct (proj1 H (ex_intro _ _ eq_refl)). split; [lia|exact D].
  - intros E. destruct (proj2 H) as [e EE]; [|now rewrite EE]. intros [_ X]. apply SV, U in X. contradiction.
Qed.

(** Build never panics, and from any draws made so far it can be completed. *)
Theorem C53_no_panic : forall b cpus dr ro fl il, range_order ro -> Build b cpus dr ro fl il <> BuildPanic.
Proof.
  intros b cpus dr ro fl il R. rewrite build_eq. pose proof (C19_no_panic tr cpus (DefaultAgentCount (b_scale b)) (stateOf b) dr ro fl il R) as H.
  change (P_Swarm.NF tr) with NF in H. destruct (M_Swarm.New _ _ _ _ _ _ _ _); congruence.
Qed.
Theorem C53_completes : forall g s c cpus dr ro fl il, range_order ro -> fle c (fofZ 1) = true ->
  in_range (Z.to_nat (DefaultAgentCount s)) il -> (Z.to_nat (DefaultAgentCount s) * Z.to_nat (DefaultAgentCount s) <= List.length fl)%nat ->
  exists il2 cl, in_range (Z.to_nat (DefaultAgentCount s)) il2 /\ Build (mkBuilder g s c) cpus dr ro fl (il ++ il2) = BuildOK cl.
Proof.
  intros g s c cpus dr ro fl il R U I L. pose proof (count_range s) as CR.
  destruct (C19_completes tr cpus (DefaultAgentCount s) (stateOf (mkBuilder g s c)) dr ro fl il) as (il2 & sw & A & B); auto; [lia|now apply state_valid|].
  exists il2. eexists. split; [exact A|]. rewrite build_eq. cbn [b_scale]. change (P_Swarm.NF tr) with NF in B. rewrite B. reflexivity.
Qed.

(** The client: the scale's number of agents, the goal's configuration for that size, and the requested
    coherence (the scale's default when it is not positive), lowered only to the practical limit. *)
Theorem C53_result : forall g s c cpus dr ro fl il cl, Build (mkBuilder g s c) cpus dr ro fl il = BuildOK cl ->
  ClientSize cl = DefaultAgentCount s /\ populated (cl_swarm cl) (DefaultAgentCount s) /\
  cl_config cl = WithSize (DefaultAgentCount s) (For g) /\ s_gcfg (cl_swarm cl) = Some (cl_config cl) /\ ValidateG (cl_config cl) = true /\
  (let want := if fle c (fofZ 0) then @DefaultTargetCoherence F NF s else c in
   let top := lim_prac (lim (DefaultAgentCount s)) in
   st_coh (s_goal (cl_swarm cl)) = (if flt top want then top else want)) /\
  (fle c (fofZ 0) = true -> st_coh (s_goal (cl_swarm cl)) = @DefaultTargetCoherence F NF s) /\
  st_freq (s_goal (cl_swarm cl)) = 1000000000 /\ st_phase (s_goal (cl_swarm cl)) = fofZ 0.
Proof.
  intros g s c cpus dr ro fl il cl. rewrite build_eq. cbn [b_scale b_goal]. destruct (M_Swarm.New _ _ _ _ _ _ _ _) as [| | |sw] eqn:E; try discriminate.
  intros H. assert (EC : cl = mkClient (set_gcfg (WithSize (DefaultAgentCount s) (For g)) sw) (WithSize (DefaultAgentCount s) (For g))) by (now injection H). subst cl. clear H.
  pose proof (C19_result tr cpus (DefaultAgentCount s) (stateOf (mkBuilder g s c)) dr ro fl il sw E) as (A1 & A2 & _ & _ & A5 & A6 & A7 & _).
  change (P_Swarm.NF tr) with NF in *. cbn [cl_swarm cl_config set_gcfg s_goal s_gcfg ClientSize Size s_size]. unfold ClientSize. cbn [cl_swarm].
  assert (W : buildCoherence (mkBuilder g s c) = (if fle c (fofZ 0) then @DefaultTargetCoherence F NF s else c)) by reflexivity.
  assert (A5' : st_coh (s_goal sw) = (let want := if fle c (fofZ 0) then @DefaultTargetCoherence F NF s else c in
     let top := lim_prac (lim (DefaultAgentCount s)) in if flt top want then top else want)).
  { rewrite A5. unfold stateOf. cbn [st_coh]. rewrite W. reflexivity. }
  split; [exact A2|]. split; [exact A1|]. split; [reflexivity|]. split; [reflexivity|]. split; [apply (C25_presets tr)|].
  split; [exact A5'|]. split; [|split; [exact A7|exact A6]].
  intros L. rewrite A5', L. cbv zeta. destruct (default_ok s) as (_ & _ & D). rewrite D. reflexivity.
Qed.

(** WithCoherenceOption rejects exactly the values at or below 0 and above 1; NaN is not rejected by it, but Build then fails. *)
Theorem C53_option : forall c (b : Builder F), fisnan c = false -> (WithCoherenceOption c b = None <-> ~ (flt (fofZ 0) c = true /\ fle c (fofZ 1) = true)).
Proof.
  intros c b HN. unfold WithCoherenceOption. change (@nle F NF) with fle. change (@nlt F NF) with flt. change (@n0 F NF) with (fofZ 0). change (@n1 F NF) with (fofZ 1).
  destruct (fle c (fofZ 0)) eqn:A; cbn [orb].
  - split; [|reflexivity]. intros _ [B _]. pose proof (L_Ford.flt_fle_trans _ _ _ B A) as X. rewrite L_Ford.flt_irr in X. discriminate.
  - destruct (flt (fofZ 1) c) eqn:B.
    + split; [|reflexivity]. intros _ [_ C]. pose proof (L_Ford.flt_fle_trans _ _ _ B C) as X. rewrite L_Ford.flt_irr in X. discriminate.
    + split; [discriminate|]. intros H. exfalso. apply H. split; [|apply not_lt_fle; auto; apply fofZ_nan].
      destruct (flt (fofZ 0) c) eqn:X; [reflexivity|]. apply not_lt_fle in X; auto using fofZ_nan. congruence.
Qed.
Theorem C53_option_nan_refuted : exists c, fisnan c = true /\ forall b, WithCoherenceOption c b = Some (mkBuilder (b_goal b) (b_scale b) c).
Proof. exists B754_nan. split; [reflexivity|]. intros [g s c]. reflexivity. Qed.

(** With options: an error of any option is returned; otherwise the options act in order, the last value of
    each setting winning. *)
Definition lastWith {A B} (f : A -> option B) (d : B) (l : list A) : B := fold_left (fun acc a => match f a with Some x => x | None => acc end) l d.
Inductive Opt := OG (g : Goal) | OS (s : Z) | OC (c : F).
Definition optFun (o : Opt) : ClientOption (T := F) := match o with OG g => WithGoalOption g | OS s => WithScaleOption s | OC c => WithCoherenceOption c end.
Definition optBad (o : Opt) : bool := match o with OC c => fle c (fofZ 0) || flt (fofZ 1) c | _ => false end.
Theorem C53_options : forall os cpus dr ro fl il, NewWithOptions (map optFun os) cpus dr ro fl il =
  if existsb optBad os then BuildErr
  else Build (mkBuilder (lastWith (fun o => match o with OG g => Some g | _ => None end) MinimizeAPICalls os)
                        (lastWith (fun o => match o with OS s => Some s | _ => None end) Tiny os)
                        (lastWith (fun o => match o with OC c => Some c | _ => None end) (fofZ 0) os)) cpus dr ro fl il.
Proof.
  intros os cpus dr ro fl il. unfold NewWithOptions. unfold lastWith.
  assert (G : forall os g s c, applyClientOpts (map optFun os) (mkBuilder g s c) = if existsb optBad os then None else
    Some (mkBuilder (fold_left (fun acc a => match (match a with OG g => Some g | _ => None end) with Some x => x | None => acc end) os g)
      (fold_left (fun acc a => match (match a with OS s => Some s | _ => None end) with Some x => x | None => acc end) os s)
      (fold_left (fun acc a => match (match a with OC c => Some c | _ => None end) with Some x => x | None => acc end) os c))).
  { clear. induction os as [|o os IH]; intros g s c; [reflexivity|]. cbn [map applyClientOpts existsb fold_left].
    destruct o as [g'|s'|c']; cbn [optFun optBad orb].
    - unfold WithGoalOption, WithGoal. cbn [b_scale b_coh]. apply IH.
    - unfold WithScaleOption, WithScale. cbn [b_goal b_coh]. apply IH.
    - unfold WithCoherenceOption, WithTargetCoherence. change (@nle F NF c' n0) with (fle c' (fofZ 0)). change (@nlt F NF n1 c') with (flt (fofZ 1) c').
      destruct (fle c' (fofZ 0) || flt (fofZ 1) c')%bool; [reflexivity|]. cbn [b_goal b_scale]. apply IH. }
  unfold NewBuilder. rewrite G. destruct (existsb optBad os); reflexivity.
Qed.

(** The shortcut of the simulation builder uses the same settings as the general one. *)
Theorem C53_simulation_builder : forall g s t cpus dr ro fl il cl, fisnan t = false -> Build (simBuilder g s t) cpus dr ro fl il = BuildOK cl ->
  ClientSize cl = DefaultAgentCount s /\ cl_config cl = WithSize (DefaultAgentCount s) (For g) /\
  (let want := if fle t (fofZ 0) then @DefaultTargetCoherence F NF s else t in
   let top := lim_prac (lim (DefaultAgentCount s)) in
   feq (st_coh (s_goal (cl_swarm cl))) (if flt top want then top else want) = true).
Proof.
  intros g s t cpus dr ro fl il cl HN. unfold simBuilder.
  assert (SELF : forall x, fisnan x = false -> feq x x = true) by (intros x Hx; apply feq_true; auto).
  assert (TN : fisnan (lim_prac (lim (DefaultAgentCount s))) = false).
  { unfold GetCoherenceLimits. repeat match goal with |- context [if ?b then _ else _] => destruct b end; vm_compute; reflexivity. }
  assert (DN : fisnan (@DefaultTargetCoherence F NF s) = false) by (destruct (default_ok s) as (A & _); eapply fle_nan_r; exact A).
  assert (General : Build (WithTargetCoherence t (WithScale s (WithGoal g NewBuilder))) cpus dr ro fl il = BuildOK cl -> 
    ClientSize cl = DefaultAgentCount s /\ cl_config cl = WithSize (DefaultAgentCount s) (For g) /\
  (let want := if fle t (fofZ 0) then @DefaultTargetCoherence F NF s else t in
   let top := lim_prac (lim (DefaultAgentCount s)) in
   feq (st_coh (s_goal (cl_swarm cl))) (if flt top want then top else want) = true)).
  { intros H. change (WithTargetCoherence t (WithScale s (WithGoal g NewBuilder))) with (mkBuilder g s t) in H. apply C53_result in H.
    destruct H as (A & _ & B & _ & _ & C & _). split; [exact A|]. split; [exact B|]. cbv zeta in C |- *. rewrite C.
    apply SELF. destruct (fle t (fofZ 0)); match goal with |- context [if ?b then _ else _] => destruct b end; auto. }
  destruct g; cbn [andb]; try exact General. change (@neqb F NF) with feq. destruct (feq t (@DefaultTargetCoherence F NF s)) eqn:E; [|exact General].
  intros H. change (ClientMinimizeAPICalls s) with (mkBuilder MinimizeAPICalls s (fofZ 0)) in H. apply C53_result in H.
  destruct H as (A & _ & B & _ & _ & _ & D & _). split; [exact A|]. split; [exact B|]. cbv zeta. rewrite (D eq_refl).
  apply feq_true in E. destruct E as (_ & _ & E).
  assert (P0 : fle t (fofZ 0) = false).
  { destruct (fle t (fofZ 0)) eqn:X; [|reflexivity]. apply fle_true in X. destruct X as (_ & _ & X). destruct (C45_target_valid tr s) as [Y _]. cbv zeta in Y.
    change (FNum tr) with NF in Y. apply flt_true in Y. destruct Y as (_ & _ & Y). rewrite E in X. lra. }
  rewrite P0. destruct (flt (lim_prac (lim (DefaultAgentCount s))) t) eqn:X.
  - exfalso. destruct (default_ok s) as (_ & _ & Y). apply flt_false in Y; auto. apply flt_true in X. destruct X as (_ & _ & X). rewrite E in X. lra.
  - apply feq_true. auto.
Qed.
(** The two shortcuts give the same client as naming the goal and the scale, in any order, and differ in the goal only. *)
Theorem C53_shortcuts : forall s cpus dr ro fl il,
  Build (ClientMinimizeAPICalls s) cpus dr ro fl il = NewWithOptions [WithGoalOption MinimizeAPICalls; WithScaleOption s] cpus dr ro fl il /\
  Build (ClientDistributeLoad s) cpus dr ro fl il = NewWithOptions [WithScaleOption s; WithGoalOption DistributeLoad] cpus dr ro fl il /\
  (forall cl, Build (ClientDistributeLoad s) cpus dr ro fl il = BuildOK cl ->
     cl_config cl = WithSize (DefaultAgentCount s) (For DistributeLoad) /\ ClientSize cl = DefaultAgentCount s).
Proof.
  intros. split; [reflexivity|]. split; [reflexivity|]. intros cl H.
  change (ClientDistributeLoad s) with (mkBuilder DistributeLoad s (fofZ 0)) in H. apply C53_result in H. tauto.
Qed.
(** Every goal and scale the program can be switched to gives a simulation. *)
Theorem C53_simulation_succeeds : forall g s cpus dr ro fl il, range_order ro ->
  in_range (Z.to_nat (DefaultAgentCount s)) il -> (Z.to_nat (DefaultAgentCount s) * Z.to_nat (DefaultAgentCount s) <= List.length fl)%nat ->
  exists il2 cl, in_range (Z.to_nat (DefaultAgentCount s)) il2 /\ Build (simBuilder g s (simTarget g s)) cpus dr ro fl (il ++ il2) = BuildOK cl.
Proof.
  intros g s cpus dr ro fl il R I L. set (t := simTarget g s).
  assert (U : fle t (fofZ 1) = true). { unfold t, simTarget. destruct g; try apply default_ok; vm_compute; reflexivity. }
  unfold simBuilder. destruct ((match g with MinimizeAPICalls => true | _ => false end) && neqb t (DefaultTargetCoherence s))%bool.
  - apply (C53_completes MinimizeAPICalls s (fofZ 0)); auto.
  - apply (C53_completes g s t); auto.
Qed.
(** One workload per agent, in whatever order the map is ranged over, numbered from 0. *)
Theorem C53_workloads : forall g s t cpus dr ro fl il cl mo, Build (mkBuilder g s t) cpus dr ro fl il = BuildOK cl -> range_order mo ->
  exists m w, Agents (cl_swarm cl) = Some m /\ initWorkloads mo s cl = Some w /\ Permutation (map fst w) (map fst m) /\
    map snd w = seq 0 (Z.to_nat (DefaultAgentCount s)) /\ NoDup (map fst w).
Proof.
  intros g s t cpus dr ro fl il cl mo H R. apply C53_result in H. destruct H as (_ & (m & A & Len & ND & _) & _).
  exists m. unfold initWorkloads. rewrite A. eexists. split; [reflexivity|]. split; [reflexivity|].
  assert (LM : List.length (mo m) = Z.to_nat (DefaultAgentCount s)) by (rewrite <- (Permutation_length (R m)); lia).
  rewrite firstn_all2 by lia.
  assert (FS : map fst (combine (map fst (mo m)) (seq 0 (List.length (mo m)))) = map fst (mo m)).
  { generalize (seq_length (List.length (mo m)) 0). generalize (seq 0 (List.length (mo m))). generalize (mo m). clear.
    induction l as [|a l IH]; intros [|b q] H; cbn in *; try discriminate; auto. f_equal. apply IH. lia. }
  assert (SN : map snd (combine (map fst (mo m)) (seq 0 (List.length (mo m)))) = seq 0 (List.length (mo m))).
  { generalize (seq_length (List.length (mo m)) 0). generalize (seq 0 (List.length (mo m))). generalize (mo m). clear.
    induction l as [|a l IH]; intros [|b q] H; cbn in *; try discriminate; auto. f_equal. apply IH. lia. }
  rewrite FS, SN, LM. assert (P : Permutation (map fst (mo m)) (map fst m)) by (apply Permutation_map; symmetry; apply R).
  split; [exact P|]. split; [reflexivity|]. apply (Permutation_NoDup (Permutation_sym P) ND).
Qed.

(** Instances of the hypotheses: a client of the tiny scale is built, with an explicit and with the default coherence; 1.5 fails. *)
Definition builds (r : BuildRes F) : bool := match r with BuildOK _ => true | _ => false end.
Example C53_example : let run c := Build (mkBuilder DistributeLoad Tiny c) 4 dr0 (fun l => rev l) (repeat (fofZ 0) 400) [] in
  builds (run (flit 3 10)) = true /\ builds (run (fofZ (-1))) = true /\ builds (run (flit 15 10)) = false /\
  range_order (fun l : list (Agent F) => rev l) /\ range_order (fun l : list (string * Agent F) => rev l) /\
  builds (Build (simBuilder SaveEnergy Tiny (simTarget SaveEnergy Tiny)) 4 dr0 (fun l => rev l) (repeat (fofZ 0) 400) []) = true.
Proof.
  cbv zeta. split; [vm_compute; reflexivity|]. split; [vm_compute; reflexivity|]. split; [vm_compute; reflexivity|].
  split; [intros l; apply Permutation_rev|]. split; [intros l; apply Permutation_rev|]. vm_compute. reflexivity.
Qed.
End C53.
Print Assumptions C53_error_iff. Print Assumptions C53_no_panic. Print Assumptions C53_completes. Print Assumptions C53_result.
Print Assumptions C53_option. Print Assumptions C53_option_nan_refuted. Print Assumptions C53_options.
Print Assumptions C53_simulation_builder. Print Assumptions C53_simulation_succeeds. Print Assumptions C53_workloads.
Print Assumptions C53_shortcuts.
