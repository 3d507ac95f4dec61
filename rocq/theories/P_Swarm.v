(** C19: swarm construction (binary64). *)
From Coq Require Import ZArith Reals Psatz Bool List String Lia Permutation.
From Flocq Require Import Core.Core IEEE754.BinarySingleNaN.
From Verif Require Import Num F64 GoBase M_Core M_Agent M_AgentConfig M_SwarmConfig M_Limits M_Neighbors M_Conn M_GoalConfig M_Swarm
  S_Config S_Conn S_Swarm L_F64 L_F64x L_Ford L_Conn L_Config L_Swarm P_Config P_Conn.
Import ListNotations.
Open Scope Z_scope.

Section C19.
Variable tr : Trig.
Local Instance NF : Num F := FNum tr.
Local Notation NV := (@M_SwarmConfig.NormalizeAndValidate F NF).
Local Notation Auto := (@AutoScaleConfig F NF).
Local Notation lim := (@GetCoherenceLimits F NF).

Lemma validate_goal (g : State F) : M_Core.Validate g = true <-> goal_valid g.
Proof.
  unfold M_Core.Validate, validateErrors, goal_valid. cbn [nisnan nisinf nlt NF FNum].
  change (@n0 F NF) with (fofZ 0). change (@n1 F NF) with (fofZ 1).
  assert (FP : is_finite (st_phase g) = true <-> fisnan (st_phase g) = false /\ fisinf (st_phase g) = false).
  { destruct (st_phase g); cbn; intuition congruence. }
  rewrite FP.
  assert (U : fisnan (st_coh g) = false -> (flt (st_coh g) (fofZ 0) || flt (fofZ 1) (st_coh g))%bool = false <->
    fle (fofZ 0) (st_coh g) = true /\ fle (st_coh g) (fofZ 1) = true).
  { intros Nn. rewrite orb_false_iff. split; intros [A B]; split;
      [apply not_lt_fle; auto; apply fofZ_nan|apply not_lt_fle; auto; apply fofZ_nan|now apply fle_not_lt|now apply fle_not_lt]. }
  destruct (Z.leb_spec (st_freq g) 0); cbn [app]; [split; [discriminate|lia]|].
  destruct (fisnan (st_coh g)) eqn:NC; cbn [app].
  { split; [discriminate|]. intros (_ & K & _). rewrite (fle_nan_r _ _ K) in NC. discriminate. }
  specialize (U eq_refl).
  destruct (flt (st_coh g) (fofZ 0) || flt (fofZ 1) (st_coh g))%bool eqn:E; cbn [app].
  { split; [discriminate|]. intros (_ & K1 & K2 & _). destruct U as [_ U]. specialize (U (conj K1 K2)). congruence. }
  destruct (fisnan (st_phase g)), (fisinf (st_phase g)); cbn [app]; intuition discriminate.
Qed.

Lemma ok_dec size goal : (1 <= size <= 1000000 /\ goal_valid goal) \/ ~ (1 <= size <= 1000000 /\ goal_valid goal).
Proof.
  destruct (Z_le_dec 1 size), (Z_le_dec size 1000000); try (right; intros [[A B] _]; lia).
  destruct (M_Core.Validate goal) eqn:V; [left|right; intros [_ G]; apply validate_goal in G; congruence].
  apply validate_goal in V. auto.
Qed.

(** The swarm just before the wiring. *)
Definition bare (cpus size : Z) (goal : State F) : Swarm F :=
  mkSwarm [] [] [] (100 <? size) (clampGoal size goal) (fst (NV (Auto size) size)) size false newNet None
    (DefaultRecoveryConfig (st_coh (clampGoal size goal)))
    (if 100 <? size then Some (getOptimalWorkerCount cpus size) else None).
Definition filled (cpus size : Z) (goal : State F) (dr : nat -> Draws) : Swarm F :=
  let b := bare cpus size goal in let n := Z.to_nat size in
  if 100 <? size then set_slice (map (fun i => Some (mkOpt b dr i)) (seq 0 n)) (idx n) b
  else set_map (listing (mkStd b dr) n) b.

Definition created (dr : nat -> Draws) (s : Swarm F) : option (Swarm F) :=
  if s_opt s then match s_slice s with [] => createOptimizedAgents dr s | _ => Some s end
  else match s_map s with [] => createDefaultAgents dr s | _ => Some s end.
Lemma new_opts cpus size goal opts s1 dr ro fl il : goal_valid goal -> 1 <= size <= 1000000 ->
  applyOpts opts (bare cpus size goal) = Some s1 -> s_cfg s1 = fst (NV (Auto size) size) ->
  New cpus size goal opts dr ro fl il =
  match created dr s1 with
  | None => NewErr ECreate
  | Some s3 => if s_conn s3 then NewOK s3 else wire ro fl il s3
  end.
Proof.
  intros G S AO EC. unfold New. destruct (Z.leb_spec size 0); [lia|].
  rewrite (proj2 (validate_goal goal) G). cbn [negb].
  pose proof (proj2 (proj2 (C26_autoscale_iff tr size)) S) as Hok.
  pose proof (C26_idempotent tr _ _ Hok) as HI.
  pose proof (proj1 (C26_success_iff tr (fst (NV (Auto size) size)) size)) as HM.
  assert (HS : snd (NV (fst (NV (Auto size) size)) size) = true) by (change NF with (FNum tr); rewrite HI; reflexivity).
  specialize (HM HS). change (FNum tr) with NF in *.
  assert (EB : mkSwarm [] [] [] (100 <? size) (clampGoal size goal) (fst (NV (Auto size) size)) size false newNet None
    (DefaultRecoveryConfig (st_coh (clampGoal size goal)))
    (if 100 <? size then Some (getOptimalWorkerCount cpus size) else None) = bare cpus size goal) by reflexivity.
  destruct (NV (Auto size) size) as [cfg ok] eqn:E. cbn [snd fst] in *. subst ok. cbn [negb]. cbv zeta.
  rewrite EB, AO, EC, HI. cbn [negb].
  destruct ((0 <? sc_maxsize cfg) && (sc_maxsize cfg <? size))%bool eqn:Q.
  { apply andb_true_iff in Q. rewrite !Z.ltb_lt in Q. lia. }
  assert (SB : set_cfg cfg s1 = s1) by (destruct s1; cbn in EC |- *; now subst).
  rewrite SB. reflexivity.
Qed.
Lemma new_shape cpus size goal dr ro fl il : goal_valid goal -> 1 <= size <= 1000000 ->
  New cpus size goal [] dr ro fl il = wire ro fl il (filled cpus size goal dr).
Proof.
  intros G S. rewrite (new_opts cpus size goal [] (bare cpus size goal)) by (auto; reflexivity).
  unfold created. change (s_opt (bare cpus size goal)) with (100 <? size). unfold filled.
  destruct (Z.ltb_spec 100 size) as [L|L].
  - cbn [bare s_slice]. rewrite create_optimized by reflexivity. reflexivity.
  - cbn [bare s_map]. rewrite create_default by reflexivity. reflexivity.
Qed.

Lemma filled_populated cpus size goal dr : 0 <= size -> populated (filled cpus size goal dr) size.
Proof.
  intros H. rewrite <- (Z2Nat.id size) at 2 by auto. unfold filled. destruct (100 <? size) eqn:L.
  - apply (populated_opt _ (mkOpt (bare cpus size goal) dr)); auto. intros i. apply opt_id.
  - apply (populated_std _ (mkStd (bare cpus size goal) dr)); auto. intros i. apply std_some.
Qed.
Lemma filled_agents cpus size goal dr ro : range_order ro ->
  exists l, collectAgents ro (filled cpus size goal dr) = Some l /\ NoDup (map (@ag_id F) l) /\
    List.length l = Z.to_nat size /\ Permutation (map (@ag_id F) l) (map agentID (seq 0 (Z.to_nat size))).
Proof.
  intros R. unfold collectAgents, filled. destruct (100 <? size) eqn:L; cbn [s_opt set_slice set_map s_slice s_map bare]; rewrite L.
  - exists (map (mkOpt (bare cpus size goal) dr) (seq 0 (Z.to_nat size))). rewrite slice_agents. split; auto.
    assert (E : map (@ag_id F) (map (mkOpt (bare cpus size goal) dr) (seq 0 (Z.to_nat size))) = map agentID (seq 0 (Z.to_nat size))).
    { rewrite map_map. apply map_ext. intros i. apply opt_id. }
    rewrite E. split; [apply ids_nodup|]. split; [now rewrite map_length, seq_length|auto].
  - eexists. split; [reflexivity|].
    set (l := map snd (listing (mkStd (bare cpus size goal) dr) (Z.to_nat size))).
    assert (E : map (@ag_id F) l = map agentID (seq 0 (Z.to_nat size))).
    { unfold l, listing. rewrite !map_map. apply map_ext. intros i. apply std_some. }
    pose proof (Permutation_map (@ag_id F) (R l)) as P. rewrite E in P.
    split; [eapply Permutation_NoDup; [exact P|apply ids_nodup]|]. split; [|now symmetry].
    rewrite <- (Permutation_length (R l)). unfold l, listing. now rewrite !map_length, seq_length.
Qed.

Lemma fst_nv_ok size : 1 <= size <= 1000000 -> config_ok (fst (NV (Auto size) size)) size /\
  fst (NV (Auto size) size) = Auto size.
Proof.
  intros H. destruct (C26_autoscale_ok tr size H) as [A B].
  pose proof (C26_keeps_valid tr _ _ A B) as K. change (FNum tr) with NF in *. rewrite K. auto.
Qed.

(** Errors: exactly the bad sizes and the bad goals, whatever the random draws. *)
Theorem C19_error_iff : forall cpus size goal dr ro fl il,
  (exists e, New cpus size goal [] dr ro fl il = NewErr e) <-> ~ (1 <= size <= 1000000 /\ goal_valid goal).
Proof.
  intros cpus size goal dr ro fl il.
  split.
  - intros [e E] [S G]. rewrite new_shape in E by auto. unfold wire in E.
    destruct (collectAgents _ _); [|discriminate]. destruct (establishConnections _ _ _ _); discriminate.
  - intros H. unfold New. destruct (Z.leb_spec size 0); [eauto|].
    destruct (M_Core.Validate goal) eqn:V; cbn [negb]; [|eauto]. apply validate_goal in V.
    destruct (NV (Auto size) size) as [cfg ok] eqn:E.
    pose proof (proj2 (C26_autoscale_iff tr size)) as K. change (FNum tr) with NF in K. rewrite E in K. cbn [snd] in K.
    destruct ok; cbn [negb]; [|eauto]. exfalso. apply H. split; auto. now apply K.
Qed.

(** A constructed swarm: populated with exactly size agents, both below and above the storage switch; the
    goal keeps phase and period; its coherence is the requested one or, if that is larger, the practical
    limit; the configuration is the auto-scaled one and satisfies its constraints. *)
Theorem C19_result : forall cpus size goal dr ro fl il s,
  New cpus size goal [] dr ro fl il = NewOK s ->
  populated s size /\ Size s = size /\ s_opt s = (100 <? size) /\
  fle (st_coh (s_goal s)) (lim_prac (lim size)) = true /\
  st_coh (s_goal s) = (if flt (lim_prac (lim size)) (st_coh goal) then lim_prac (lim size) else st_coh goal) /\
  st_phase (s_goal s) = st_phase goal /\ st_freq (s_goal s) = st_freq goal /\
  s_cfg s = Auto size /\ config_ok (s_cfg s) size /\ s_rec s = DefaultRecoveryConfig (st_coh (s_goal s)).
Proof.
  intros cpus size goal dr ro fl il s H.
  assert (SG : 1 <= size <= 1000000 /\ goal_valid goal).
  { destruct (ok_dec size goal) as [|C]; auto. exfalso.
    apply (C19_error_iff cpus size goal dr ro fl il) in C. destruct C as [e E]. congruence. }
  destruct SG as [S G]. rewrite new_shape in H by auto. unfold wire in H.
  destruct (collectAgents _ _); [|discriminate]. destruct (establishConnections _ _ _ _); [|discriminate].
  injection H as <-. pose proof (filled_populated cpus size goal dr ltac:(lia)) as P.
  destruct (fst_nv_ok size S) as [K1 K2].
  set (f := filled cpus size goal dr) in *.
  assert (EG : s_goal f = clampGoal size goal) by (unfold f, filled; destruct (100 <? size); reflexivity).
  assert (EO : s_opt f = (100 <? size)) by (unfold f, filled; destruct (100 <? size) eqn:L; cbn; auto).
  assert (ES : s_size f = size) by (unfold f, filled; destruct (100 <? size); reflexivity).
  assert (EC : s_cfg f = Auto size) by (rewrite <- K2; unfold f, filled; destruct (100 <? size); reflexivity).
  assert (ER : s_rec f = DefaultRecoveryConfig (st_coh (clampGoal size goal))) by (unfold f, filled; destruct (100 <? size); reflexivity).
  cbn [set_net s_goal s_opt s_cfg s_rec]. unfold Size. cbn [set_net s_size]. rewrite EG, EC, ER.
  unfold clampGoal. change (@nlt F NF) with flt. cbv zeta.
  destruct G as (_ & G1 & G2 & _).
  assert (NL : fisnan (lim_prac (lim size)) = false).
  { unfold GetCoherenceLimits.
    repeat match goal with |- context [if ?b then _ else _] => destruct b end; vm_compute; reflexivity. }
  repeat match goal with |- _ /\ _ => split end; auto.
  - destruct (flt (lim_prac (lim size)) (st_coh goal)) eqn:E; cbn [st_coh].
    + now apply fle_refl.
    + apply not_lt_fle; auto. eapply fle_nan_l; eauto.
  - now destruct (flt (lim_prac (lim size)) (st_coh goal)).
  - now destruct (flt (lim_prac (lim size)) (st_coh goal)).
  - now destruct (flt (lim_prac (lim size)) (st_coh goal)).
  - now rewrite <- K2.
Qed.

(** Construction never panics, and never gets stuck: from any draws made so far there is a continuation
    that completes it. *)
Theorem C19_no_panic : forall cpus size goal dr ro fl il, range_order ro ->
  New cpus size goal [] dr ro fl il <> NewPanic.
Proof.
  intros cpus size goal dr ro fl il R H.
  destruct (ok_dec size goal) as [[S G]|C].
  - rewrite new_shape in H by auto. unfold wire in H.
    destruct (filled_agents cpus size goal dr ro R) as (l & E & _). rewrite E in H.
    destruct (establishConnections _ _ _ _); discriminate.
  - apply (C19_error_iff cpus size goal dr ro fl il) in C. destruct C as [e E]. congruence.
Qed.
Theorem C19_completes : forall cpus size goal dr ro fl il, range_order ro ->
  1 <= size <= 1000000 -> goal_valid goal -> in_range (Z.to_nat size) il ->
  (Z.to_nat size * Z.to_nat size <= List.length fl)%nat ->
  exists il2 s, in_range (Z.to_nat size) il2 /\ New cpus size goal [] dr ro fl (il ++ il2) = NewOK s.
Proof.
  intros cpus size goal dr ro fl il R S G I L.
  destruct (filled_agents cpus size goal dr ro R) as (l & E & ND & Len & _).
  destruct (fst_nv_ok size S) as [K1 K2].
  set (f := filled cpus size goal dr) in *.
  assert (EC : s_cfg f = fst (NV (Auto size) size)) by (unfold f, filled; destruct (100 <? size); reflexivity).
  assert (ML : List.length (map (@ag_id F) l) = Z.to_nat size) by (now rewrite map_length).
  assert (X : exists il2 e, in_range (Z.to_nat size) il2 /\
    establishConnections (s_cfg f) (map (@ag_id F) l) fl (il ++ il2) = Some e).
  { unfold establishConnections. rewrite ML.
    destruct (sc_opt (s_cfg f) && (sc_optthr (s_cfg f) <? Z.of_nat (Z.to_nat size)))%bool.
    - set (k := (Z.to_nat size * (Z.to_nat size * 2))%nat).
      assert (IR : in_range (Z.to_nat size) (repeat 0 k)).
      { apply Forall_forall. intros x Hx. apply repeat_spec in Hx. subst. lia. }
      destruct (C21_minimal_terminates (s_cfg f) (map (@ag_id F) l) (il ++ repeat 0 k)) as (e & He & _).
      + rewrite ML. apply Forall_app. auto.
      + rewrite ML, app_length, repeat_length. fold k. lia.
      + eauto.
    - destruct (C21_progress (s_cfg f) (map (@ag_id F) l) fl il ND) as (il2 & R2 & P2).
      + rewrite EC. apply K1.
      + now rewrite ML.
      + now rewrite ML.
      + rewrite ML in R2. exists il2.
        destruct (establishProbabilisticConnections (s_cfg f) (map (@ag_id F) l) [] fl (il ++ il2)) as [e|]; [eauto|congruence]. }
  destruct X as (il2 & e & R2 & X). exists il2. rewrite new_shape by auto. fold f. unfold wire. rewrite E, X. eauto.
Qed.

(** The IDs are agent-0 ... agent-(n-1). *)
Theorem C19_ids : forall cpus size goal dr ro fl il s id,
  New cpus size goal [] dr ro fl il = NewOK s ->
  ((exists a, AgentByID s id = Some (Some a)) <-> exists i, (i < Z.to_nat size)%nat /\ id = agentID i).
Proof.
  intros cpus size goal dr ro fl il s id H.
  assert (SG : 1 <= size <= 1000000 /\ goal_valid goal).
  { destruct (ok_dec size goal) as [|C]; auto. exfalso.
    apply (C19_error_iff cpus size goal dr ro fl il) in C. destruct C as [e E]. congruence. }
  destruct SG as [S G]. pose proof (C19_result _ _ _ _ _ _ _ _ H) as ((m & A & _ & _ & _ & B & _) & _).
  rewrite new_shape in H by auto. unfold wire in H.
  destruct (collectAgents _ _); [|discriminate]. destruct (establishConnections _ _ _ _); [|discriminate].
  injection H as <-.
  assert (M : exists f : nat -> Agent F, (forall i, ag_id (f i) = agentID i) /\ m = listing f (Z.to_nat size)).
  { unfold Agents in A. cbn [set_net s_opt s_slice s_map] in A. unfold filled in A. destruct (100 <? size) eqn:Q;
      cbn [set_slice set_map s_opt s_slice s_map bare] in A; rewrite Q in A.
    - rewrite slice_map in A; [|apply ids_nodup|intros i; apply opt_id]. injection A as <-.
      exists (mkOpt (bare cpus size goal) dr). split; auto. intros i; apply opt_id.
    - injection A as <-. exists (mkStd (bare cpus size goal) dr). split; auto. intros i; apply std_some. }
  destruct M as (f & HF & ->). destruct (listing_facts f (Z.to_nat size) HF) as (_ & _ & _ & D).
  split.
  - intros [ag Ha]. apply B, D in Ha. destruct Ha as (i & Li & -> & _). eauto.
  - intros (i & Li & ->). exists (f i). apply B, D. eauto.
Qed.

Lemma pop_size (s : Swarm F) n z : populated s (Z.of_nat n) -> Z.of_nat n = z -> populated s z.
Proof. now intros ? <-. Qed.
(** ** The config-struct constructor. *)
Definition bareC (size : Z) (goal : State F) (c : SCfg F) : Swarm F :=
  mkSwarm [] [] [] false goal (fst (NV c size)) size false newNet None zeroRecovery None.
Lemma nsfc_shape size goal c dr ro fl il : goal_valid goal -> size_ok c size ->
  NewSwarmFromConfig size goal c dr ro fl il =
  wire ro fl il (set_map (listing (mkStd (bareC size goal c) dr) (Z.to_nat size)) (bareC size goal c)).
Proof.
  intros G S. unfold NewSwarmFromConfig. destruct S as [S1 S2]. destruct (Z.leb_spec size 0); [lia|].
  rewrite (proj2 (validate_goal goal) G). cbn [negb].
  pose proof (proj2 (C26_success_iff tr c size) (conj S1 S2)) as K. change (FNum tr) with NF in K.
  change (mkSwarm [] [] [] false goal (fst (NV c size)) size false newNet None zeroRecovery None) with (bareC size goal c).
  assert (EB : mkSwarm [] [] [] false goal (fst (NV c size)) size false newNet None zeroRecovery None = bareC size goal c) by reflexivity.
  destruct (NV c size) as [cfg ok]. cbn [snd fst] in *. subst ok. cbn [negb]. rewrite EB.
  rewrite create_default by reflexivity. reflexivity.
Qed.
(** It accepts a size iff the configuration does, populates the map storage whatever the size, and keeps
    the goal as given: no limit is applied (contrast C19_result), and the recovery configuration is the
    zero value (RunContinuous replaces it by the default on first use). *)
Theorem C19_from_config : forall size goal c dr ro fl il,
  ((exists e, NewSwarmFromConfig size goal c dr ro fl il = NewErr e) <-> ~ (size_ok c size /\ goal_valid goal)) /\
  (forall s, NewSwarmFromConfig size goal c dr ro fl il = NewOK s ->
     populated s size /\ Size s = size /\ s_opt s = false /\ s_goal s = goal /\ s_cfg s = fst (NV c size) /\
     s_rec s = zeroRecovery).
Proof.
  intros size goal c dr ro fl il.
  assert (ERR : ~ (size_ok c size /\ goal_valid goal) -> exists e, NewSwarmFromConfig size goal c dr ro fl il = NewErr e).
  { intros H. unfold NewSwarmFromConfig. destruct (Z.leb_spec size 0); [eauto|].
    destruct (M_Core.Validate goal) eqn:V; cbn [negb]; [|eauto]. apply validate_goal in V.
    destruct (NV c size) as [cfg ok] eqn:E.
    pose proof (C26_success_iff tr c size) as K. change (FNum tr) with NF in K. rewrite E in K. cbn [snd] in K.
    destruct ok; cbn [negb]; [|eauto]. exfalso. apply H. split; auto. now apply K. }
  assert (OK : size_ok c size /\ goal_valid goal \/ ~ (size_ok c size /\ goal_valid goal)).
  { destruct (M_Core.Validate goal) eqn:V; [|right; intros [_ G]; apply validate_goal in G; congruence].
    apply validate_goal in V. destruct (snd (NV c size)) eqn:E.
    - left. split; auto. now apply (C26_success_iff tr).
    - right. intros [S _]. apply (C26_success_iff tr) in S. change (FNum tr) with NF in S. congruence. }
  split; [split; auto|].
  - intros [e E] [S G]. rewrite nsfc_shape in E by auto. unfold wire in E.
    destruct (collectAgents _ _); [|discriminate]. destruct (establishConnections _ _ _ _); discriminate.
  - intros s H. destruct OK as [[S G]|C]; [|apply ERR in C; destruct C as [e E]; congruence].
    rewrite nsfc_shape in H by auto. unfold wire in H.
    destruct (collectAgents _ _); [|discriminate]. destruct (establishConnections _ _ _ _); [|discriminate].
    injection H as <-. split; [|repeat split].
    apply (pop_size _ (Z.to_nat size)); [|rewrite Z2Nat.id; auto; unfold size_ok in *; lia]. apply (populated_std _ (mkStd (bareC size goal c) dr)); auto. intros i. apply std_some.
Qed.
(** So the stored coherence can exceed the practical limit. *)
Definition fullGoal : State F := mkState (fofZ 0) 100000000 (fofZ 1).
Definition dr0 : nat -> Draws := fun _ => mkDraws 0 0 0 0 0 0.
Definition isOK (r : NewRes F) : bool := match r with NewOK _ => true | _ => false end.
Theorem C19_from_config_limit_refuted : exists size goal c dr ro fl il s,
  NewSwarmFromConfig size goal c dr ro fl il = NewOK s /\
  flt (lim_prac (lim size)) (st_coh (s_goal s)) = true.
Proof.
  set (r := NewSwarmFromConfig 2 fullGoal (Auto 2) dr0 (fun l => l) [fofZ 0; fofZ 0] []).
  assert (O : isOK r = true) by (vm_compute; reflexivity).
  destruct r as [| | |s] eqn:E; try discriminate O.
  exists 2, fullGoal, (Auto 2), dr0, (fun l => l), [fofZ 0; fofZ 0], [], s. split; auto.
  apply (C19_from_config 2 fullGoal) in E. destruct E as (_ & _ & _ & -> & _). vm_compute. reflexivity.
Qed.

(** ** Options. *)
(** Above 100 agents ForEachAgent (and hence the topology builders and DisruptAgents) sees no agent. *)
Theorem C19_foreach_empty : forall cpus size goal dr ro ro' fl il s, range_order ro' -> 100 < size ->
  New cpus size goal [] dr ro fl il = NewOK s -> forEachAgents ro' s = [].
Proof.
  intros cpus size goal dr ro ro' fl il s R L H.
  destruct (ok_dec size goal) as [[S G]|C].
  2:{ apply (C19_error_iff cpus size goal dr ro fl il) in C. destruct C as [e E]. congruence. }
  rewrite new_shape in H by auto. unfold wire in H.
  destruct (collectAgents _ _); [|discriminate]. destruct (establishConnections _ _ _ _); [|discriminate].
  injection H as <-. unfold forEachAgents. cbn [set_net s_map]. unfold filled.
  rewrite (proj2 (Z.ltb_lt _ _)) by lia. cbn [set_slice s_map bare map]. apply Permutation_nil. apply R.
Qed.
(** A topology given as the only option runs before any agent exists: Ring and Star make New fail for
    every size, FullyConnected yields a swarm without any connection. *)
Lemma ro_nil {A} (ro : list A -> list A) : range_order ro -> ro [] = [].
Proof. intros R. apply Permutation_nil. apply R. Qed.
Theorem C23_option_ring_star_refuted : forall cpus size goal dr ro ro' fl il top, range_order ro' ->
  1 <= size <= 1000000 -> goal_valid goal -> top = Ring \/ top = Star ->
  New cpus size goal [WithTopology ro' top] dr ro fl il = NewErr EOption.
Proof.
  intros cpus size goal dr ro ro' fl il top R S G HT. unfold New. destruct (Z.leb_spec size 0); [lia|].
  rewrite (proj2 (validate_goal goal) G). cbn [negb].
  pose proof (proj2 (proj2 (C26_autoscale_iff tr size)) S) as Hok. change (FNum tr) with NF in Hok.
  destruct (NV (Auto size) size) as [cfg ok]. cbn [snd] in Hok. subst ok. cbn [negb]. cbv zeta.
  cbn [applyOpts WithTopology]. unfold WithTopology, forEachAgents. cbn [s_map map]. rewrite (ro_nil ro' R). cbn [map].
  destruct HT as [-> | ->]; reflexivity.
Qed.
Theorem C23_option_full_refuted : forall cpus size goal dr ro ro' fl il, range_order ro' ->
  1 <= size <= 1000000 -> goal_valid goal ->
  exists s, New cpus size goal [WithTopology ro' FullyConnected] dr ro fl il = NewOK s /\ populated s size /\
    net_map (s_net s) = [] /\ (forall a, contextNeighbors (s_net s) a = Some []) /\
    (forall a b, IsConnectedTo (s_net s) a b = Some false).
Proof.
  intros cpus size goal dr ro ro' fl il R S G.
  set (s1 := set_net true newNet (bare cpus size goal)).
  rewrite (new_opts cpus size goal _ s1); auto.
  2:{ cbn [applyOpts]. unfold WithTopology, forEachAgents. cbn [bare s_map map]. rewrite (ro_nil ro' R). reflexivity. }
  unfold created. change (s_opt s1) with (100 <? size). destruct (100 <? size) eqn:L.
  - change (s_slice s1) with (@nil (option (Agent F))). rewrite create_optimized by reflexivity.
    eexists. split; [reflexivity|]. split; [|split; [|split]]; try reflexivity.
    apply (pop_size _ (Z.to_nat size)); [|rewrite Z2Nat.id; auto; unfold size_ok in *; lia]. apply (populated_opt _ (mkOpt s1 dr)); auto. intros i. apply opt_id.
  - change (s_map s1) with (@nil (string * Agent F)). rewrite create_default by reflexivity.
    eexists. split; [reflexivity|]. split; [|split; [|split]]; try reflexivity.
    apply (pop_size _ (Z.to_nat size)); [|rewrite Z2Nat.id; auto; unfold size_ok in *; lia]. apply (populated_std _ (mkStd s1 dr)); auto. intros i. apply std_some.
Qed.
(** A custom agent builder is honoured up to 100 agents and silently ignored above. *)
Definition custom (b : string -> Z -> SCfg F -> Agent F) (size : Z) (i : nat) : Agent F :=
  b (agentID i) size (fst (NV (Auto size) size)).
Lemma builder_map (b : string -> Z -> SCfg F -> Agent F) size is m : (forall id n c, ag_id (b id n c) = id) ->
  NoDup (map fst m ++ map agentID is) ->
  fold_left (fun m i => let a := b (agentID i) size (fst (NV (Auto size) size)) in kvStore m (ag_id a) a) is m =
  m ++ map (fun i => (agentID i, custom b size i)) is.
Proof.
  intros HB. revert m. induction is as [|i is IH]; cbn [fold_left map]; intros m ND; [now rewrite app_nil_r|].
  cbv zeta. rewrite HB, kvStore_fresh.
  - rewrite IH; [now rewrite <- app_assoc|]. rewrite map_app. cbn [map fst]. now rewrite <- app_assoc.
  - apply NoDup_remove_2 in ND. intros H. apply ND, in_or_app. auto.
Qed.
Theorem C19_builder : forall b cpus size goal dr ro fl il s, (forall id n c, ag_id (b id n c) = id) ->
  New cpus size goal [WithAgentBuilder b] dr ro fl il = NewOK s ->
  populated s size /\
  (size <= 100 -> forall i, (i < Z.to_nat size)%nat -> AgentByID s (agentID i) = Some (Some (b (agentID i) size (s_cfg s)))) /\
  (100 < size -> forall i, (i < Z.to_nat size)%nat ->
     AgentByID s (agentID i) = Some (Some (NewOptimizedFromConfig (agentID i) (dr i) (agentConfig s)))).
Proof.
  intros b cpus size goal dr ro fl il s HB H.
  assert (SG : 1 <= size <= 1000000 /\ goal_valid goal).
  { unfold New in H. destruct (Z.leb_spec size 0); [discriminate|].
    destruct (M_Core.Validate goal) eqn:V; cbn [negb] in H; [|discriminate]. apply validate_goal in V. split; auto.
    apply (proj2 (C26_autoscale_iff tr size)). change (FNum tr) with NF.
    destruct (NV (Auto size) size) as [cfg ok]. destruct ok; [reflexivity|discriminate]. }
  destruct SG as [S G].
  set (s1 := set_map (listing (custom b size) (Z.to_nat size)) (bare cpus size goal)).
  rewrite (new_opts cpus size goal _ s1) in H; auto.
  2:{ cbn [applyOpts]. unfold WithAgentBuilder. cbn [bare s_cfg s_size s_map].
      rewrite builder_map; auto. cbn [map app]. apply ids_nodup. }
  assert (HC : forall i, ag_id (custom b size i) = agentID i) by (intros i; apply HB).
  destruct (listing_facts (custom b size) (Z.to_nat size) HC) as (Len & _ & _ & _).
  unfold created in H. change (s_opt s1) with (100 <? size) in H. destruct (Z.ltb_spec 100 size) as [L|L].
  - change (s_slice s1) with (@nil (option (Agent F))) in H. rewrite create_optimized in H by reflexivity.
    change (Z.to_nat (s_size s1)) with (Z.to_nat size) in H.
    set (s3 := set_slice _ _ s1) in H. change (s_conn s3) with false in H. cbv iota in H. unfold wire in H.
    destruct (collectAgents _ _); [|discriminate]. destruct (establishConnections _ _ _ _) as [e|]; [|discriminate].
    injection H as <-. set (s4 := set_net _ _ s3).
    assert (O4 : s_opt s4 = true) by (change (s_opt s4) with (100 <? size); now apply Z.ltb_lt).
    split; [|split].
    + apply (pop_size _ (Z.to_nat size)); [|rewrite Z2Nat.id; auto; unfold size_ok in *; lia]. apply (populated_opt _ (mkOpt s1 dr)); auto. intros i. apply opt_id.
    + intros; lia.
    + intros _ i Hi. unfold AgentByID. rewrite O4.
      change (s_index s4) with (idx (Z.to_nat size)).
      change (s_slice s4) with (map (fun i : nat => Some (mkOpt s1 dr i)) (seq 0 (Z.to_nat size))).
      assert (E : kvLoad (idx (Z.to_nat size)) (agentID i) = Some (Z.of_nat i)).
      { apply kvLoad_some; [unfold idx; rewrite keys_map; apply ids_nodup|].
        unfold idx. apply in_map_iff. exists i. split; auto. apply in_seq. lia. }
      rewrite E. unfold nthZ. rewrite (proj2 (Z.ltb_ge _ _)) by lia. rewrite Nat2Z.id, nth_seq_map by auto. reflexivity.
  - destruct (s_map s1) eqn:EM.
    { exfalso. change (s_map s1) with (listing (custom b size) (Z.to_nat size)) in EM. rewrite EM in Len. cbn in Len. lia. }
    clear EM. change (s_conn s1) with false in H. cbv iota in H. unfold wire in H.
    destruct (collectAgents _ _); [|discriminate]. destruct (establishConnections _ _ _ _) as [e|]; [|discriminate].
    injection H as <-. set (s4 := set_net _ _ s1).
    assert (O4 : s_opt s4 = false) by (change (s_opt s4) with (100 <? size); now apply Z.ltb_ge).
    split; [|split].
    + apply (pop_size _ (Z.to_nat size)); [|rewrite Z2Nat.id; auto; unfold size_ok in *; lia]. apply (populated_std _ (custom b size)); auto.
    + intros _ i Hi. unfold AgentByID. rewrite O4. f_equal.
      change (s_map s4) with (listing (custom b size) (Z.to_nat size)).
      apply kvLoad_some; [unfold listing; rewrite keys_map; apply ids_nodup|].
      apply listing_facts; auto. exists i. auto.
    + intros; lia.
Qed.

(** Non-vacuity: construction runs to completion on both sides of the storage switch. *)
Definition okGoal : State F := mkState (fofZ 1) 100000000 (flit 9 10).
Example C19_goal_valid : goal_valid okGoal /\ ~ goal_valid (mkState (fofZ 1) 0 (flit 9 10)).
Proof. split; [repeat split; vm_compute; reflexivity|]. intros (H & _). cbn in H. lia. Qed.
Example C19_three : isOK (New 8 3 okGoal [] dr0 (fun l => rev l) (repeat (fofZ 0) 9) []) = true.
Proof. vm_compute. reflexivity. Qed.
Example C19_one : isOK (New 8 1 okGoal [] dr0 (fun l => l) [] []) = true.
Proof. vm_compute. reflexivity. Qed.
Example C19_120 : isOK (New 8 120 okGoal [] dr0 (fun l => l) (repeat (fofZ 0) 3000) []) = true.
Proof. vm_compute. reflexivity. Qed.
Example C19_builder_nonvacuous : isOK (New 8 3 okGoal [WithAgentBuilder (fun id n c => NewAgent id 0 0 0 [])] dr0 (fun l => l) (repeat (fofZ 0) 9) []) = true.
Proof. vm_compute. reflexivity. Qed.
Example C19_order_nonvacuous : range_order (fun l : list (Agent F) => rev l).
Proof. intros l. apply Permutation_rev. Qed.
Example C19_config_ok : size_ok (Auto 3) 3.
Proof. apply C26_autoscale_ok. lia. Qed.
End C19.

Print Assumptions C19_error_iff. Print Assumptions C19_result. Print Assumptions C19_no_panic.
Print Assumptions C19_completes. Print Assumptions C19_ids. Print Assumptions C19_from_config.
Print Assumptions C19_from_config_limit_refuted. Print Assumptions C19_foreach_empty.
Print Assumptions C23_option_ring_star_refuted. Print Assumptions C23_option_full_refuted. Print Assumptions C19_builder.
