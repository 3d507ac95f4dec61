(** Property theorems C78: what the helpers used by the tests build. *)
From Coq Require Import ZArith Reals Psatz Bool List String Lia Permutation.
From Flocq Require Import Core.Core IEEE754.BinarySingleNaN.
From Verif Require Import Num F64 RealNum GoBase M_Core M_Strategy M_Random M_Agent M_AgentConfig M_SwarmConfig M_Limits M_Neighbors M_Conn M_GoalConfig M_Swarm M_TestUtil
  S_Config S_Conn S_Swarm L_F64 L_F64x L_Ford L_Conn L_Config L_Swarm P_Config P_Conn P_Swarm.
Import ListNotations.
Open Scope Z_scope.

(** ** The topologies *)
Lemma store_in e a b x y : In (x, y) (store e a b) <-> In (x, y) e \/ (x = a /\ y = b).
Proof.
  unfold store. destruct (has e a b) eqn:H.
  - apply has_iff in H. split; [auto|]. intros [K|[-> ->]]; auto.
  - cbn [In]. split; [intros [K|K]; [injection K as <- <-; auto|auto]|intros [K|[-> ->]]; auto].
Qed.
Lemma store_nodup e a b : NoDup e -> NoDup (store e a b).
Proof. intros H. unfold store. destruct (has e a b) eqn:E; auto. constructor; auto. now apply has_false. Qed.
Lemma storeAll_spec a bs : forall n, net_opt (storeAll n a bs) = net_opt n /\ (NoDup (net_map n) -> NoDup (net_map (storeAll n a bs))) /\
  forall x y, In (x, y) (net_map (storeAll n a bs)) <-> In (x, y) (net_map n) \/ (x = a /\ In y bs /\ y <> a).
Proof.
  unfold storeAll. induction bs as [|b bs IH]; intros n; cbn [fold_left].
  - split; [reflexivity|]. split; [auto|]. intros x y. cbn. tauto.
  - destruct (String.eqb_spec a b) as [->|D].
    + destruct (IH n) as (A & B & C). split; [exact A|]. split; [exact B|]. intros x y. rewrite C. cbn [In]. intuition congruence.
    + destruct (IH (mapStore n a b)) as (A & B & C). split; [exact A|]. split; [intros H; apply B; now apply store_nodup|]. intros x y. rewrite C. unfold mapStore. cbn [net_map]. rewrite store_in. cbn [In]. split.
      * intros [[H|[-> ->]]|(-> & H & K)]; auto.
      * intros [H|(-> & [<-|H] & K)]; auto.
Qed.
(** Everybody is stored with everybody else, whatever the orders of the two ranges. *)
Theorem C78_full : forall agents inner n, (forall a, Permutation agents (inner a)) ->
  exists n', FullyConnectedTopology inner agents n = Some (n', true) /\ net_opt n' = net_opt n /\ (NoDup (net_map n) -> NoDup (net_map n')) /\
  forall a b, In (a, b) (net_map n') <-> In (a, b) (net_map n) \/ (In a agents /\ In b agents /\ b <> a).
Proof.
  intros agents inner n P. eexists. split; [reflexivity|].
  assert (G : forall l n, net_opt (fold_left (fun n a => storeAll n a (inner a)) l n) = net_opt n /\
     (NoDup (net_map n) -> NoDup (net_map (fold_left (fun n a => storeAll n a (inner a)) l n))) /\
     forall a b, In (a, b) (net_map (fold_left (fun n a => storeAll n a (inner a)) l n)) <-> In (a, b) (net_map n) \/ (In a l /\ In b agents /\ b <> a)).
  { clear n. induction l as [|c l IH]; intros n; cbn [fold_left]; [split; [reflexivity|]; split; [auto|]; intros a b; cbn; tauto|].
    destruct (IH (storeAll n c (inner c))) as (A & B & C). destruct (storeAll_spec c (inner c) n) as (A1 & B1 & C1).
    split; [congruence|]. split; [auto|]. intros a b. rewrite C, C1. cbn [In].
    assert (E : forall y, In y (inner c) <-> In y agents) by (intros y; split; [apply Permutation_in; now symmetry|now apply Permutation_in]).
    rewrite E. split.
    - intros [[H|(-> & H & K)]|(H & K)]; auto.
    - intros [H|([<-|H] & K)]; auto. }
  apply G.
Qed.
Lemma mod_flip len i j : 2 <= len -> 0 <= i < len -> 0 <= j < len -> (i = (j + 1) mod len <-> j = (i - 1) mod len).
Proof.
  intros LL Hi Hj. split; intros Q.
  - destruct (Z.eq_dec j (len - 1)) as [->|].
    + replace (len - 1 + 1) with (0 + 1 * len) in Q by lia. rewrite Z_mod_plus, Z.mod_small in Q by lia. subst i.
      replace (0 - 1) with (len - 1 + (-1) * len) by lia. rewrite Z_mod_plus, Z.mod_small; lia.
    + rewrite Z.mod_small in Q by lia. rewrite Z.mod_small; lia.
  - destruct (Z.eq_dec i 0) as [->|].
    + replace (0 - 1) with (len - 1 + (-1) * len) in Q by lia. rewrite Z_mod_plus, Z.mod_small in Q by lia. subst j.
      replace (len - 1 + 1) with (0 + 1 * len) by lia. rewrite Z_mod_plus, Z.mod_small; lia.
    + rewrite Z.mod_small in Q by lia. rewrite Z.mod_small; lia.
Qed.
Lemma ring_loop_spec agents : 2 <= Z.of_nat (List.length agents) -> forall todo pre n, agents = pre ++ todo ->
  let len := Z.of_nat (List.length agents) in
  exists n', ringTopoLoop agents todo (Z.of_nat (List.length pre)) n = Some n' /\ net_opt n' = net_opt n /\ (NoDup (net_map n) -> NoDup (net_map n')) /\
  forall x y, In (x, y) (net_map n') <-> In (x, y) (net_map n) \/ exists i, Z.of_nat (List.length pre) <= i < len /\ nthZ agents i = Some x /\ (nthZ agents ((i - 1) mod len) = Some y \/ nthZ agents ((i + 1) mod len) = Some y).
Proof.
  intros L. induction todo as [|a r IH]; intros pre n E len.
  - exists n. split; [reflexivity|]. split; [reflexivity|]. split; [auto|]. intros x y. split; [auto|]. intros [H|(i & H & _)]; [exact H|].
    unfold len in H. rewrite E, app_nil_r in H. lia.
  - assert (P : Z.of_nat (List.length pre) < len) by (unfold len; rewrite E, app_length; cbn [List.length]; lia).
    set (i := Z.of_nat (List.length pre)) in *.
    cbn [ringTopoLoop]. fold len.
    rewrite (Z.rem_mod_nonneg (i - 1 + len)) by lia. rewrite (Z.rem_mod_nonneg (i + 1)) by lia.
    replace ((i - 1 + len) mod len) with ((i - 1) mod len) by (replace (i - 1 + len) with (i - 1 + 1 * len) by lia; now rewrite Z_mod_plus by lia).
    destruct (nthZ_some agents ((i - 1) mod len) ltac:(apply Z.mod_pos_bound; lia)) as [p Ep].
    destruct (nthZ_some agents ((i + 1) mod len) ltac:(apply Z.mod_pos_bound; lia)) as [q Eq]. rewrite Ep, Eq.
    assert (Ea : nthZ agents i = Some a).
    { unfold nthZ. rewrite (proj2 (Z.ltb_ge i 0)) by lia. unfold i. rewrite Nat2Z.id, E, nth_error_app2, Nat.sub_diag by lia. reflexivity. }
    destruct (IH (pre ++ [a]) (mapStore (mapStore n a p) a q) ltac:(rewrite <- app_assoc; exact E)) as (n' & R & O & ND & C).
    rewrite app_length in R, C. cbn [List.length] in R, C. replace (Z.of_nat (List.length pre + 1)) with (i + 1) in R, C by (unfold i; lia).
    exists n'. split; [exact R|]. split; [exact O|]. split; [intros H; apply ND; now apply store_nodup, store_nodup|].
    intros x y. rewrite C. unfold mapStore. cbn [net_map]. rewrite !store_in. fold len. split.
    + intros [[[H|[-> ->]]|[-> ->]]|(j & H & K)]; [auto|right; exists i; split; [lia|auto]|right; exists i; split; [lia|auto]|right; exists j; split; [lia|auto]].
    + intros [H|(j & H & K1 & K2)]; [auto|]. destruct (Z.eq_dec j i) as [->|NE].
      * rewrite Ea in K1. injection K1 as <-. destruct K2 as [K2|K2]; [rewrite Ep in K2|rewrite Eq in K2]; injection K2 as <-; auto.
      * right. exists j. split; [lia|auto].
Qed.
(** A ring: exactly the two ring neighbours are stored with each agent. *)
Theorem C78_ring : forall agents n, NoDup agents -> (2 <= List.length agents)%nat ->
  exists n', RingTopology agents n = Some (n', true) /\ net_opt n' = net_opt n /\ (NoDup (net_map n) -> NoDup (net_map n')) /\
  forall a b, In (a, b) (net_map n') <-> In (a, b) (net_map n) \/ exists i j, nthZ agents i = Some a /\ nthZ agents j = Some b /\ ring_adjacent (Z.of_nat (List.length agents)) i j.
Proof.
  intros agents n ND L. unfold RingTopology. rewrite (proj2 (Z.ltb_ge _ _)) by lia.
  destruct (ring_loop_spec agents ltac:(lia) agents [] n eq_refl) as (n' & R & O & K & C). cbn [List.length Z.of_nat] in R, C. rewrite R.
  exists n'. split; [reflexivity|]. split; [exact O|]. split; [exact K|]. intros a b. rewrite C. set (len := Z.of_nat (List.length agents)) in *.
  assert (LL : 2 <= len) by (unfold len; lia).
  split; (intros [H|H]; [auto|right]).
  - destruct H as (i & Hi & Ea & [Eb|Eb]); [exists i, ((i - 1) mod len)|exists i, ((i + 1) mod len)]; (split; [exact Ea|]); (split; [exact Eb|]); unfold ring_adjacent; auto.
    right. apply mod_flip; auto. apply Z.mod_pos_bound. lia.
  - destruct H as (i & j & Ea & Eb & A). pose proof (nthZ_range _ _ _ Ea) as Ri. pose proof (nthZ_range _ _ _ Eb) as Rj. fold len in Ri, Rj.
    exists i. split; [lia|]. split; [exact Ea|]. destruct A as [->|A]; [auto|]. apply mod_flip in A; [|lia|lia|lia]. subst j. auto.
Qed.
(** A star: the hub with everybody else, everybody else with the hub only. *)
Theorem C78_star : forall hub others n, others <> [] ->
  exists n', StarTopology (hub :: others) n = Some (n', true) /\ net_opt n' = net_opt n /\ (NoDup (net_map n) -> NoDup (net_map n')) /\
  forall a b, In (a, b) (net_map n') <-> In (a, b) (net_map n) \/ (a = hub /\ In b others) \/ (In a others /\ b = hub).
Proof.
  intros hub others n NE. unfold StarTopology. rewrite (proj2 (Z.ltb_ge _ _)) by (destruct others; [congruence|cbn [List.length]; lia]).
  eexists. split; [reflexivity|].
  assert (G1 : forall l n, net_opt (fold_left (fun n b => mapStore n hub b) l n) = net_opt n /\ (NoDup (net_map n) -> NoDup (net_map (fold_left (fun n b => mapStore n hub b) l n))) /\
     forall a b, In (a, b) (net_map (fold_left (fun n b => mapStore n hub b) l n)) <-> In (a, b) (net_map n) \/ (a = hub /\ In b l)).
  { clear. induction l as [|c l IH]; intros n; cbn [fold_left]; [split; [reflexivity|]; split; [auto|]; intros; cbn; tauto|].
    destruct (IH (mapStore n hub c)) as (A & B & C). split; [exact A|]. split; [intros H; apply B; now apply store_nodup|]. intros a b. rewrite C. unfold mapStore. cbn [net_map In]. rewrite store_in. intuition congruence. }
  assert (G2 : forall l n, net_opt (fold_left (fun n a => mapStore n a hub) l n) = net_opt n /\ (NoDup (net_map n) -> NoDup (net_map (fold_left (fun n a => mapStore n a hub) l n))) /\
     forall a b, In (a, b) (net_map (fold_left (fun n a => mapStore n a hub) l n)) <-> In (a, b) (net_map n) \/ (In a l /\ b = hub)).
  { clear. induction l as [|c l IH]; intros n; cbn [fold_left]; [split; [reflexivity|]; split; [auto|]; intros; cbn; tauto|].
    destruct (IH (mapStore n c hub)) as (A & B & C). split; [exact A|]. split; [intros H; apply B; now apply store_nodup|]. intros a b. rewrite C. unfold mapStore. cbn [net_map In]. rewrite store_in. intuition congruence. }
  destruct (G1 others n) as (A1 & B1 & C1). destruct (G2 others (fold_left (fun n b => mapStore n hub b) others n)) as (A2 & B2 & C2).
  split; [congruence|]. split; [auto|]. intros a b. rewrite C2, C1. tauto.
Qed.
Theorem C78_too_few : forall agents n, (List.length agents < 2)%nat -> RingTopology agents n = Some (n, false) /\ StarTopology agents n = Some (n, false).
Proof. intros agents n L. unfold RingTopology, StarTopology. now rewrite (proj2 (Z.ltb_lt _ _)) by lia. Qed.

(** The neighbour count of fresh agents is the size of what was stored. *)
Lemma count_fresh n a l : fresh n -> NoDup (net_map n) -> NoDup l -> (forall b, In (a, b) (net_map n) <-> In b l) -> NeighborCount n a = Z.of_nat (List.length l).
Proof.
  intros F ND NL H. unfold NeighborCount. rewrite (F a). change (Count (NewNeighborStorage ""%string 20)) with 0.
  set (e := filter _ (net_map n)). assert (E : List.length e = List.length l).
  { transitivity (List.length (map (fun b => (a, b)) l)); [|apply map_length]. apply Permutation_length, NoDup_Permutation.
    - now apply NoDup_filter.
    - apply FinFun.Injective_map_NoDup; [|exact NL]. intros x y Q. now injection Q.
    - intros [x y]. unfold e. rewrite filter_In, in_map_iff. cbn [fst]. rewrite String.eqb_eq. split.
      + intros [I ->]. exists y. split; [reflexivity|]. now apply H.
      + intros (z & Q & I). injection Q as <- <-. split; [now apply H|reflexivity]. }
  rewrite E. destruct (Z.ltb_spec (Z.of_nat (List.length l)) 0); lia.
Qed.
Theorem C78_full_count : forall agents inner n a, (forall a, Permutation agents (inner a)) -> NoDup agents -> fresh n -> net_map n = [] -> In a agents ->
  exists n', FullyConnectedTopology inner agents n = Some (n', true) /\ NeighborCount n' a = Z.of_nat (List.length agents) - 1.
Proof.
  intros agents inner n a P ND F E I. destruct (C78_full agents inner n P) as (n' & R & O & K & C). exists n'. split; [exact R|].
  destruct (in_split _ _ I) as (p & q & S). pose proof ND as ND'. rewrite S in ND'. pose proof (NoDup_remove_1 _ _ _ ND') as N1. apply NoDup_remove_2 in ND'.
  rewrite (count_fresh n' a (p ++ q)).
  - rewrite S, !app_length. cbn [List.length]. lia.
  - intros x. rewrite O. apply F.
  - apply K. rewrite E. constructor.
  - exact N1.
  - intros b. rewrite C, E. cbn [In]. rewrite S, !in_app_iff. rewrite in_app_iff in ND'. cbn [In]. split.
    + intros [[]|(_ & [H|[H|H]] & D)]; [auto|congruence|auto].
    + intros H. right. split; [auto|]. split; [tauto|]. intros ->. tauto.
Qed.
(** REFUTED: "connected" for the agents themselves.  Fresh agents read the other container, so after any of the three
    topologies nobody sees a neighbour. *)
Theorem C78_unseen_refuted : forall n n' inner agents hub others, fresh n -> (forall a, Permutation agents (inner a)) -> NoDup agents -> (2 <= List.length agents)%nat -> others <> [] ->
  (FullyConnectedTopology inner agents n = Some (n', true) \/ RingTopology agents n = Some (n', true) \/ StarTopology (hub :: others) n = Some (n', true)) ->
  forall a b, contextNeighbors n' a = Some [] /\ IsConnectedTo n' a b = Some false.
Proof.
  intros n n' inner agents hub others F P ND L NE H a b.
  assert (O : net_opt n' = net_opt n).
  { destruct H as [H|[H|H]].
    - destruct (C78_full agents inner n P) as (m & R & O & _). congruence.
    - destruct (C78_ring agents n ND L) as (m & R & O & _). congruence.
    - destruct (C78_star hub others n NE) as (m & R & O & _). congruence. }
  unfold contextNeighbors, IsConnectedTo. rewrite O, (F a). split; reflexivity.
Qed.

(** ** Test agents and swarms *)
Section Swarms.
Variable tr : Trig.
Local Instance NF : Num F := FNum tr.
Local Notation NV := (@M_SwarmConfig.NormalizeAndValidate F NF).
Local Notation Auto := (@AutoScaleConfig F NF).

(** A test agent: no panic, all attributes fixed except the local goal. *)
Theorem C78_test_agent : forall id d size, exists a, @testBuild F NF d id size = Some a /\ ag_id a = id /\
  sd_phase (ag_sd a) = fofZ 0 /\ sd_energy (ag_sd a) = fofZ 100 /\ sd_freq (ag_sd a) = 50000000 /\
  bd_infl (ag_bd a) = flit 8 10 /\ bd_stub (ag_bd a) = flit 1 100 /\ ag_strat a = Some (SKNudge (flit 5 10)) /\
  sd_goal (ag_sd a) = @WrapPhase F NF (@RandPhase F NF (dr_goal (d id))).
Proof.
  intros id d size. unfold testBuild.
  set (c := mkACfg _ _ _ _ _ _ _ _ _ _ _ _ _ _ _ _ _). unfold NewFromConfig.
  assert (E1 : @createDecisionMaker F c = true) by reflexivity. assert (E2 : @createGoalManager F c = true) by reflexivity. rewrite E1, E2. cbn [negb].
  assert (Z1 : @neqb F NF (fofZ 100) (@n0 F NF) = false) by (vm_compute; reflexivity).
  assert (Z2 : @neqb F NF (@nlit F NF 5 10) (@n0 F NF) = false) by (vm_compute; reflexivity).
  assert (Z3 : @neqb F NF (@nlit F NF 8 10) (@n0 F NF) = false) by (vm_compute; reflexivity).
  assert (Z4 : @neqb F NF (@nlit F NF 1 100) (@n0 F NF) = false) by (vm_compute; reflexivity).
  assert (Z5 : @neqb F NF (@n0 F NF) (@n0 F NF) = true) by (vm_compute; reflexivity).
  assert (E3 : createResourceManager c = Some (M_Resource.NewTokenManager (fofZ 100))) by (unfold createResourceManager; cbn [c ac_rm ac_tokens TestAgent String.eqb orb Ascii.eqb Bool.eqb]; change (@nofZ F NF 100) with (fofZ 100); now rewrite Z1).
  assert (E4 : createStrategy c = Some (SKNudge (@nlit F NF 5 10))) by (unfold createStrategy; cbn [c ac_st ac_rate TestAgent String.eqb orb Ascii.eqb Bool.eqb]; now rewrite Z2).
  rewrite E3, E4.
  assert (E5 : createPhaseOptions (d id) c = [upd_sd (fPhase (@n0 F NF))]) by (unfold createPhaseOptions; cbn [c ac_rphase ac_phase TestAgent]; now rewrite Z5).
  assert (E6 : createGoalOptions (d id) c = [upd_sd (fGoal (RandPhase (dr_goal (d id))))]) by (unfold createGoalOptions; cbn [c ac_rgoal ac_goal TestAgent]; now rewrite Z5).
  assert (E7 : createFrequencyOptions (d id) c = [upd_sd (fFreq 50000000)]) by reflexivity.
  assert (E8 : createParameterOptions c = [SetEnergy (fofZ 100); SetInfluence (@nlit F NF 8 10); SetStubbornness (@nlit F NF 1 100)] ++ (if 0 <? size then [WithSwarmInfo size 0] else [])).
  { unfold createParameterOptions. cbn [c ac_energy ac_infl ac_stub ac_swarm ac_maxn TestAgent]. change (@nofZ F NF 100) with (fofZ 100). now rewrite Z1, Z3, Z4. }
  rewrite E5, E6, E7, E8. eexists. split; [reflexivity|]. unfold NewAgent. destruct (0 <? size); cbn [app fold_left ag_id ag_sd ag_bd ag_strat sd_phase sd_energy sd_freq sd_goal bd_infl bd_stub set_ctx WithSwarmInfo upd_sd upd_bd SetEnergy SetInfluence SetStubbornness fPhase fGoal fFreq fEnergy fInfl fStub WithStrategy WithResourceManager WithGoalManager WithDecisionMaker set_res]; (split; [reflexivity|]); (split; [apply B2SF_inj; vm_compute; reflexivity|]); (split; [apply B2SF_inj; vm_compute; reflexivity|]); (split; [reflexivity|]); (split; [apply B2SF_inj; vm_compute; reflexivity|]); (split; [apply B2SF_inj; vm_compute; reflexivity|]); split; reflexivity.
Qed.

Lemma vg (g : State F) : @M_Core.Validate F NF g = true <-> goal_valid g.
Proof. exact (validate_goal tr g). Qed.
Lemma new_with cpus size goal c rest s1 dr ro fl il : goal_valid goal -> 1 <= size <= 1000000 -> size_ok c size ->
  applyOpts rest (set_cfg (fst (NV c size)) (bare tr cpus size goal)) = Some s1 -> s_cfg s1 = fst (NV c size) ->
  New cpus size goal (WithConfig c :: rest) dr ro fl il =
  match created tr dr s1 with
  | None => NewErr ECreate
  | Some s3 => if s_conn s3 then NewOK s3 else wire ro fl il s3
  end.
Proof.
  intros G S SC AO EC. unfold New. destruct (Z.leb_spec size 0); [lia|].
  rewrite (proj2 (vg goal) G). cbn [negb].
  pose proof (proj2 (proj2 (C26_autoscale_iff tr size)) S) as Hok.
  pose proof (proj2 (C26_success_iff tr c size) SC) as Hc.
  pose proof (C26_idempotent tr _ _ Hc) as HI.
  pose proof (proj1 (C26_success_iff tr (fst (NV c size)) size)) as HM.
  assert (HS : snd (NV (fst (NV c size)) size) = true) by (change NF with (FNum tr); rewrite HI; reflexivity).
  specialize (HM HS). change (FNum tr) with NF in *.
  assert (EB : mkSwarm [] [] [] (100 <? size) (clampGoal size goal) (fst (NV (Auto size) size)) size false newNet None
    (DefaultRecoveryConfig (st_coh (clampGoal size goal)))
    (if 100 <? size then Some (getOptimalWorkerCount cpus size) else None) = bare tr cpus size goal) by reflexivity.
  destruct (NV (Auto size) size) as [cfg ok] eqn:E. cbn [snd fst] in *. subst ok. cbn [negb]. cbv zeta.
  rewrite EB. cbn [applyOpts]. unfold WithConfig at 1. change (s_size (bare tr cpus size goal)) with size.
  destruct (NV c size) as [cc okc] eqn:E2. cbn [snd fst] in *. subst okc.
  rewrite AO, EC, HI. cbn [negb].
  destruct ((0 <? sc_maxsize cc) && (sc_maxsize cc <? size))%bool eqn:Q.
  { apply andb_true_iff in Q. rewrite !Z.ltb_lt in Q. lia. }
  assert (SB : set_cfg cc s1 = s1) by (destruct s1; cbn in EC |- *; now subst).
  rewrite SB. reflexivity.
Qed.
Lemma build_map (f : nat -> Agent F) is : forall m, (forall i, ag_id (f i) = agentID i) -> NoDup (map fst m ++ map agentID is) ->
  fold_left (fun m i => kvStore m (ag_id (f i)) (f i)) is m = m ++ map (fun i => (agentID i, f i)) is.
Proof.
  induction is as [|i is IH]; cbn [fold_left map]; intros m HF ND; [now rewrite app_nil_r|].
  rewrite HF, kvStore_fresh.
  - rewrite IH; [now rewrite <- app_assoc|exact HF|]. rewrite map_app. cbn [map fst]. now rewrite <- app_assoc.
  - apply NoDup_remove_2 in ND. intros H. apply ND, in_or_app. auto.
Qed.
(** TestSwarm for 1 to 100 agents: all agents at phase 0 (already synchronised), everybody stored with everybody else,
    and nobody sees anybody. *)
Theorem C78_test_swarm : forall cpus size g d ro inner dr ro2 fl il, goal_valid g -> 1 <= size <= 100 -> range_order ro -> (forall a, range_order (inner a)) ->
  exists s, @TestSwarm F NF cpus size g d ro inner dr ro2 fl il = NewOK s /\ populated s size /\
  (forall i, (i < Z.to_nat size)%nat -> exists a, AgentByID s (agentID i) = Some (Some a) /\ sd_phase (ag_sd a) = fofZ 0) /\
  (forall a b, In (a, b) (net_map (s_net s)) <-> (exists i, (i < Z.to_nat size)%nat /\ a = agentID i) /\ (exists i, (i < Z.to_nat size)%nat /\ b = agentID i) /\ b <> a) /\
  (forall a, contextNeighbors (s_net s) a = Some []).
Proof.
  intros cpus size g d ro inner dr ro2 fl il G S R RI. unfold TestSwarm.
  set (cf := fst (NV testSwarmCfg size)). set (f := fun i => @testBuilder F NF d (agentID i) size cf).
  assert (HF : forall i, ag_id (f i) = agentID i /\ sd_phase (ag_sd (f i)) = fofZ 0).
  { intros i. unfold f, testBuilder. destruct (C78_test_agent (agentID i) d size) as (a & -> & A & B & _). auto. }
  set (ids := map agentID (seq 0 (Z.to_nat size))).
  destruct (C78_full (ro ids) (fun a => inner a (ro ids)) newNet ltac:(intros a; apply RI)) as (n' & FE & O & _ & C).
  set (b1 := set_cfg cf (bare tr cpus size g)).
  set (s1 := set_net true n' (set_map (listing f (Z.to_nat size)) b1)).
  assert (SC : size_ok (@testSwarmCfg F NF) size) by (split; [lia|]; change (sc_maxsize (@testSwarmCfg F NF)) with 100; lia).
  assert (L100 : (100 <? size) = false) by (apply Z.ltb_ge; lia).
  rewrite (new_with cpus size g testSwarmCfg _ s1); auto; [|lia|].
  - unfold created. change (s_opt s1) with (100 <? size). rewrite L100.
    destruct (listing_facts f (Z.to_nat size) ltac:(apply HF)) as (Len & _ & _ & LI).
    destruct (s_map s1) eqn:EM; [exfalso; change (s_map s1) with (listing f (Z.to_nat size)) in EM; rewrite EM in Len; cbn in Len; lia|]. clear EM.
    change (s_conn s1) with true. cbv iota. exists s1. split; [reflexivity|].
    assert (O1 : s_opt s1 = false) by exact L100.
    split; [apply (pop_size _ (Z.to_nat size)); [|lia]; apply (populated_std _ f); [exact O1|reflexivity|apply HF]|].
    split; [|split].
    + intros i Hi. exists (f i). split; [|apply HF]. unfold AgentByID. rewrite O1. f_equal. change (s_map s1) with (listing f (Z.to_nat size)).
      apply kvLoad_some; [unfold listing; rewrite keys_map; apply ids_nodup|]. apply LI. eauto.
    + intros a b. change (net_map (s_net s1)) with (net_map n'). rewrite C. cbn [newNet net_map In].
      assert (I : forall x, In x (ro ids) <-> exists i, (i < Z.to_nat size)%nat /\ x = agentID i).
      { intros x. transitivity (In x ids); [split; apply Permutation_in; [symmetry|]; apply R|]. unfold ids. rewrite in_map_iff. split; intros (i & A & B); exists i; [apply in_seq in B|]; split; auto; try lia. apply in_seq. lia. }
      rewrite !I. tauto.
    + intros a. unfold contextNeighbors. change (s_net s1) with n'. rewrite O. reflexivity.
  - cbn [applyOpts]. fold cf. fold b1. unfold WithAgentBuilder. change (s_size b1) with size. change (s_cfg b1) with cf. change (s_map b1) with (@nil (string * Agent F)).
    change (fold_left _ (seq 0 (Z.to_nat size)) []) with (fold_left (fun m i => kvStore m (ag_id (f i)) (f i)) (seq 0 (Z.to_nat size)) (@nil (string * Agent F))).
    rewrite build_map; [|apply HF|apply ids_nodup]. cbn [app]. fold (listing f (Z.to_nat size)).
    unfold WithTopologyMap, Agents. change (s_opt (set_map (listing f (Z.to_nat size)) b1)) with (100 <? size). rewrite L100.
    cbn [set_map s_map]. assert (KM : map fst (listing f (Z.to_nat size)) = ids) by (unfold listing; apply keys_map). rewrite !KM. change (s_net (set_map (listing f (Z.to_nat size)) b1)) with newNet. rewrite FE. reflexivity.
Qed.
(** Above 100 agents, and for a bad size or goal, TestSwarm returns an error. *)
Theorem C78_test_swarm_error : forall cpus size g d ro inner dr ro2 fl il, ~ (goal_valid g /\ 1 <= size <= 100) ->
  exists e, @TestSwarm F NF cpus size g d ro inner dr ro2 fl il = NewErr e.
Proof.
  intros cpus size g d ro inner dr ro2 fl il H. unfold TestSwarm, New. destruct (Z.leb_spec size 0); [eauto|].
  destruct (M_Core.Validate g) eqn:V; cbn [negb]; [|eauto]. apply vg in V.
  destruct (NV (Auto size) size) as [cfg ok]. destruct ok; cbn [negb]; [|eauto]. cbv zeta. cbn [applyOpts]. unfold WithConfig at 1. cbn [s_size].
  destruct (NV testSwarmCfg size) as [cc okc] eqn:E. destruct okc; [|eauto]. exfalso. apply H. split; [exact V|].
  pose proof (proj1 (C26_success_iff tr testSwarmCfg size)) as K. change (FNum tr) with NF in K. rewrite E in K. specialize (K eq_refl).
  change (sc_maxsize (@testSwarmCfg F NF)) with 100 in K. lia.
Qed.
(** REFUTED: "all randomization is disabled": the local goal 0 of the test configuration means "not set" and is
    replaced by a random one. *)
Theorem C78_random_goal_refuted : exists id d1 d2 a1 a2, @newTestAgent F NF id d1 = Some a1 /\ @newTestAgent F NF id d2 = Some a2 /\
  feq (sd_goal (ag_sd a1)) (sd_goal (ag_sd a2)) = false.
Proof.
  assert (X : forall b, exists a, @newTestAgent F NF "x" (mkDraws 0 0 0 0 b 0) = Some a /\ sd_goal (ag_sd a) = @WrapPhase F NF (@RandPhase F NF b)).
  { intros b. destruct (C78_test_agent "x" (fun _ => mkDraws 0 0 0 0 b 0) 0) as (a & A & _ & _ & _ & _ & _ & _ & _ & B). exists a. split; [exact A|exact B]. }
  destruct (X 0) as (a1 & A1 & B1). destruct (X (2 ^ 52)) as (a2 & A2 & B2).
  exists "x"%string, (mkDraws 0 0 0 0 0 0), (mkDraws 0 0 0 0 (2 ^ 52) 0), a1, a2. split; [exact A1|]. split; [exact A2|]. rewrite B1, B2. vm_compute. reflexivity.
Qed.
(** BenchmarkSwarm accepts exactly 1 to 1000000 agents and populates the swarm. *)
Theorem C78_benchmark : forall cpus size dr ro fl il,
  ((exists e, @BenchmarkSwarm F NF cpus size dr ro fl il = NewErr e) <-> ~ 1 <= size <= 1000000) /\
  (forall s, @BenchmarkSwarm F NF cpus size dr ro fl il = NewOK s -> populated s size).
Proof.
  intros cpus size dr ro fl il.
  assert (G : goal_valid (mkState (@n0 F NF) 100000000 (@nlit F NF 8 10))) by (split; [cbn; lia|split; [|split]; vm_compute; reflexivity]).
  destruct (Z_le_dec 1 size) as [S1|S1], (Z_le_dec size 1000000) as [S2|S2].
  2-4: (assert (E : exists e, @BenchmarkSwarm F NF cpus size dr ro fl il = NewErr e);
    [unfold BenchmarkSwarm, New; destruct (Z.leb_spec size 0); [eauto|]; rewrite (proj2 (vg _) G); cbn [negb];
     destruct (NV (Auto size) size) as [cfg ok] eqn:E; pose proof (proj2 (C26_autoscale_iff tr size)) as K; change (FNum tr) with NF in K; rewrite E in K; cbn [snd] in K;
     destruct ok; cbn [negb]; [exfalso; assert (1 <= size <= 1000000) by (now apply K); lia|eauto]|];
    split; [split; [intros _; lia|auto]|intros s H; destruct E as [e E]; congruence]).
  assert (SC : size_ok (@DefaultConfig F NF) size) by (split; [lia|]; change (sc_maxsize (@DefaultConfig F NF)) with 1000000; lia).
  set (s1 := set_cfg (fst (NV DefaultConfig size)) (bare tr cpus size (mkState (@n0 F NF) 100000000 (@nlit F NF 8 10)))).
  assert (NW : @BenchmarkSwarm F NF cpus size dr ro fl il = match created tr dr s1 with None => NewErr ECreate | Some s3 => if s_conn s3 then NewOK s3 else wire ro fl il s3 end)
    by (apply (new_with cpus size _ DefaultConfig [WithMonitor] s1); auto).
  assert (X : exists s3, created tr dr s1 = Some s3 /\ s_conn s3 = false /\ forall e, populated (set_net (s_conn s3) e s3) size).
  { unfold created. change (s_opt s1) with (100 <? size). destruct (100 <? size) eqn:L.
    - change (s_slice s1) with (@nil (option (Agent F))). rewrite create_optimized by reflexivity. eexists. split; [reflexivity|]. split; [reflexivity|]. intros e.
      apply (pop_size _ (Z.to_nat size)); [|lia]. apply (populated_opt _ (mkOpt s1 dr)); auto. intros i. apply opt_id.
    - change (s_map s1) with (@nil (string * Agent F)). rewrite create_default by reflexivity. eexists. split; [reflexivity|]. split; [reflexivity|]. intros e.
      apply (pop_size _ (Z.to_nat size)); [|lia]. apply (populated_std _ (mkStd s1 dr)); auto. intros i. apply std_some. }
  destruct X as (s3 & X1 & X2 & X3). rewrite NW, X1, X2. unfold wire. split.
  - split; [|intros H; lia]. intros [e H]. destruct (collectAgents ro s3); [|discriminate]. destruct (establishConnections _ _ _ _); discriminate.
  - intros s H. destruct (collectAgents ro s3); [|discriminate]. destruct (establishConnections _ _ _ _) as [e|]; [|discriminate]. injection H as <-. apply X3.
Qed.
End Swarms.

(** ** The doubles *)
(** The resource double grants all or nothing and keeps the books exactly (real arithmetic); it never goes below zero. *)
Theorem C78_mock_resources : forall e a, (0 <= e)%R -> (0 <= a)%R -> let (left, granted) := @mockRequest R RNum e a in
  (left + granted = e)%R /\ (0 <= left)%R /\ (granted = a \/ granted = 0%R) /\ (granted = a <-> (a <= e)%R \/ a = 0%R) /\ @mockRelease R RNum left granted = e.
Proof.
  intros e a He Ha. unfold mockRequest, mockRelease. cbn [nle nadd nsub RNum n0 nofZ]. destruct (Rle_bool_spec a e) as [L|L].
  - repeat split; auto; lra.
  - unfold n0. cbn [nofZ RNum]. repeat split; try lra; auto.
Qed.
(** REFUTED without the sign: a request for a negative amount creates energy. *)
Theorem C78_mock_negative_refuted : exists e a, let (left, granted) := @mockRequest R RNum e a in (e < left)%R.
Proof. exists 1%R, (-1)%R. unfold mockRequest. cbn [nle nsub RNum]. destruct (Rle_bool_spec (-1) 1); lra. Qed.
(** REFUTED: the goal double does not blend along the circle (C12): half way between phases just on both sides of 0
    it answers the opposite phase. *)
Theorem C78_mock_blend_refuted : forall eps f1 f2 c1 c2, st_phase (@mockBlend R RNum (mkState eps f1 c1) (mkState (2 * PI - eps)%R f2 c2) (1 / 2)%R) = PI.
Proof. intros. unfold mockBlend. cbn [st_phase nadd nmul nsub RNum n1 nofZ]. unfold n1. cbn [nofZ RNum]. lra. Qed.
(** What it does instead: weight 0 keeps the own values, weight 1 takes the others', and the mean lies between; the
    frequency is always the own one. *)
Theorem C78_mock_blend : forall (l g : State R) w, let b := @mockBlend R RNum l g w in
  st_freq b = st_freq l /\ (w = 0%R -> st_phase b = st_phase l /\ st_coh b = st_coh l) /\
  (w = 1%R -> st_phase b = st_phase g /\ st_coh b = st_coh g) /\
  ((0 <= w <= 1)%R -> (Rmin (st_phase l) (st_phase g) <= st_phase b <= Rmax (st_phase l) (st_phase g))%R /\
     (Rmin (st_coh l) (st_coh g) <= st_coh b <= Rmax (st_coh l) (st_coh g))%R).
Proof.
  intros l g w. cbv zeta. unfold mockBlend. cbn [st_phase st_freq st_coh nadd nmul nsub RNum]. unfold n1. cbn [nofZ RNum].
  split; [reflexivity|]. split; [intros ->; split; lra|]. split; [intros ->; split; lra|].
  intros H. unfold Rmin, Rmax. split; destruct (Rle_dec _ _); split; nra.
Qed.
(** The decision double takes the first offer with full confidence, and maintains when there is none; so an agent that uses
    it always follows its strategy. *)
Theorem C78_mock_decider : forall (options : list (Action R)), snd (mockDecide options) = 1%R /\
  (forall o rest, options = o :: rest -> fst (mockDecide options) = o) /\
  (options = [] -> ac_type (fst (mockDecide options)) = "maintain"%string /\ ac_cost (fst (mockDecide options)) = 0%R).
Proof.
  intros [|o r]; (split; [reflexivity|split; [|]]).
  - discriminate.
  - intros _. split; reflexivity.
  - intros o' r' E. now injection E.
  - discriminate.
Qed.
Theorem C78_mock_strategy : forall (cur tgt : State R), (st_phase cur + ac_value (fst (@mockPropose R RNum cur tgt)) = st_phase tgt)%R.
Proof. intros. unfold mockPropose. cbn [fst ac_value nsub RNum]. lra. Qed.

(** Instances: a fresh network of three agents; a valid goal and orders for TestSwarm. *)
Example C78_applies : NoDup ["a"; "b"; "c"]%string /\ fresh newNet /\ net_map newNet = [] /\ goal_valid okGoal /\ range_order (fun l : list string => rev l).
Proof.
  split; [repeat constructor; cbn; intuition discriminate|]. split; [intros a; reflexivity|]. split; [reflexivity|]. split; [apply C19_goal_valid|].
  intros l. apply Permutation_rev.
Qed.

Print Assumptions C78_full.
Print Assumptions C78_ring.
Print Assumptions C78_star.
Print Assumptions C78_too_few.
Print Assumptions C78_full_count.
Print Assumptions C78_unseen_refuted.
Print Assumptions C78_test_agent.
Print Assumptions C78_test_swarm.
Print Assumptions C78_test_swarm_error.
Print Assumptions C78_random_goal_refuted.
Print Assumptions C78_benchmark.
Print Assumptions C78_mock_resources.
Print Assumptions C78_mock_negative_refuted.
Print Assumptions C78_mock_blend_refuted.
Print Assumptions C78_mock_strategy.
Print Assumptions C78_mock_decider.
Print Assumptions C78_mock_blend.
