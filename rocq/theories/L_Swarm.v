(** Lemmas about the two storages of a swarm (any number type). *)
From Coq Require Import ZArith List Bool String Permutation Lia DecimalString.
From Coq Require DecimalNat.
From Verif Require Import Num GoBase M_Core M_Agent M_AgentConfig M_SwarmConfig M_Limits M_Conn M_Swarm S_Swarm.
Import ListNotations.
Open Scope Z_scope.

Lemma to_uint_nonnil i : Nat.to_uint i <> Decimal.Nil.
Proof.
  intros H. assert (E : Nat.to_uint i = Nat.to_uint 0 \/ i <> 0%nat) by (destruct i; auto).
  destruct E as [E|E]; [rewrite E in H; discriminate H|].
  pose proof (DecimalNat.Unsigned.of_to i) as Q. rewrite H in Q. cbn in Q. congruence.
Qed.
Lemma app_inj_prefix p a b : (p ++ a)%string = (p ++ b)%string -> a = b.
Proof. induction p as [|c p IH]; cbn; auto. intros H. injection H. auto. Qed.
Lemma agentID_inj i j : agentID i = agentID j -> i = j.
Proof.
  unfold agentID. intros H. apply app_inj_prefix in H.
  apply (f_equal NilZero.uint_of_string) in H. rewrite !NilZero.usu in H by apply to_uint_nonnil.
  injection H as H. now apply DecimalNat.Unsigned.to_uint_inj.
Qed.
Lemma ids_nodup n k : NoDup (map agentID (seq k n)).
Proof.
  apply FinFun.Injective_map_NoDup; [|apply seq_NoDup]. intros x y. apply agentID_inj.
Qed.

Section KV.
Context {A : Type}.
Lemma kvStore_fresh (m : list (string * A)) k v : ~ In k (map fst m) -> kvStore m k v = m ++ [(k, v)].
Proof.
  induction m as [|[k' v'] m IH]; cbn; auto. intros H.
  destruct (String.eqb_spec k' k) as [->|]; [exfalso; auto|]. rewrite IH; auto.
Qed.
Lemma kvLoad_none (m : list (string * A)) k : kvLoad m k = None <-> ~ In k (map fst m).
Proof.
  induction m as [|[k' v'] m IH]; cbn; [tauto|]. destruct (String.eqb_spec k' k) as [->|]; [|rewrite IH; tauto].
  split; [discriminate|]. intros H. exfalso. auto.
Qed.
Lemma kvLoad_some (m : list (string * A)) k v : NoDup (map fst m) -> kvLoad m k = Some v <-> In (k, v) m.
Proof.
  induction m as [|[k' v'] m IH]; cbn; [intuition discriminate|]. intros ND. inversion ND; subst.
  destruct (String.eqb_spec k' k) as [->|Q].
  - split; [intros E; injection E as ->; auto|]. intros [E|E]; [congruence|].
    exfalso. apply H1. change k with (fst (k, v)). now apply in_map.
  - rewrite IH by auto. split; auto. intros [E|E]; [congruence|auto].
Qed.
End KV.

Section Store.
Context {T : Type} {N : Num T}.

Definition mkStd (s : Swarm T) (dr : nat -> Draws) (i : nat) : Agent T :=
  match NewFromConfig (agentID i) (dr i) (agentConfig s) with
  | Some a => a | None => NewOptimizedFromConfig (agentID i) (dr i) (agentConfig s) end.
Definition mkOpt (s : Swarm T) (dr : nat -> Draws) (i : nat) : Agent T :=
  NewOptimizedFromConfig (agentID i) (dr i) (agentConfig s).

Definition idk (f : Agent T -> Agent T) : Prop := forall a, ag_id (f a) = ag_id a.
Lemma fold_idk opts a : Forall idk opts -> ag_id (fold_left (fun a f => f a) opts a) = ag_id a.
Proof. revert a. induction opts as [|f o IH]; cbn; auto. intros a H. inversion H; subst. rewrite IH by auto. apply H2. Qed.
Lemma new_id id b1 b2 b3 opts : Forall idk opts -> ag_id (NewAgent id b1 b2 b3 opts) = id.
Proof. intros H. unfold NewAgent. cbn [set_ctx ag_id]. now rewrite fold_idk. Qed.

Ltac idk_all := repeat first [apply Forall_app; split | apply Forall_cons | apply Forall_nil]; try (intros ?; reflexivity).
Lemma std_some s dr i : NewFromConfig (agentID i) (dr i) (agentConfig s) = Some (mkStd s dr i) /\
  ag_id (mkStd s dr i) = agentID i.
Proof.
  unfold mkStd. destruct (NewFromConfig _ _ _) as [a|] eqn:E; [|discriminate E]. split; auto.
  unfold NewFromConfig in E. cbn [createDecisionMaker createGoalManager] in E.
  change (createDecisionMaker (agentConfig s)) with true in E. change (createGoalManager (agentConfig s)) with true in E.
  cbn [negb] in E. destruct (createResourceManager (agentConfig s)); [|discriminate E].
  destruct (createStrategy (agentConfig s)); [|discriminate E]. injection E as <-. apply new_id.
  unfold createPhaseOptions, createGoalOptions, createFrequencyOptions, createParameterOptions.
  cbn [agentConfig ac_rphase ac_rgoal ac_rfreq AgentFromSwarm]. idk_all.
  destruct (0 <? _); idk_all.
Qed.
Lemma opt_id s dr i : ag_id (mkOpt s dr i) = agentID i.
Proof.
  unfold mkOpt, NewOptimizedFromConfig. cbv zeta. apply new_id.
  cbn [agentConfig ac_rphase ac_rgoal ac_rfreq AgentFromSwarm]. idk_all;
  repeat match goal with |- context [if ?b then _ else _] => destruct b end; idk_all.
Qed.

Definition listing (f : nat -> Agent T) (n : nat) : list (string * Agent T) := map (fun i => (agentID i, f i)) (seq 0 n).

Lemma keys_map {B} (f : nat -> B) l : map fst (map (fun i => (agentID i, f i)) l) = map agentID l.
Proof. now rewrite map_map. Qed.

Lemma create_loop s dr is m : NoDup (map fst m ++ map agentID is) ->
  createLoop (agentConfig s) dr is m = Some (m ++ map (fun i => (agentID i, mkStd s dr i)) is).
Proof.
  revert m. induction is as [|i is IH]; cbn [createLoop map]; intros m ND; [now rewrite app_nil_r|].
  destruct (std_some s dr i) as [-> E]. rewrite E. rewrite kvStore_fresh.
  - rewrite IH; [now rewrite <- app_assoc|]. rewrite map_app. cbn [map fst]. now rewrite <- app_assoc.
  - apply NoDup_remove_2 in ND. intros H. apply ND, in_or_app. auto.
Qed.
Lemma create_default dr s : s_map s = [] ->
  createDefaultAgents dr s = Some (set_map (listing (mkStd s dr) (Z.to_nat (s_size s))) s).
Proof.
  intros E. unfold createDefaultAgents. rewrite E, create_loop; auto. apply ids_nodup.
Qed.

Lemma setnth_app {A} (a : list A) x r v : setnth (a ++ x :: r) (List.length a) v = Some (a ++ v :: r).
Proof. induction a as [|y a IH]; cbn; auto. now rewrite IH. Qed.

Definition part (s : Swarm T) dr (k n : nat) : list (option (Agent T)) :=
  map (fun i => Some (mkOpt s dr i)) (seq 0 k) ++ repeat None (n - k).
Definition idx (k : nat) : list (string * Z) := map (fun i => (agentID i, Z.of_nat i)) (seq 0 k).

Lemma opt_inner s dr n m i : (i + m <= n)%nat ->
  optInner (agentConfig s) dr (seq i m) (part s dr i n) (idx i) = Some (part s dr (i + m) n, idx (i + m)).
Proof.
  revert i. induction m as [|m IH]; intros i H; cbn [seq optInner]; [now rewrite Nat.add_0_r|].
  unfold setZ. rewrite (proj2 (Z.ltb_ge _ _)) by lia. rewrite Nat2Z.id.
  replace (n - i)%nat with (S (n - S i)) by lia.
  replace (setnth (part s dr i n) i _) with (Some (part s dr (S i) n)).
  - rewrite kvStore_fresh.
    + replace (idx i ++ [(agentID i, Z.of_nat i)]) with (idx (S i)) by (unfold idx; now rewrite seq_S, map_app).
      rewrite IH by lia. now replace (S i + m)%nat with (i + S m)%nat by lia.
    + unfold idx. rewrite keys_map. rewrite in_map_iff. intros (j & E & J). apply agentID_inj in E. subst.
      apply in_seq in J. lia.
  - pose proof (setnth_app (map (fun i => Some (mkOpt s dr i)) (seq 0 i)) None (repeat None (n - S i)) (Some (mkOpt s dr i))) as Q.
    rewrite map_length, seq_length in Q. unfold part at 2. replace (n - i)%nat with (S (n - S i)) by lia. cbn [repeat].
    etransitivity; [|symmetry; exact Q].
    f_equal. unfold part. rewrite seq_S, map_app. cbn [map]. now rewrite <- app_assoc.
Qed.
Lemma opt_outer s dr n fuel i : (n <= i + fuel)%nat ->
  optOuter fuel (agentConfig s) dr n i (part s dr (Nat.min i n) n) (idx (Nat.min i n)) = Some (part s dr n n, idx n).
Proof.
  revert i. induction fuel as [|f IH]; intros i H; cbn [optOuter].
  - now replace (Nat.min i n) with n by lia.
  - destruct (Nat.ltb_spec i n); [|now replace (Nat.min i n) with n by lia].
    replace (Nat.min i n) with i by lia.
    rewrite opt_inner by lia. replace (i + (Nat.min (i + 100) n - i))%nat with (Nat.min (i + 100) n) by lia.
    apply IH. lia.
Qed.
Lemma create_optimized dr s : s_index s = [] ->
  createOptimizedAgents dr s =
  Some (set_slice (map (fun i => Some (mkOpt s dr i)) (seq 0 (Z.to_nat (s_size s)))) (idx (Z.to_nat (s_size s))) s).
Proof.
  intros E. unfold createOptimizedAgents. rewrite E.
  pose proof (opt_outer s dr (Z.to_nat (s_size s)) (Z.to_nat (s_size s)) 0 ltac:(lia)) as H.
  rewrite Nat.min_0_l in H. unfold part in H at 1. cbn [seq map app] in H. rewrite Nat.sub_0_r in H.
  change (idx 0) with (@nil (string * Z)) in H. rewrite H. unfold part. rewrite Nat.sub_diag. cbn [repeat].
  now rewrite app_nil_r.
Qed.

Lemma slice_map (f : nat -> Agent T) l m : NoDup (map fst m ++ map agentID l) -> (forall i, ag_id (f i) = agentID i) ->
  sliceMap (map (fun i => Some (f i)) l) m = Some (m ++ map (fun i => (agentID i, f i)) l).
Proof.
  intros ND HF. revert m ND. induction l as [|i l IH]; cbn [sliceMap map]; intros m ND; [now rewrite app_nil_r|].
  rewrite HF, kvStore_fresh.
  - rewrite IH; [now rewrite <- app_assoc|]. rewrite map_app. cbn [map fst]. now rewrite <- app_assoc.
  - apply NoDup_remove_2 in ND. intros H. apply ND, in_or_app. auto.
Qed.
Lemma slice_agents (f : nat -> Agent T) l : sliceAgents (map (fun i => Some (f i)) l) = Some (map f l).
Proof. induction l as [|i l IH]; cbn [sliceAgents map]; auto. now rewrite IH. Qed.

Lemma listing_facts (f : nat -> Agent T) n : (forall i, ag_id (f i) = agentID i) ->
  List.length (listing f n) = n /\ NoDup (map fst (listing f n)) /\
  (forall id a, In (id, a) (listing f n) -> ag_id a = id) /\
  (forall id a, In (id, a) (listing f n) <-> exists i, (i < n)%nat /\ id = agentID i /\ a = f i).
Proof.
  intros HF. unfold listing. split; [now rewrite map_length, seq_length|]. split; [rewrite keys_map; apply ids_nodup|].
  assert (I : forall id a, In (id, a) (map (fun i => (agentID i, f i)) (seq 0 n)) <-> exists i, (i < n)%nat /\ id = agentID i /\ a = f i).
  { intros id a. rewrite in_map_iff. split.
    - intros (i & E & J). apply in_seq in J. exists i. injection E as <- <-. repeat split; auto. lia.
    - intros (i & L & -> & ->). exists i. split; auto. apply in_seq. lia. }
  split; auto. intros id a H. apply I in H. destruct H as (i & _ & -> & ->). apply HF.
Qed.

Lemma populated_std (s : Swarm T) f n : s_opt s = false -> s_map s = listing f n -> (forall i, ag_id (f i) = agentID i) ->
  populated s (Z.of_nat n).
Proof.
  intros O M HF. destruct (listing_facts f n HF) as (A & B & C & D). exists (listing f n).
  unfold Agents, AgentByID. rewrite O, M, A. split; [|split; [|split; [|split; [|split]]]]; auto.
  - intros id a. rewrite <- (kvLoad_some (listing f n) id a B). split; [intros H; now injection H|now intros ->].
  - intros id. rewrite <- kvLoad_none. split; [intros H; now injection H|now intros ->].
Qed.
Lemma nth_seq_map {B} (f : nat -> B) n i : (i < n)%nat -> nth_error (map f (seq 0 n)) i = Some (f i).
Proof.
  intros H. rewrite nth_error_map. rewrite (nth_error_nth' _ 0%nat) by (now rewrite seq_length).
  rewrite seq_nth by auto. reflexivity.
Qed.
Lemma populated_opt (s : Swarm T) f n : s_opt s = true -> s_slice s = map (fun i => Some (f i)) (seq 0 n) -> s_index s = idx n ->
  (forall i, ag_id (f i) = agentID i) -> populated s (Z.of_nat n).
Proof.
  intros O M X HF. destruct (listing_facts f n HF) as (A & B & C & D). exists (listing f n).
  unfold Agents, AgentByID. rewrite O, M, X, slice_map; auto; [|apply ids_nodup].
  cbn [app]. rewrite A. fold (listing f n). split; [|split; [|split; [|split; [|split]]]]; auto.
  - assert (ND : NoDup (map fst (idx n))) by (unfold idx; rewrite keys_map; apply ids_nodup).
    assert (I : forall id z, In (id, z) (idx n) <-> exists i, (i < n)%nat /\ id = agentID i /\ z = Z.of_nat i).
    { intros id z. unfold idx. rewrite in_map_iff. split.
      - intros (i & E & J). apply in_seq in J. exists i. injection E as <- <-. repeat split; auto. lia.
      - intros (i & L & -> & ->). exists i. split; auto. apply in_seq. lia. }
    intros id a. rewrite D. split.
    + destruct (kvLoad (idx n) id) as [z|] eqn:E; [|discriminate].
      apply kvLoad_some in E; auto. apply I in E. destruct E as (i & L & -> & ->).
      unfold nthZ. rewrite (proj2 (Z.ltb_ge _ _)) by lia. rewrite Nat2Z.id, nth_seq_map by auto.
      intros H. injection H as <-. eauto.
    + intros (i & L & -> & ->).
      assert (E : kvLoad (idx n) (agentID i) = Some (Z.of_nat i)) by (apply kvLoad_some; auto; apply I; eauto).
      rewrite E. unfold nthZ. rewrite (proj2 (Z.ltb_ge _ _)) by lia. now rewrite Nat2Z.id, nth_seq_map by auto.
  - intros id. unfold listing. rewrite keys_map.
    replace (map agentID (seq 0 n)) with (map fst (idx n)) by (unfold idx; now rewrite keys_map).
    rewrite <- kvLoad_none. destruct (kvLoad (idx n) id) as [z|] eqn:E; [|tauto].
    split; [|discriminate]. destruct (nthZ _ z) as [[a|]|]; discriminate.
Qed.
End Store.
