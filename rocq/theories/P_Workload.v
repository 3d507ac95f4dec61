(** Property theorems C48 (workload bookkeeping) and C54 (activity display). *)
From Coq Require Import ZArith Reals Psatz Bool String List Ascii Lia DecimalString Permutation.
From Coq Require DecimalZ DecimalNat.
From Flocq Require Import Core.Core IEEE754.BinarySingleNaN.
From Verif Require Import Num F64 RealNum M_GoalConfig M_ReqPattern M_Swarm M_Workload L_Swarm.
Import ListNotations.
Open Scope string_scope.
Open Scope Z_scope.

(** Task IDs are injective in the number, and across the agents of a swarm. *)
Lemma dec_inj m n : dec m = dec n -> m = n.
Proof.
  assert (NN : forall z, Z.to_int z <> Decimal.Pos Decimal.Nil /\ Z.to_int z <> Decimal.Neg Decimal.Nil).
  { intros z. split; intros H; pose proof (DecimalZ.of_to z) as Q; rewrite H in Q; cbn in Q; subst z; discriminate H. }
  unfold dec. intros H. apply (f_equal NilZero.int_of_string) in H. rewrite !NilZero.isi in H by apply NN. injection H as H.
  now apply DecimalZ.to_int_inj.
Qed.
Lemma taskID_inj id m n : taskID id m = taskID id n -> m = n.
Proof. unfold taskID. intros H. apply app_inj_prefix in H. apply app_inj_prefix in H. now apply dec_inj. Qed.

Fixpoint nodash (s : string) : Prop := match s with EmptyString => True | String c r => c <> "-"%char /\ nodash r end.
Lemma uint_nodash u : nodash (NilZero.string_of_uint u).
Proof.
  assert (E : forall u, nodash (NilEmpty.string_of_uint u)) by (induction u0; cbn; auto; split; auto; discriminate).
  destruct u; cbn; auto; try (split; [discriminate|apply E]). split; [discriminate|exact I].
Qed.
Lemma dash_split a b x y : nodash a -> nodash b -> a ++ String "-" x = b ++ String "-" y -> a = b /\ x = y.
Proof.
  revert b. induction a as [|c a IH]; intros [|d b] Ha Hb; cbn; intros E.
  - injection E as ->. auto.
  - injection E as <- _. destruct Hb. congruence.
  - injection E as -> _. destruct Ha. congruence.
  - injection E as -> E. destruct Ha, Hb. destruct (IH b) as [-> ->]; auto.
Qed.
Lemma string_app_assoc (a b c : string) : (a ++ b) ++ c = a ++ (b ++ c).
Proof. induction a as [|x a IH]; cbn; congruence. Qed.
Theorem C48_ids_across_agents : forall i j m n, taskID (agentID i) m = taskID (agentID j) n -> i = j /\ m = n.
Proof.
  intros i j m n H. unfold taskID, agentID in H. rewrite !string_app_assoc in H. apply app_inj_prefix in H.
  change ("-task-" ++ dec m) with (String "-" ("task-" ++ dec m)) in H. change ("-task-" ++ dec n) with (String "-" ("task-" ++ dec n)) in H.
  apply dash_split in H; try apply uint_nodash. destruct H as [H1 H2].
  split; [apply agentID_inj; unfold agentID; now rewrite H1|]. apply app_inj_prefix in H2. now apply dec_inj.
Qed.

(** Every name a workload can have is in the table of task types, the names of a goal are distinct, and each has three. *)
Theorem C48_types : forall g, NoDup (getWorkloadsForGoal g) /\ List.length (getWorkloadsForGoal g) = 8%nat /\
  forall name, In name (getWorkloadsForGoal g) -> In name (map fst taskTypes) /\ List.length (typesOf name) = 3%nat /\ NoDup (typesOf name).
Proof.
  assert (ND : forall l : list string, (fix f (l : list string) : bool := match l with [] => true | x :: r => negb (existsb (String.eqb x) r) && f r end) l = true -> NoDup l).
  { induction l as [|x l IH]; intros H; [constructor|]. apply andb_true_iff in H. destruct H as [H1 H2]. constructor; auto.
    intros HI. apply negb_true_iff in H1. assert (existsb (String.eqb x) l = true) by (apply existsb_exists; exists x; split; auto; apply String.eqb_refl). congruence. }
  intros g. split; [apply ND; destruct g; vm_compute; reflexivity|]. split; [now destruct g|].
  assert (T : forall g, forallb (fun n => existsb (String.eqb n) (map fst taskTypes) && (List.length (typesOf n) =? 3)%nat &&
     (fix f (l : list string) : bool := match l with [] => true | x :: r => negb (existsb (String.eqb x) r) && f r end) (typesOf n))%bool (getWorkloadsForGoal g) = true) by (intros []; vm_compute; reflexivity).
  intros name H. specialize (T g). rewrite forallb_forall in T. specialize (T name H). apply andb_true_iff in T. destruct T as [T T3]. apply andb_true_iff in T. destruct T as [T1 T2].
  split; [|split; [now apply Nat.eqb_eq|now apply ND]]. apply existsb_exists in T1. destruct T1 as (x & I1 & E). apply String.eqb_eq in E. now subst.
Qed.

Open Scope list_scope.
Section Run.
Context {T : Type} {N : Num T}.
Definition handList (w : Workload) : list Task := match w_hand w with Some t => [t] | None => [] end.

Lemma types_nonempty n : typesOf n <> [].
Proof.
  unfold typesOf. assert (G : forall m, Forall (fun p => snd p <> []) m -> lookupTypes m n <> []).
  { induction m as [|[k v] m IH]; cbn; intros F; [discriminate|]. inversion F. subst. destruct (String.eqb k n); auto. }
  apply G. unfold taskTypes. repeat constructor; discriminate.
Qed.
Lemma create_some w : 0 <= w_counter w -> exists t, createTask w = Some t /\ t_id t = taskID (w_id w) (w_counter w + 1) /\ t_agent t = w_id w /\ In (t_type t) (typesOf (w_name w)).
Proof.
  intros H. unfold createTask. cbv zeta. pose proof (types_nonempty (w_name w)) as NE. set (ts := typesOf (w_name w)) in *.
  assert (L : 0 < Z.of_nat (List.length ts)) by (destruct ts; [congruence|cbn; lia]).
  pose proof (Z.rem_bound_pos (w_counter w + 1) (Z.of_nat (List.length ts)) ltac:(lia) L) as B.
  destruct (Z.ltb_spec (Z.rem (w_counter w + 1) (Z.of_nat (List.length ts))) 0); [lia|].
  destruct (nth_error ts (Z.to_nat (Z.rem (w_counter w + 1) (Z.of_nat (List.length ts))))) as [ty|] eqn:E.
  - eexists. split; [reflexivity|]. split; [reflexivity|]. split; [reflexivity|]. cbn. eapply nth_error_In; eauto.
  - apply nth_error_None in E. lia.
Qed.

(** Construction and every history of a workload are free of panics. *)
Theorem C48_no_panic : forall id i p g (es : list (WEv T)), 0 <= i ->
  exists w0 w, NewWorkloadWithEmerge id i p g = Some w0 /\ wRun w0 es = Some w /\ In (w_name w) (getWorkloadsForGoal g) /\ w_id w = id.
Proof.
  intros id i p g es Hi. unfold NewWorkloadWithEmerge. cbv zeta.
  assert (L : List.length (getWorkloadsForGoal g) = 8%nat) by (now destruct g). rewrite L.
  pose proof (Z.rem_bound_pos i 8 ltac:(lia) ltac:(lia)) as B. change (Z.of_nat 8) with 8.
  destruct (Z.ltb_spec (Z.rem i 8) 0); [lia|]. destruct (nth_error (getWorkloadsForGoal g) (Z.to_nat (Z.rem i 8))) as [n|] eqn:E; [|apply nth_error_None in E; lia].
  eexists. assert (G : forall es w0, 0 <= w_counter w0 -> exists w, wRun w0 es = Some w /\ w_name w = w_name w0 /\ w_id w = w_id w0).
  { clear. induction es as [|e es IH]; intros w H; cbn [wRun]; [exists w; auto|]. destruct e; cbn [wStep].
    - destruct (w_hand w); [now apply IH|]. destruct (create_some w H) as (t & -> & _). destruct (IH (mkWL (w_id w) (w_name w) (w_pattern w) (w_pending w) (w_counter w + 1) (w_generated w) (w_sent w) (w_burst w) (w_burstEnd w) (Some t) (w_created w ++ [t]) (w_handed w) (w_lost w)) ltac:(cbn; lia)) as (w' & A & B & C). exists w'. auto.
    - destruct (w_hand w); [|now apply IH]. match goal with |- context [wRun ?x es] => destruct (IH x H) as (w' & A & B & C) end. exists w'. auto.
    - destruct (shouldBatch w phase); [|now apply IH]. unfold sendBatch. destruct (w_pending w) eqn:P; [now apply IH|]. match goal with |- context [wRun ?x es] => destruct (IH x H) as (w' & A & B & C) end. exists w'. auto.
    - unfold sendBatch. destruct (w_pending w) eqn:P; [now apply IH|]. match goal with |- context [wRun ?x es] => destruct (IH x H) as (w' & A & B & C) end. exists w'. auto.
    - match goal with |- context [wRun ?x es] => destruct (IH x ltac:(cbn; lia)) as (w' & A & B & C) end. exists w'. auto. }
  destruct (G es (mkWL id n p [] 0 0 0 false 0 None [] [] []) ltac:(cbn; lia)) as (w & A & B2 & C). exists w. split; [reflexivity|]. split; [exact A|]. rewrite B2, C. split; [|reflexivity]. cbn. eapply nth_error_In; eauto.
Qed.

Definition fresh (id name : string) (p : Z) : Workload := mkWL id name p [] 0 0 0 false 0 None [] [] [].
Lemma fresh_is id i p g w0 : NewWorkloadWithEmerge id i p g = Some w0 -> exists n, w0 = fresh id n p.
Proof. unfold NewWorkloadWithEmerge. cbv zeta. destruct (_ <? 0); [discriminate|]. destruct (nth_error _ _) as [n|]; [|discriminate]. intros E. injection E as <-. now exists n. Qed.

Lemma send_cases w : (w_pending w = [] /\ sendBatch w = w) \/ (w_pending w <> [] /\ sendBatch w = mkWL (w_id w) (w_name w) (w_pattern w) [] (w_counter w) (w_generated w) (w_sent w + 1) (w_burst w) (w_burstEnd w)
           (w_hand w) (w_created w) (w_handed w ++ [w_pending w]) (w_lost w)).
Proof. unfold sendBatch. destruct (w_pending w) eqn:E; [left; auto|right; split; [discriminate|reflexivity]]. Qed.
(** Induction over a run, for a property preserved by each kind of step. *)
Lemma run_ind (P : Workload -> Prop) (ok : WEv T -> Prop) : 
  (forall w e w', ok e -> P w -> wStep w e = Some w' -> P w') -> forall es w w', Forall ok es -> P w -> wRun w es = Some w' -> P w'.
Proof.
  intros S. induction es as [|e es IH]; intros w w' F H E; cbn [wRun] in E; [injection E as <-; auto|]. inversion F. subst.
  destruct (wStep w e) as [w1|] eqn:E1; [|discriminate]. apply (IH w1 w'); [assumption| |assumption]. apply (S w e w1); assumption.
Qed.

(** Every task created is exactly once in: handed over, cleared by a reset, pending, or about to be appended. *)
Theorem C48_bookkeeping : forall id i p g (es : list (WEv T)) w0 w, NewWorkloadWithEmerge id i p g = Some w0 -> wRun w0 es = Some w ->
  Permutation (w_created w) (concat (w_handed w) ++ w_lost w ++ w_pending w ++ handList w) /\
  Forall (fun b => b <> []) (w_handed w).
Proof.
  intros id i p g es w0 w E R. apply fresh_is in E. destruct E as [n ->].
  apply (run_ind (fun w => Permutation (w_created w) (concat (w_handed w) ++ w_lost w ++ w_pending w ++ handList w) /\ Forall (fun b => b <> []) (w_handed w)) (fun _ => True)) with (es := es) (w := fresh id n p); auto; [|now apply Forall_forall|split; constructor].
  clear. intros w e w' _ [H F] S.
  assert (SB : Permutation (w_created (sendBatch w)) (concat (w_handed (sendBatch w)) ++ w_lost (sendBatch w) ++ w_pending (sendBatch w) ++ handList (sendBatch w)) /\ Forall (fun b => b <> []) (w_handed (sendBatch w))).
  { destruct (send_cases w) as [[P E]|[P E]]; rewrite E; [auto|]. cbn [w_created w_handed w_lost w_pending handList w_hand]. split; [|apply Forall_app; auto].
    rewrite concat_app. cbn [concat app]. rewrite app_nil_r. eapply Permutation_trans; [exact H|]. change (handList (mkWL _ _ _ _ _ _ _ _ _ (w_hand w) _ _ _)) with (handList w). rewrite <- !app_assoc. apply Permutation_app_head. rewrite !app_assoc. apply Permutation_app_tail. apply Permutation_app_comm. }
  destruct e; cbn [wStep] in S.
  - destruct (w_hand w) eqn:Hd; [injection S as <-; auto|]. destruct (createTask w) as [t|]; [|discriminate]. injection S as <-. cbn [w_created w_handed w_lost w_pending w_hand]. split; auto.
    unfold handList in *. rewrite Hd in H. cbn [w_hand]. eapply Permutation_trans; [first [exact H | apply Permutation_app_tail; exact H]|]. rewrite ?app_nil_r, <- ?app_assoc. reflexivity.
  - destruct (w_hand w) as [t|] eqn:Hd; [|injection S as <-; auto]. injection S as <-. cbn [w_created w_handed w_lost w_pending w_hand]. split; auto.
    unfold handList in *. rewrite Hd in H. cbn [w_hand]. eapply Permutation_trans; [first [exact H | apply Permutation_app_tail; exact H]|]. rewrite ?app_nil_r, <- ?app_assoc. reflexivity.
  - injection S as <-. destruct (shouldBatch w phase); auto.
  - injection S as <-. exact SB.
  - injection S as <-. unfold ResetWorkload. cbn [w_created w_handed w_lost w_pending w_hand]. split; auto. eapply Permutation_trans; [exact H|]. cbn [app]. rewrite <- !app_assoc. reflexivity.
Qed.

(** Without a reset: handed over and pending together are the created tasks in order of creation, numbered 1, 2, …,
    with pairwise different IDs; and the counters agree. *)
Definition no_reset (e : WEv T) : Prop := e <> ResetW.
Theorem C48_no_reset : forall id i p g (es : list (WEv T)) w0 w, NewWorkloadWithEmerge id i p g = Some w0 -> Forall no_reset es -> wRun w0 es = Some w ->
  w_created w = (concat (w_handed w) ++ w_pending w ++ handList w)%list /\
  map t_id (w_created w) = map (fun k => taskID id (Z.of_nat k)) (seq 1 (List.length (w_created w))) /\ NoDup (map t_id (w_created w)) /\
  w_counter w = Z.of_nat (List.length (w_created w)) /\ w_sent w = Z.of_nat (List.length (w_handed w)) /\
  w_generated w = Z.of_nat (List.length (concat (w_handed w) ++ w_pending w)) /\ w_lost w = [].
Proof.
  intros id i p g es w0 w E NR R. apply fresh_is in E. destruct E as [n ->].
  set (P := fun w => w_id w = id /\ w_created w = (concat (w_handed w) ++ w_pending w ++ handList w)%list /\
     map t_id (w_created w) = map (fun k => taskID id (Z.of_nat k)) (seq 1 (List.length (w_created w))) /\
     w_counter w = Z.of_nat (List.length (w_created w)) /\ w_sent w = Z.of_nat (List.length (w_handed w)) /\
     w_generated w = Z.of_nat (List.length (concat (w_handed w) ++ w_pending w)) /\ w_lost w = []).
  assert (PW : P w).
  { apply (run_ind P no_reset) with (es := es) (w := fresh id n p); auto; [|unfold P; cbn; repeat split].
    clear. intros w e w' NR H S.
    assert (SB : P (sendBatch w)).
    { destruct (send_cases w) as [[_ E]|[_ E]]; rewrite E; [exact H|]. destruct H as (H0 & H1 & H2 & H3 & H4 & H5 & H6). unfold P. cbn [w_id w_created w_handed w_pending w_hand w_counter w_sent w_generated w_lost].
      change (handList (mkWL _ _ _ _ _ _ _ _ _ (w_hand w) _ _ _)) with (handList w). rewrite concat_app, !app_length. cbn [concat app]. rewrite app_nil_r. split; [exact H0|]. split; [rewrite H1 at 1; now rewrite <- app_assoc|]. split; [exact H2|]. split; [exact H3|]. split; [rewrite H4; cbn; lia|]. split; [|exact H6]. rewrite H5, !app_length. cbn. lia. }
    destruct e; cbn [wStep] in S.
    - destruct (w_hand w) eqn:Hd; [injection S as <-; auto|]. destruct H as (H0 & H1 & H2 & H3 & H4 & H5 & H6).
      destruct (create_some w ltac:(lia)) as (t & E1 & E2 & _). rewrite E1 in S. injection S as <-. unfold P. cbn [w_id w_created w_handed w_pending w_hand w_counter w_sent w_generated w_lost].
      unfold handList in *. rewrite Hd in H1. cbn [w_hand]. rewrite app_nil_r in H1. split; [exact H0|]. split; [rewrite H1, <- app_assoc; reflexivity|].
      rewrite app_length. cbn [List.length]. split; [|split; [rewrite H3; lia|auto]]. rewrite map_app, H2. replace (List.length (w_created w) + 1)%nat with (S (List.length (w_created w))) by lia. rewrite seq_S, map_app. f_equal. cbn [map].
      rewrite E2, H0, H3. do 3 f_equal. lia.
    - destruct (w_hand w) as [t|] eqn:Hd; [|injection S as <-; auto]. injection S as <-. destruct H as (H0 & H1 & H2 & H3 & H4 & H5 & H6). unfold P. cbn [w_id w_created w_handed w_pending w_hand w_counter w_sent w_generated w_lost].
      unfold handList in *. rewrite Hd in H1. cbn [w_hand]. split; [exact H0|]. split; [rewrite H1, app_nil_r; reflexivity|]. split; [exact H2|]. split; [exact H3|]. split; [exact H4|]. split; [|exact H6]. rewrite H5, !app_length. cbn [List.length]. lia.
    - injection S as <-. destruct (shouldBatch w phase); auto.
    - injection S as <-. exact SB.
    - exfalso. now apply NR. }
  destruct PW as (_ & H1 & H2 & H3 & H4 & H5 & H6). split; [exact H1|]. split; [exact H2|]. split; [|auto]. rewrite H2. apply FinFun.Injective_map_NoDup; [|apply seq_NoDup].
  intros a b H. apply taskID_inj in H. lia.
Qed.
End Run.

Definition the (o : option Workload) : Workload := match o with Some w => w | None => fresh "" "" 0 end.
Definition demo (p : Z) (g : Goal) : Workload := the (NewWorkloadWithEmerge "agent-0" 0 p g).
(** With a reset both claims fail: pending tasks are dropped, and IDs are used again. *)
Theorem C48_reset_loses_refuted : exists (es : list (WEv R)) w0 w, NewWorkloadWithEmerge "agent-0" 0 Steady MinimizeAPICalls = Some w0 /\ wRun w0 es = Some w /\
  List.length (w_created w) = 1%nat /\ w_handed w = [] /\ w_pending w = [] /\ handList w = [].
Proof.
  set (es := [Create; Append; ResetW] : list (WEv R)). exists es, (demo Steady MinimizeAPICalls), (the (wRun (demo Steady MinimizeAPICalls) es)). subst es.
  split; [vm_compute; reflexivity|]. split; [vm_compute; reflexivity|]. split; [vm_compute; reflexivity|]. split; [vm_compute; reflexivity|]. split; vm_compute; reflexivity.
Qed.
Theorem C48_reset_id_refuted : exists (es : list (WEv R)) w0 w t u, NewWorkloadWithEmerge "agent-0" 0 Steady MinimizeAPICalls = Some w0 /\ wRun w0 es = Some w /\
  w_handed w = [[t]; [u]] /\ t_id t = t_id u.
Proof.
  set (es := [Create; Append; Send; ResetW; Create; Append; Send] : list (WEv R)). set (w := the (wRun (demo Steady MinimizeAPICalls) es)).
  set (t := hd (mkTask "" "" "") (concat (w_handed w))). exists es, (demo Steady MinimizeAPICalls), w, t, t. subst t w es.
  split; [vm_compute; reflexivity|]. split; [vm_compute; reflexivity|]. split; [vm_compute; reflexivity|reflexivity].
Qed.

(** A poll sends exactly when tasks are pending and the phase is within 0.1 of a full turn. *)
Theorem C48_poll : forall w (phase : R), (0 <= phase < 2 * PI)%R ->
  (shouldBatch w phase = true <-> w_pending w <> [] /\ exists k : Z, (Rabs (phase - IZR k * (2 * PI)) < 1 / 10)%R).
Proof.
  intros w phase H. unfold shouldBatch. destruct (w_pending w) as [|t l]; [split; [discriminate|intros [A _]; congruence]|].
  cbn [nlt nsub nlit RNum]. assert (P2 : @n2pi R RNum = (2 * PI)%R) by (unfold n2pi; cbn; lra). rewrite P2. pose proof PI_RGT_0 as PP. pose proof PI2_3_2 as P3. unfold PI2 in P3.
  split.
  - intros E. split; [discriminate|]. apply orb_true_iff in E. destruct E as [E|E].
    + exists 0%Z. revert E. destruct (Rlt_bool_spec phase (1 / 10)); [|discriminate]. intros _. apply Rabs_def1; lra.
    + exists 1%Z. revert E. destruct (Rlt_bool_spec (2 * PI - 1 / 10) phase); [|discriminate]. intros _. apply Rabs_def1; lra.
  - intros [_ [k K]]. apply Rabs_def2 in K. apply orb_true_iff.
    assert (KB : (k = 0 \/ k = 1)%Z).
    { assert (-1 < k)%Z. { apply lt_IZR. apply Rmult_lt_reg_r with (2 * PI)%R; [lra|]. replace (IZR (-1)) with (-1)%R by reflexivity. lra. }
      assert (k < 2)%Z. { apply lt_IZR. apply Rmult_lt_reg_r with (2 * PI)%R; [lra|]. lra. } lia. }
    destruct KB as [-> | ->]; [left; apply Rlt_bool_true; lra|right; apply Rlt_bool_true; lra].
Qed.

(** Random integers are in range, and each pattern generates the documented number of tasks at the documented rate. *)
Theorem C48_random : forall n word, match word with Some w => 0 <= w | None => True end ->
  (0 < n -> 0 <= secureRandIntn n word < n) /\ (n <= 0 -> secureRandIntn n word = 0).
Proof.
  intros n word HW. unfold secureRandIntn. destruct (Z.leb_spec n 0); [split; [lia|reflexivity]|]. split; [|lia]. intros _. destruct word as [w|].
  - destruct (Z.ltb_spec 2147483647 n).
    + pose proof (Z.mod_pos_bound w 2147483647 ltac:(lia)). destruct (Z.ltb_spec 2147483647 (w mod 2147483647)); lia.
    + pose proof (Z.mod_pos_bound w n ltac:(lia)). destruct (Z.ltb_spec 2147483647 (w mod n)); lia.
  - rewrite Z.quot_div_nonneg by lia. split; [apply Z.div_pos; lia|apply Z.div_lt; lia].
Qed.
Theorem C48_task_numbers : forall w lucky word, match word with Some x => 0 <= x | None => True end ->
  let n := getTaskBatchSize w lucky word in
  (w_pattern w = HighFrequency -> 2 <= n <= 4) /\ (w_pattern w = Burst -> w_burst w = true -> 3 <= n <= 7) /\
  (w_pattern w = Burst -> w_burst w = false -> n = 1) /\ (w_pattern w = Mixed -> 1 <= n <= 3) /\
  (w_pattern w <> HighFrequency -> w_pattern w <> Burst -> w_pattern w <> Mixed -> n = 1).
Proof.
  intros w lucky word HW. cbv zeta. unfold getTaskBatchSize, HighFrequency, Burst, Mixed.
  destruct (C48_random 3 word HW) as [R3 _]. destruct (C48_random 5 word HW) as [R5 _]. destruct (C48_random 2 word HW) as [R2 _].
  specialize (R3 ltac:(lia)). specialize (R5 ltac:(lia)). specialize (R2 ltac:(lia)).
  destruct (Z.eqb_spec (w_pattern w) 1), (Z.eqb_spec (w_pattern w) 2), (Z.eqb_spec (w_pattern w) 4), (w_burst w), lucky; repeat split; intros; try lia; try congruence.
Qed.
Theorem C48_intervals : forall p word, match word with Some x => 0 <= x | None => True end ->
  let ms := firstInterval p word / 1000000 in
  firstInterval p word = ms * 1000000 /\
  (p = HighFrequency -> 50 <= ms < 100) /\ (p = Sparse -> 2000 <= ms < 4000) /\ (p = Burst -> ms = 100) /\ (p = Mixed -> ms = 300) /\
  (~ In p [HighFrequency; Sparse; Burst; Mixed] -> ms = 500) /\ 200 <= mixedInterval word / 1000000 < 1000.
Proof.
  intros p word HW. cbv zeta. destruct (C48_random 50 word HW) as [R1 _]. destruct (C48_random 2000 word HW) as [R2 _]. destruct (C48_random 800 word HW) as [R3 _].
  specialize (R1 ltac:(lia)). specialize (R2 ltac:(lia)). specialize (R3 ltac:(lia)). unfold firstInterval, mixedInterval, HighFrequency, Sparse, Burst, Mixed. cbn [In].
  rewrite (Z.div_mul (200 + _)) by lia. replace (2000 * 1000000 + secureRandIntn 2000 word * 1000000) with ((2000 + secureRandIntn 2000 word) * 1000000) by lia.
  destruct (Z.eqb_spec p 1), (Z.eqb_spec p 2), (Z.eqb_spec p 4), (Z.eqb_spec p 5); rewrite Z.div_mul by lia; repeat split; intros; try lia; exfalso; auto.
Qed.
(** A burst lasts between half a second and two seconds, and tasks are generated throughout it. *)
Theorem C48_burst : forall w now lucky word g b e, w_pattern w = Burst -> match word with Some x => 0 <= x | None => True end ->
  shouldGenerateTask w now lucky word = (g, b, e) ->
  (w_burst w = false -> lucky = true -> g = true /\ b = true /\ 500000000 <= e - now < 2000000000) /\
  (w_burst w = false -> lucky = false -> g = false /\ b = false) /\
  (w_burst w = true -> (g = true <-> now <= w_burstEnd w) /\ b = g /\ e = w_burstEnd w).
Proof.
  intros w now lucky word g b e HP HW. unfold shouldGenerateTask. rewrite HP. cbn [Burst Z.eqb Pos.eqb]. destruct (C48_random 1500 word HW) as [R1 _]. specialize (R1 ltac:(lia)). set (r := secureRandIntn 1500 word) in *. clearbody r.
  destruct (w_burst w) eqn:B; cbn [negb].
  - destruct (Z.ltb_spec (w_burstEnd w) now); intros H0; apply pair_equal_spec in H0; destruct H0 as [H0 He]; apply pair_equal_spec in H0; destruct H0 as [Hg Hb]; subst g b e; repeat split; intros; try discriminate; try lia; auto.
  - destruct lucky; intros H0; apply pair_equal_spec in H0; destruct H0 as [H0 He]; apply pair_equal_spec in H0; destruct H0 as [Hg Hb]; subst g b e; repeat split; intros; try discriminate; try lia; auto.
Qed.

(** ** C54: the activity shown for a workload *)
Theorem C54_activity : forall w, let a := activity w sinceZeroTime in
  (w_pattern w = Burst -> a = (if w_burst w then ("burst", true) else ("quiet", false))) /\
  (w_pattern w = HighFrequency -> a = ("active", false)) /\
  (w_pattern w = Sparse -> a = (if (List.length (w_pending w) =? 0)%nat then ("quiet", false) else ("active", false))) /\
  (~ In (w_pattern w) [Burst; HighFrequency; Sparse; Mixed] -> a = ("steady", false)) /\
  (snd a = true <-> w_pattern w = Burst /\ w_burst w = true).
Proof.
  intros w. cbv zeta. split; [|split; [|split; [|split]]].
  - intros H. unfold activity. rewrite H. reflexivity.
  - intros H. unfold activity. rewrite H. reflexivity.
  - intros H. unfold activity. rewrite H. destruct (w_pending w); reflexivity.
  - intros H. unfold activity. cbn [In] in H. destruct (Z.eqb_spec (w_pattern w) Burst) as [E|_]; [exfalso; apply H; auto|].
    destruct (Z.eqb_spec (w_pattern w) HighFrequency) as [E|_]; [exfalso; apply H; auto|]. destruct (Z.eqb_spec (w_pattern w) Sparse) as [E|_]; [exfalso; apply H; auto|].
    destruct (Z.eqb_spec (w_pattern w) Mixed) as [E|_]; [exfalso; apply H; auto|]. reflexivity.
  - unfold activity. destruct (Z.eqb_spec (w_pattern w) Burst) as [E|NE].
    + destruct (w_burst w); cbn [snd]; split; auto; try discriminate. intros [_ D]. discriminate.
    + split; [|intros [E _]; contradiction]. intros D. exfalso. destruct (w_pattern w =? HighFrequency); [discriminate|].
      destruct (w_pattern w =? Sparse); [destruct (w_pending w); discriminate|]. destruct (w_pattern w =? Mixed); discriminate.
Qed.
(** The mixed pattern is shown as quiet whatever the workload does: the time of its last request is never recorded. *)
Theorem C54_mixed_refuted : forall w, w_pattern w = Mixed -> activity w sinceZeroTime = ("quiet", false).
Proof. intros w H. unfold activity. rewrite H. reflexivity. Qed.
Theorem C54_mixed_witness_refuted : exists (es : list (WEv R)) w0 w, NewWorkloadWithEmerge "agent-0" 0 Mixed RecoverFromFailure = Some w0 /\ wRun w0 es = Some w /\
  List.length (w_pending w) = 3%nat /\ fst (activity w sinceZeroTime) = "quiet" /\ fst (activity w 0) = "active".
Proof.
  set (es := [Create; Append; Create; Append; Create; Append] : list (WEv R)). exists es, (demo Mixed RecoverFromFailure), (the (wRun (demo Mixed RecoverFromFailure) es)). subst es.
  split; [vm_compute; reflexivity|]. split; [vm_compute; reflexivity|]. split; [vm_compute; reflexivity|]. split; vm_compute; reflexivity.
Qed.

(** Instances of the hypotheses. *)
Example C48_example : exists w0 w, NewWorkloadWithEmerge "agent-7" 9 Burst DistributeLoad = Some w0 /\
  wRun (N := RNum) w0 [Create; Append; Create; Append; Send; Create] = Some w /\ Forall (no_reset (T := R)) [Create; Append; Create; Append; Send; Create] /\
  w_name w = "WebServer2" /\ concat (w_handed w) <> [] /\ handList w <> [].
Proof.
  exists (the (NewWorkloadWithEmerge "agent-7" 9 Burst DistributeLoad)).
  exists (the (wRun (N := RNum) (the (NewWorkloadWithEmerge "agent-7" 9 Burst DistributeLoad)) [Create; Append; Create; Append; Send; Create])).
  split; [vm_compute; reflexivity|]. split; [vm_compute; reflexivity|]. split; [repeat constructor; discriminate|]. split; [vm_compute; reflexivity|]. split; vm_compute; discriminate.
Qed.
Print Assumptions C48_ids_across_agents. Print Assumptions C48_types. Print Assumptions C48_no_panic. Print Assumptions C48_bookkeeping.
Print Assumptions C48_no_reset. Print Assumptions C48_reset_loses_refuted. Print Assumptions C48_reset_id_refuted. Print Assumptions C48_poll.
Print Assumptions C48_random. Print Assumptions C48_task_numbers. Print Assumptions C48_intervals. Print Assumptions C48_burst.
Print Assumptions C54_activity. Print Assumptions C54_mixed_refuted. Print Assumptions C54_mixed_witness_refuted.
