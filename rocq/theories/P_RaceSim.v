(** C99: the goroutines of the simulation. *)
From Coq Require Import List Arith Lia Bool Classical.
From Verif Require Import M_Race M_RaceSim S_Race L_Race P_Race L_RaceRank.
Import ListNotations.

Definition simClass (l : Loc) : Class :=
  match l with
  | LSim => Guard MSim
  | LMetrics => Guard MMetrics
  | LBatchStats => Guard MBatch
  | LCurrent => Guard MCurrent
  | LPending i => Guard (MWork i)
  | LSwarmCtx | LCounter _ | LBurst _ => Own
  | _ => class l
  end.
(** The order in which locks are taken: that of the simulation first, those of the swarm and of the collected batch last. *)
Definition rank (m : Mut) : nat := match m with MSim => 0 | MWork _ | MMetrics | MBatch => 1 | _ => 2 end.
Definition fine (h : list (Mut * bool)) (os : list Op) (h' : list (Mut * bool)) : Prop :=
  chk simClass h os /\ ranked rank h os /\ own h os = h'.
Lemma fine_nil h : fine h [] h. Proof. repeat split. Qed.
Lemma fine_cons h o r h' : okOp simClass h o -> rankedOp rank h o -> fine (own1 h o) r h' -> fine h (o :: r) h'.
Proof. intros A B (C & D & E). repeat split; auto. Qed.
Lemma fine_app h a h1 b h' : fine h a h1 -> fine h1 b h' -> fine h (a ++ b) h'.
Proof.
  intros (A & B & C) (D & E & F). repeat split.
  - apply chk_app. rewrite C. auto.
  - apply ranked_app. rewrite C. auto.
  - rewrite own_app, C. exact F.
Qed.
Lemma fine_repeat h o k : fine h [o] h -> fine h (repeat o k) h.
Proof. intros G. induction k as [|k IH]; [apply fine_nil|]. apply (fine_app h [o] h (repeat o k) h G IH). Qed.
Lemma fine_flat {A} h (f : A -> list Op) l : (forall x, fine h (f x) h) -> fine h (flat_map f l) h.
Proof. intros G. induction l as [|x l IH]; [apply fine_nil|]. simpl. eapply fine_app; [apply G|exact IH]. Qed.
Lemma rm_head x h : rm x (x :: h) = h. Proof. simpl. destruct (key_eq x x); congruence. Qed.
Lemma fine_unlock h m r h' : fine h r h' -> fine ((m, true) :: h) (Ul m :: r) h'.
Proof. intros F. apply fine_cons; [exact I|simpl; eauto|]. cbn [own1]. rewrite rm_head. exact F. Qed.
Lemma fine_runlock h m r h' : fine h r h' -> fine ((m, false) :: h) (RUl m :: r) h'.
Proof. intros F. apply fine_cons; [exact I|simpl; eauto|]. cbn [own1]. rewrite rm_head. exact F. Qed.
Ltac ok := cbn [okOp simClass class In]; auto 6; fail.
Ltac okr := cbn [rankedOp]; repeat constructor; cbn [rank fst]; try exact I; try lia; try assumption.
Definition low (h : list (Mut * bool)) : Prop := Forall (fun k => rank (fst k) < 2) h.
Ltac fine1 :=
  match goal with
  | |- fine _ [] _ => apply fine_nil
  | |- fine _ (_ ++ _) _ => eapply fine_app
  | |- fine _ (if ?b then _ else _) _ => destruct b
  | |- fine _ (match ?b with Some _ => _ | None => _ end) _ => destruct b
  | |- fine _ (repeat _ _) _ => apply fine_repeat
  | |- fine _ (flat_map _ _) _ => apply fine_flat; intros ?
  | |- fine _ (Ul _ :: _) _ => apply fine_unlock
  | |- fine _ (RUl _ :: _) _ => apply fine_runlock
  | |- fine _ (_ :: _) _ => apply fine_cons; [ok|okr; fail|cbn [own1]]
  end.

Section Fine.
Variables (opt : bool) (n w : nat).
Lemma fine_agents h : low h -> fine h (agentsOps opt n) h.
Proof. intros L. unfold agentsOps. destruct opt; repeat fine1. Qed.
Lemma fine_coherence h : low h -> fine h (coherenceOps opt n) h.
Proof. intros L. unfold coherenceOps. destruct opt; repeat fine1. Qed.
Lemma fine_iter i : fine [] (iterOps opt n i) [].
Proof.
  unfold iterOps, measureOps, achievedOps, recordOps, readMonOps, switchOps, completeOps, applyOps, noiseOps, readMonOps, phasesOps.
  destruct i as [hi wo sw te mv no]; cbn [it_high it_won it_switch it_templates it_moves it_noise].
  destruct wo, sw, no, hi; repeat first [fine1 | (apply fine_agents; okr) | (apply fine_coherence; okr)].
Qed.
Lemma fine_start clamp is : fine [] (callOps opt n (CStart clamp is)) [].
Proof. cbn [callOps]. unfold achieveOps, setTargetOps. destruct clamp; repeat first [fine1 | (apply fine_agents; okr) | apply fine_iter]. Qed.
Lemma fine_act a : fine [] (actOps opt n w a) [].
Proof.
  destruct a; cbn [actOps]; unfold metricsResetOps, batchResetOps, workResetOps, workSnapshotOps, metricsReadOps, lastBatchOps, generateOps, monitorOps,
    pausedOps, burstOps, taskOps, processOps, metricsWriteOps, pendingCountOps;
  repeat first [fine1 | (apply fine_agents; okr) | (apply fine_coherence; okr)].
Qed.
Lemma fine_acts l : fine [] (actsOps opt n w l) [].
Proof. apply fine_flat. apply fine_act. Qed.
Lemma fine_swarm clamp is : fine [] (swarmOps opt n clamp is) [].
Proof. unfold swarmOps. apply fine_cons; [exact I|exact I|]. apply fine_start. Qed.
End Fine.

(** Goroutine [i] of the program does [acts i]; the swarm goroutines do what Start and Resume make them for. *)
Definition simProg (opt : bool) (n w : nat) (acts : nat -> list Act) (sy : nat -> bool * list Iter) (t : Tid) : list Op :=
  match t with App i => actsOps opt n w (acts i) | Sync g => swarmOps opt n (fst (sy g)) (snd (sy g)) end.
Lemma sim_fine opt n w acts sy t : fine [] (simProg opt n w acts sy t) [].
Proof. destruct t as [i|g]; [apply fine_acts|apply fine_swarm]. Qed.
Lemma sim_chk opt n w acts sy t : chk simClass [] (simProg opt n w acts sy t).
Proof. apply sim_fine. Qed.

(** The tasks and counts of every workload, the metrics, the batch statistics and the state of the simulation are never
    touched in a race, whatever the goroutines do. *)
Definition protected (l : Loc) : Prop :=
  l = LSim \/ l = LMetrics \/ l = LBatchStats \/ l = LCurrent \/ (exists i, l = LPending i) \/ l = LMonHistory \/ l = LPerf \/ l = LStrategy.
Theorem C99_sim_safe opt n w acts sy ex l :
  possible (simProg opt n w acts sy) ex -> protected l -> ~ race ex l.
Proof.
  intros P L. apply (drf_at simClass _ _ _ P); [intros t; apply sim_chk|].
  intros i j t u a b C. exfalso. destruct L as [->|[->|[->|[->|[[x ->]|[->|[->| ->]]]]]]]; discriminate.
Qed.

(** Who touches the counter and the burst state of workload [i] at all. *)
Definition counts (i : nat) (a : Act) : Prop := match a with AGenerate j _ _ _ => j = i | AReset _ => True | _ => False end.
Definition bursts (i : nat) (a : Act) : Prop := match a with AGenerate j b _ _ => j = i /\ b = true | AReset _ | ASnapshot => True | _ => False end.
(** Boolean form: [touch l o] when [o] is an access of [l]. *)
Definition loc_is (l : Loc) (x : Loc) : bool :=
  match l, x with LCounter i, LCounter j => Nat.eqb i j | LBurst i, LBurst j => Nat.eqb i j | _, _ => false end.
Definition avoids (l : Loc) (o : Op) : bool := match o with Rd x | Wr x => negb (loc_is l x) | _ => true end.
Lemma avoids_access l o : loc_is l l = true -> avoids l o = true -> access o l -> False.
Proof. intros S V [->| ->]; simpl in V; rewrite S in V; discriminate. Qed.
Ltac fb1 := match goal with
  | |- forallb _ [] = true => reflexivity
  | |- forallb _ (_ ++ _) = true => apply fb_app
  | |- forallb _ (repeat _ _) = true => apply fb_repeat; reflexivity
  | |- forallb _ (flat_map _ _) = true => apply fb_flat; intros ?
  | |- forallb _ (_ :: _) = true => apply fb_cons
  | |- forallb _ (if ?b then _ else _) = true => destruct b
  | |- forallb _ (match ?b with Some _ => _ | None => _ end) = true => destruct b
  end.
Definition sel (l : Loc) : Prop := (exists i, l = LCounter i) \/ (exists i, l = LBurst i).
Lemma avoid_basic l x : sel l -> (forall i, x <> LCounter i) -> (forall i, x <> LBurst i) -> loc_is l x = false.
Proof. intros [[i ->]|[i ->]] A B; destruct x; try reflexivity; exfalso; [eapply A|eapply B]; reflexivity. Qed.
Lemma avoid_start l opt n clamp is : sel l -> forallb (avoids l) (swarmOps opt n clamp is) = true.
Proof.
  intros S. unfold swarmOps. cbn [callOps]. destruct S as [[i ->]|[i ->]];
  unfold achieveOps, setTargetOps, iterOps, measureOps, recordOps, readMonOps, switchOps, completeOps, achievedOps, applyOps, noiseOps,
    phasesOps, coherenceOps, agentsOps, readMonOps; repeat fb1; reflexivity.
Qed.
Lemma avoid_counter i opt n w a : ~ counts i a -> forallb (avoids (LCounter i)) (actOps opt n w a) = true.
Proof.
  intros N. destruct a; cbn [actOps counts] in *; try (exfalso; apply N; exact I);
    unfold workSnapshotOps, metricsReadOps, lastBatchOps, generateOps, monitorOps, coherenceOps, agentsOps,
    pausedOps, burstOps, taskOps, processOps, metricsWriteOps, pendingCountOps; repeat fb1; try reflexivity;
    simpl; (destruct (Nat.eqb_spec i i0) as [->|]; [exfalso; apply N; reflexivity|reflexivity]).
Qed.
Lemma avoid_burst i opt n w a : ~ bursts i a -> forallb (avoids (LBurst i)) (actOps opt n w a) = true.
Proof.
  intros N. destruct a; cbn [actOps bursts] in *; try (exfalso; apply N; exact I);
    unfold metricsReadOps, lastBatchOps, generateOps, monitorOps, coherenceOps, agentsOps,
    pausedOps, taskOps, processOps, metricsWriteOps, pendingCountOps; repeat fb1; try reflexivity.
  unfold burstOps. destruct burst; [|reflexivity].
  assert (E : Nat.eqb i i0 = false) by (apply Nat.eqb_neq; intros ->; apply N; auto).
  repeat fb1; simpl; rewrite ?E; reflexivity.
Qed.

(** Without Reset, a workload counts its tasks in one goroutine only. *)
Theorem C99_counter_safe opt n w acts sy ex i g :
  possible (simProg opt n w acts sy) ex ->
  (forall j a, In a (acts j) -> counts i a -> j = g) -> ~ race ex (LCounter i).
Proof.
  intros P H. apply (drf_at simClass _ _ _ P); [intros t; apply sim_chk|].
  intros x y t u a b _ L NE Ex Ey Aa Ab. exfalso.
  assert (K : forall k v o, nth_error ex k = Some (v, o) -> access o (LCounter i) -> v = App g).
  { intros k v o E A. pose proof (step_in _ _ _ _ _ P E) as I. destruct v as [v|v]; simpl in I.
    - apply in_flat_map in I. destruct I as [c [Ic Io]]. f_equal. apply (H v c Ic).
      assert (D : counts i c \/ ~ counts i c) by (destruct c; simpl; auto; destruct (Nat.eq_dec i0 i); auto).
      destruct D as [D|D]; [exact D|]. exfalso. eapply (avoids_access (LCounter i)); [apply Nat.eqb_refl| |exact A].
      eapply fb_in; [apply (avoid_counter i opt n w c D)|exact Io].
    - exfalso. eapply (avoids_access (LCounter i)); [apply Nat.eqb_refl| |exact A].
      eapply fb_in; [apply (avoid_start (LCounter i)); left; eauto|exact I]. }
  rewrite (K _ _ _ Ex Aa), (K _ _ _ Ey Ab) in NE. congruence.
Qed.
Theorem C99_burst_safe opt n w acts sy ex i g :
  possible (simProg opt n w acts sy) ex ->
  (forall j a, In a (acts j) -> bursts i a -> j = g) -> ~ race ex (LBurst i).
Proof.
  intros P H. apply (drf_at simClass _ _ _ P); [intros t; apply sim_chk|].
  intros x y t u a b _ L NE Ex Ey Aa Ab. exfalso.
  assert (K : forall k v o, nth_error ex k = Some (v, o) -> access o (LBurst i) -> v = App g).
  { intros k v o E A. pose proof (step_in _ _ _ _ _ P E) as I. destruct v as [v|v]; simpl in I.
    - apply in_flat_map in I. destruct I as [c [Ic Io]]. f_equal. apply (H v c Ic).
      assert (D : bursts i c \/ ~ bursts i c)
        by (destruct c; simpl; auto; destruct (Nat.eq_dec i0 i), burst; auto; right; intros [? ?]; congruence).
      destruct D as [D|D]; [exact D|]. exfalso. eapply (avoids_access (LBurst i)); [apply Nat.eqb_refl| |exact A].
      eapply fb_in; [apply (avoid_burst i opt n w c D)|exact Io].
    - exfalso. eapply (avoids_access (LBurst i)); [apply Nat.eqb_refl| |exact A].
      eapply fb_in; [apply (avoid_start (LBurst i)); right; eauto|exact I]. }
  rewrite (K _ _ _ Ex Aa), (K _ _ _ Ey Ab) in NE. congruence.
Qed.

(** The locks alone never stop the simulation: as long as a goroutine that has been started is not finished, some started
    goroutine can take its next step.  (The receive in the loop that empties the queue is not a lock: see C49.) *)
Theorem C99_locks_no_deadlock opt n w acts sy ex waiting t o rest :
  possible (simProg opt n w acts sy) ex ->
  (forall u m, waiting u = Some m -> started ex u /\ exists r, simProg opt n w acts sy u = done u ex ++ Lk m :: r) ->
  started ex t -> simProg opt n w acts sy t = done t ex ++ o :: rest ->
  exists u o' r, started ex u /\ simProg opt n w acts sy u = done u ex ++ o' :: r /\ canStep (heldAt ex (List.length ex)) waiting u o'.
Proof.
  intros P W ST T. apply (ranked_progress rank 3 (fun m => ltac:(destruct m; simpl; lia)) (simProg opt n w acts sy) ex waiting t o rest); auto.
  intros u. destruct (sim_fine opt n w acts sy u) as (_ & R & O). auto.
Qed.

(** Reset while a workload counts a task. *)
Definition resetActs (i : nat) : list Act := match i with 0 => [AReset 0] | 1 => [AGenerate 0 false false 1] | _ => [] end.
Definition resetRun : Exec :=
  by_ (App 1) (firstn 7 (generateOps 0 false false 1)) ++ by_ (App 0) (firstn 14 (actOps false 1 1 (AReset 0))).
Theorem C99_counter_refuted : possible (simProg false 1 1 resetActs (fun _ => (false, []))) resetRun /\ race resetRun (LCounter 0).
Proof.
  split.
  - constructor.
    + intros i t o H. unfold resetRun, by_ in H. cbn in H. walk i H lockstep.
    + intros i k o H. unfold resetRun, by_ in H. cbn in H. walk i H absent.
    + intros i t k H. unfold resetRun, by_ in H. cbn in H. walk i H absent.
    + intros [[|[|i]]|k]; eexists; [vm_compute; reflexivity|vm_compute; reflexivity|simpl; reflexivity|simpl; reflexivity].
  - apply (race_by _ _ 6 20 (App 1) (App 0) (Wr (LCounter 0)) (Wr (LCounter 0))); try reflexivity; try discriminate; try lia; auto; try (right; reflexivity).
    intros k o L1 L2 H. do 6 (destruct k as [|k]; [lia|]). unfold resetRun, by_ in H. cbn in H.
    next k H; [injection H as <-; reflexivity|]. walk k H absent.
Qed.

(** A look at the simulation while a burst begins. *)
Definition lookActs (i : nat) : list Act := match i with 0 => [ASnapshot] | 1 => [AGenerate 0 true true 1] | _ => [] end.
Definition lookRun : Exec :=
  by_ (App 1) (firstn 7 (generateOps 0 true true 1)) ++ by_ (App 0) (firstn 3 (actOps false 1 1 ASnapshot)).
Theorem C99_burst_refuted : possible (simProg false 1 1 lookActs (fun _ => (false, []))) lookRun /\ race lookRun (LBurst 0).
Proof.
  split.
  - constructor.
    + intros i t o H. unfold lookRun, by_ in H. cbn in H. walk i H lockstep.
    + intros i k o H. unfold lookRun, by_ in H. cbn in H. walk i H absent.
    + intros i t k H. unfold lookRun, by_ in H. cbn in H. walk i H absent.
    + intros [[|[|i]]|k]; eexists; [vm_compute; reflexivity|vm_compute; reflexivity|simpl; reflexivity|simpl; reflexivity].
  - apply (race_by _ _ 6 9 (App 1) (App 0) (Wr (LBurst 0)) (Rd (LBurst 0))); try reflexivity; try discriminate; try lia; auto; try (right; reflexivity); try (left; reflexivity).
    intros k o L1 L2 H. do 6 (destruct k as [|k]; [lia|]). unfold lookRun, by_ in H. cbn in H.
    next k H; [injection H as <-; reflexivity|]. walk k H absent.
Qed.

(** The same with a reset: a burst that goes on reads the state that Reset writes. *)
Definition burstActs (i : nat) : list Act := match i with 0 => [AReset 0] | 1 => [AGenerate 0 true false 1] | _ => [] end.
Definition burstRun : Exec :=
  by_ (App 1) (firstn 6 (generateOps 0 true false 1)) ++ by_ (App 0) (firstn 16 (actOps false 1 1 (AReset 0))).
Theorem C99_burst_reset_refuted : possible (simProg false 1 1 burstActs (fun _ => (false, []))) burstRun /\ race burstRun (LBurst 0).
Proof.
  split.
  - constructor.
    + intros i t o H. unfold burstRun, by_ in H. cbn in H. walk i H lockstep.
    + intros i k o H. unfold burstRun, by_ in H. cbn in H. walk i H absent.
    + intros i t k H. unfold burstRun, by_ in H. cbn in H. walk i H absent.
    + intros [[|[|i]]|k]; eexists; [vm_compute; reflexivity|vm_compute; reflexivity|simpl; reflexivity|simpl; reflexivity].
  - apply (race_by _ _ 5 21 (App 1) (App 0) (Rd (LBurst 0)) (Wr (LBurst 0))); try reflexivity; try discriminate; try lia; auto; try (right; reflexivity); try (left; reflexivity).
    intros k o L1 L2 H. do 5 (destruct k as [|k]; [lia|]). unfold burstRun, by_ in H. cbn in H.
    next k H; [injection H as <-; reflexivity|]. walk k H absent.
Qed.

(** Pause and Resume: the context that Resume makes, and the target that the new swarm goroutine sets, race with the swarm
    goroutine of Start. *)
Definition pauseActs (i : nat) : list Act := match i with 0 => [AStart 0] | 1 => [APause; AResume 1] | _ => [] end.
Definition pauseRun : Exec :=
  by_ (App 0) (firstn 6 (actOps false 1 1 (AStart 0))) ++ by_ (Sync 0) (firstn 6 (swarmOps false 1 false []))
  ++ by_ (App 1) (actsOps false 1 1 [APause; AResume 1]) ++ by_ (Sync 1) (firstn 6 (swarmOps false 1 false [])).
Theorem C99_pause_resume_refuted : possible (simProg false 1 1 pauseActs (fun _ => (false, []))) pauseRun /\
  race pauseRun LSwarmCtx /\ race pauseRun LTarget.
Proof.
  split; [|split].
  - constructor.
    + intros i t o H. unfold pauseRun, by_ in H. cbn in H. walk i H lockstep.
    + intros i k o H. unfold pauseRun, by_ in H. cbn in H.
      walk i H ltac:(fun H => first [discriminate H | injection H as <- <-;
        first [exists 5, (App 0); split; [lia|reflexivity] | exists 29, (App 1); split; [lia|reflexivity]]]).
    + intros i t k H. unfold pauseRun, by_ in H. cbn in H. walk i H absent.
    + intros [[|[|i]]|[|[|k]]]; eexists; [vm_compute; reflexivity|vm_compute; reflexivity|simpl; reflexivity|vm_compute; reflexivity|vm_compute; reflexivity|vm_compute; reflexivity].
  - apply (race_by _ _ 6 27 (Sync 0) (App 1) (Rd LSwarmCtx) (Wr LSwarmCtx)); try reflexivity; try discriminate; try lia; auto; try (right; reflexivity); try (left; reflexivity).
    intros k o L1 L2 H. do 6 (destruct k as [|k]; [lia|]). unfold pauseRun, by_ in H. cbn in H.
    walk k H ltac:(fun H => first [discriminate H | injection H as <-; reflexivity]).
  - apply (race_by _ _ 11 36 (Sync 0) (Sync 1) (Wr LTarget) (Wr LTarget)); try reflexivity; try discriminate; try lia; auto; try (right; reflexivity); try (left; reflexivity).
    intros k o L1 L2 H. do 11 (destruct k as [|k]; [lia|]). unfold pauseRun, by_ in H. cbn in H.
    walk k H ltac:(fun H => first [discriminate H | injection H as <-; reflexivity]).
Qed.

(** The hypotheses are met: one goroutine makes tasks, another one sends them off; both write the list of tasks. *)
Definition exActs (i : nat) : list Act := match i with 0 => [AGenerate 0 true true 1] | 1 => [AMonitor 0 true] | _ => [] end.
Definition exRunS : Exec := by_ (App 0) (generateOps 0 true true 1) ++ by_ (App 1) (monitorOps 0 true).
Example C99_sim_example :
  possible (simProg false 1 1 exActs (fun _ => (false, []))) exRunS /\
  (forall j a, In a (exActs j) -> counts 0 a -> j = 0) /\ (forall j a, In a (exActs j) -> bursts 0 a -> j = 0) /\
  (exists i, nth_error exRunS i = Some (App 0, Wr (LPending 0))) /\ (exists i, nth_error exRunS i = Some (App 1, Wr (LPending 0))).
Proof.
  split.
  - constructor.
    + intros i t o H. unfold exRunS, by_ in H. cbn in H. walk i H lockstep.
    + intros i k o H. unfold exRunS, by_ in H. cbn in H. walk i H absent.
    + intros i t k H. unfold exRunS, by_ in H. cbn in H. walk i H absent.
    + intros [[|[|i]]|k]; eexists; [vm_compute; reflexivity|vm_compute; reflexivity|simpl; reflexivity|simpl; reflexivity].
  - split; [|split; [|split; [exists 12|exists 24]; reflexivity]]; intros [|[|j]] a [<-|[]] [] || intros [|[|j]] a; simpl; try tauto; intros [<-|[]] C; now destruct C.
Qed.
(** Reset holds the lock of the simulation and waits for one that a workload holds. *)
Definition exWaitS : Exec := by_ (App 1) (firstn 9 (generateOps 0 false false 1)) ++ by_ (App 0) (firstn 11 (actOps false 1 1 (AReset 0))).
Definition exWaitingS (u : Tid) : option Mut := if tid_eq u (App 0) then Some (MWork 0) else None.
Example C99_deadlock_example :
  possible (simProg false 1 1 resetActs (fun _ => (false, []))) exWaitS /\
  (forall u m, exWaitingS u = Some m -> started exWaitS u /\ exists r, simProg false 1 1 resetActs (fun _ => (false, [])) u = done u exWaitS ++ Lk m :: r) /\
  ~ canStep (heldAt exWaitS (List.length exWaitS)) exWaitingS (App 0) (Lk (MWork 0)).
Proof.
  split; [|split].
  - constructor.
    + intros i t o H. unfold exWaitS, by_ in H. cbn in H. walk i H lockstep.
    + intros i k o H. unfold exWaitS, by_ in H. cbn in H. walk i H absent.
    + intros i t k H. unfold exWaitS, by_ in H. cbn in H. walk i H absent.
    + intros [[|[|i]]|k]; eexists; [vm_compute; reflexivity|vm_compute; reflexivity|simpl; reflexivity|simpl; reflexivity].
  - unfold exWaitingS. intros u m H. destruct (tid_eq u (App 0)) as [->|]; [|discriminate]. injection H as <-. split; [exact I|]. eexists. vm_compute. reflexivity.
  - intros [A _]. vm_compute in A. destruct A as [A _]. discriminate.
Qed.

Print Assumptions C99_sim_safe.
Print Assumptions C99_counter_safe.
Print Assumptions C99_burst_safe.
Print Assumptions C99_locks_no_deadlock.
Print Assumptions C99_counter_refuted.
Print Assumptions C99_burst_refuted.
Print Assumptions C99_burst_reset_refuted.
Print Assumptions C99_pause_resume_refuted.
