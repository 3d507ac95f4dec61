(** C100: the methods of agents called from several goroutines. *)
From Coq Require Import List Arith Lia Bool.
From Verif Require Import M_Race M_RaceAgent S_Race L_Race P_Race L_RaceRank.
Import ListNotations.

Definition agClass (l : Loc) : Class :=
  match l with LNeigh x => Guard (MNeigh x) | LId _ | LDecider _ | LPulse _ => Own | _ => class l end.
Definition flatRank (m : Mut) : nat := 0.
Definition sound (os : list Op) : Prop := chk agClass [] os /\ ranked flatRank [] os /\ own [] os = [].
Lemma sound_nil : sound []. Proof. repeat split. Qed.
Lemma sound_app a b : sound a -> sound b -> sound (a ++ b).
Proof.
  intros (A & B & C) (D & E & F). repeat split.
  - apply chk_app. rewrite C. auto.
  - apply ranked_app. rewrite C. auto.
  - rewrite own_app, C. exact F.
Qed.
(** Steps that need no lock, and steps under one lock. *)
Definition free (o : Op) : Prop := forall h, okOp agClass h o /\ rankedOp flatRank h o /\ own1 h o = h.
Lemma sound_cons o r : free o -> sound r -> sound (o :: r).
Proof. intros F (A & B & C). destruct (F []) as (X & Y & Z). repeat split; cbn [chk ranked]; rewrite ?Z; auto. unfold own in *. cbn [fold_left]. now rewrite Z. Qed.
Lemma sound_flat {A} (f : A -> list Op) l : (forall x, sound (f x)) -> sound (flat_map f l).
Proof. intros H. induction l; [apply sound_nil|]. simpl. apply sound_app; auto. Qed.
Definition under (h : list (Mut * bool)) (o : Op) : Prop := okOp agClass h o /\ rankedOp flatRank h o /\ own1 h o = h.
Lemma under_list h os r : Forall (under h) os -> ranked flatRank h r -> chk agClass h r ->
  chk agClass h (os ++ r) /\ ranked flatRank h (os ++ r) /\ own h (os ++ r) = own h r.
Proof.
  intros F R C. induction F as [|o os (X & Y & Z) F (I1 & I2 & I3)]; [auto|]. unfold own in *. cbn [chk ranked app fold_left]. rewrite !Z. auto.
Qed.
Lemma key_refl (x : Mut * bool) : rm x [x] = []. Proof. simpl. destruct (key_eq x x); congruence. Qed.
Lemma sound_lock m os : Forall (under [(m, true)]) os -> sound (Lk m :: os ++ [Ul m]).
Proof.
  intros F. destruct (under_list [(m, true)] os [Ul m] F) as (A & B & C).
  - cbn [ranked rankedOp]. split; [eauto|exact I].
  - cbn [chk okOp]. auto.
  - split; [|split].
    + cbn [chk okOp own1]. split; [exact I|exact A].
    + cbn [ranked rankedOp own1]. split; [constructor|exact B].
    + unfold own in *. cbn [fold_left own1] in *. rewrite C. apply key_refl.
Qed.
Lemma sound_rlock m os : Forall (under [(m, false)]) os -> sound (RLk m :: os ++ [RUl m]).
Proof.
  intros F. destruct (under_list [(m, false)] os [RUl m] F) as (A & B & C).
  - cbn [ranked rankedOp]. split; [eauto|exact I].
  - cbn [chk okOp]. auto.
  - split; [|split].
    + cbn [chk okOp own1]. split; [exact I|exact A].
    + cbn [ranked rankedOp own1]. split; [constructor|exact B].
    + unfold own in *. cbn [fold_left own1] in *. rewrite C. apply key_refl.
Qed.
Lemma free_rd l : (forall m, agClass l <> Guard m) -> free (Rd l).
Proof. intros H h. repeat split. simpl. destruct (agClass l) eqn:E; auto. exfalso. eapply H; eauto. Qed.
Lemma free_wr l : agClass l = Own -> free (Wr l).
Proof. intros H h. repeat split. simpl. now rewrite H. Qed.
Lemma free_at : free At. Proof. intros h. repeat split. Qed.
Ltac fr := first [apply free_at | apply free_rd; intros ? ?; discriminate | apply free_wr; reflexivity].
Ltac sd1 := match goal with
  | |- sound [] => apply sound_nil
  | |- sound (if ?b then _ else _) => destruct b
  | |- sound (_ ++ _) => apply sound_app
  | |- sound (flat_map _ _) => apply sound_flat; intros ?
  | |- sound (_ :: _) => apply sound_cons; [fr|]
  end.
Lemma under_reads x b k : Forall (under [(MNeigh x, b)]) (repeat (Rd (LNeigh x)) k).
Proof. induction k; simpl; constructor; auto. repeat split. simpl. destruct b; auto. Qed.
Lemma under_at h : under h At. Proof. repeat split. Qed.

Section Sound.
Variables (opt : nat -> bool) (strat : nat -> nat) (pulse : nat -> bool).
Lemma sound_read x k : sound ([RLk (MNeigh x); At] ++ repeat (Rd (LNeigh x)) k ++ [RUl (MNeigh x)]).
Proof. apply (sound_rlock (MNeigh x) (At :: repeat (Rd (LNeigh x)) k)). constructor; [apply under_at|apply under_reads]. Qed.
Lemma sound_write x k a : a = [] \/ a = [Wr (LNeigh x); At] ->
  sound ([Lk (MNeigh x); At] ++ repeat (Rd (LNeigh x)) k ++ a ++ [Ul (MNeigh x)]).
Proof.
  intros A. rewrite app_assoc, app_assoc. rewrite <- (app_assoc _ _ [Ul _]) at 1.
  change ([Lk (MNeigh x); At] ++ repeat (Rd (LNeigh x)) k) with (Lk (MNeigh x) :: At :: repeat (Rd (LNeigh x)) k).
  rewrite <- app_comm_cons. rewrite app_assoc.
  apply (sound_lock (MNeigh x) ((At :: repeat (Rd (LNeigh x)) k) ++ a)). apply Forall_app. split.
  - constructor; [apply under_at|apply under_reads].
  - destruct A as [->| ->]; repeat constructor; simpl; auto.
Qed.
Lemma sound_neighbors x ys : sound (neighborsOps opt x ys).
Proof. unfold neighborsOps, getOps. apply sound_cons; [fr|]. apply sound_app; [destruct (opt x); [apply sound_read|repeat sd1]|repeat sd1]. Qed.
Lemma sound_call c : sound (agentOps opt strat pulse c).
Proof.
  destruct c; cbn [agentOps]; unfold getOps, setOps, setDeciderOps, countOps, resetAgentOps, clearAgentOps; try (repeat sd1; fail).
  - unfold connectOps. apply sound_app; [repeat sd1|]. destruct (opt x); [|repeat sd1]. apply sound_write. destruct full; auto.
  - unfold disconnectOps. sd1. destruct (opt x); [|repeat sd1]. apply sound_write. destruct found; auto.
  - unfold connectedOps. sd1. destruct (opt x); [apply sound_read|repeat sd1].
  - unfold contextOps. apply sound_app; [apply sound_neighbors|repeat sd1].
  - unfold proposeOps. repeat first [sd1 | apply sound_neighbors].
  - unfold applyActionOps. do 4 (apply sound_cons; [fr|]). apply (sound_lock (MToken x) [At; At]). repeat constructor.
Qed.
End Sound.

(** Goroutine [i] makes the calls [cs i], on any agents. *)
Definition agentProg (opt : nat -> bool) (strat : nat -> nat) (pulse : nat -> bool) (cs : nat -> list AgentCall) (t : Tid) : list Op :=
  match t with App i => flat_map (agentOps opt strat pulse) (cs i) | Sync _ => [] end.
Lemma prog_sound opt strat pulse cs t : sound (agentProg opt strat pulse cs t).
Proof. destruct t; [apply sound_flat, sound_call|apply sound_nil]. Qed.

(** What New sets up, and the neighbours, are never touched in a race, whatever is called from how many goroutines. *)
Theorem C100_agents_safe opt strat pulse cs ex x :
  possible (agentProg opt strat pulse cs) ex -> ~ race ex (LAgent x) /\ ~ race ex (LNeigh x).
Proof.
  intros P. split; (apply (drf_at agClass _ _ _ P); [intros t; apply prog_sound|]); intros i j t u a b C; discriminate.
Qed.

(** Which calls write the decision maker, the name and the time of the last pulse. *)
Definition writesDecider (x : nat) (c : AgentCall) : bool := match c with XSetDecider y | XReset y true => Nat.eqb x y | _ => false end.
Definition writesId (x : nat) (c : AgentCall) : bool := match c with XReset y _ | XClear y => Nat.eqb x y | _ => false end.
Definition usesPulse (strat : nat -> nat) (k : nat) (c : AgentCall) : bool := match c with XPropose y _ false _ => Nat.eqb k (strat y) | _ => false end.
Definition notWr (l : Loc) (o : Op) : bool := match l, o with
  | LDecider x, Wr (LDecider y) | LId x, Wr (LId y) => negb (Nat.eqb x y) | _, _ => true end.
Definition notAt (k : nat) (o : Op) : bool := match o with Rd (LPulse y) | Wr (LPulse y) => negb (Nat.eqb k y) | _ => true end.
Ltac fb1 := match goal with
  | |- forallb _ [] = true => reflexivity
  | |- forallb _ (_ ++ _) = true => apply fb_app
  | |- forallb _ (repeat _ _) = true => apply fb_repeat; reflexivity
  | |- forallb _ (flat_map _ _) = true => apply fb_flat; intros ?
  | |- forallb _ (_ :: _) = true => apply fb_cons; [try reflexivity|]
  | |- forallb _ (if ?b then _ else _) = true => destruct b eqn:?
  end.
Ltac ops := unfold getOps, setOps, setDeciderOps, countOps, connectOps, disconnectOps, connectedOps, contextOps, proposeOps, applyActionOps, resetAgentOps,
    clearAgentOps, neighborsOps, getOps.
Lemma no_decider opt strat pulse x c : writesDecider x c = false -> forallb (notWr (LDecider x)) (agentOps opt strat pulse c) = true.
Proof. intros H. destruct c; cbn [agentOps writesDecider] in *; ops; repeat fb1; try (simpl; now rewrite H). Qed.
Lemma no_id opt strat pulse x c : writesId x c = false -> forallb (notWr (LId x)) (agentOps opt strat pulse c) = true.
Proof. intros H. destruct c; cbn [agentOps writesId] in *; ops; repeat fb1; try (simpl; now rewrite H). Qed.
Lemma no_pulse opt strat pulse k c : usesPulse strat k c = false -> forallb (notAt k) (agentOps opt strat pulse c) = true.
Proof. intros H. destruct c; cbn [agentOps usesPulse] in *; ops; repeat fb1; try (subst; simpl; now rewrite H). Qed.
Lemma pulse_none opt strat pulse k c : pulse k = false -> forallb (notAt k) (agentOps opt strat pulse c) = true.
Proof.
  intros H. destruct c; cbn [agentOps] in *; ops; repeat fb1;
    simpl; (destruct (Nat.eqb_spec k (strat x)) as [->|]; [congruence|reflexivity]).
Qed.
Lemma step_call opt strat pulse cs ex i t o : possible (agentProg opt strat pulse cs) ex -> nth_error ex i = Some (t, o) ->
  exists n c, t = App n /\ In c (cs n) /\ In o (agentOps opt strat pulse c).
Proof.
  intros P E. pose proof (step_in _ _ _ _ _ P E) as I. destruct t as [n|k]; [|destruct I]. simpl in I. apply in_flat_map in I.
  destruct I as [c [A B]]. eauto.
Qed.
(** The decision maker: safe when it is never replaced while the agents are in use. *)
Theorem C100_decider_safe opt strat pulse cs ex x :
  possible (agentProg opt strat pulse cs) ex -> (forall i c, In c (cs i) -> writesDecider x c = false) -> ~ race ex (LDecider x).
Proof.
  intros P H (i & j & t & u & a & b & L & Ei & Ej & NE & Aa & Ab & W & NB).
  assert (K : forall k v, nth_error ex k = Some (v, Wr (LDecider x)) -> False).
  { intros k v E. destruct (step_call _ _ _ _ _ _ _ _ P E) as (n & c & -> & A & B).
    pose proof (fb_in _ _ _ (no_decider opt strat pulse x c (H n c A)) B) as Q. simpl in Q. rewrite Nat.eqb_refl in Q. discriminate. }
  destruct W as [->| ->]; eapply K; eauto.
Qed.
(** The name: safe when no agent in use is reset or returned to the pool. *)
Theorem C100_name_safe opt strat pulse cs ex x :
  possible (agentProg opt strat pulse cs) ex -> (forall i c, In c (cs i) -> writesId x c = false) -> ~ race ex (LId x).
Proof.
  intros P H (i & j & t & u & a & b & L & Ei & Ej & NE & Aa & Ab & W & NB).
  assert (K : forall k v, nth_error ex k = Some (v, Wr (LId x)) -> False).
  { intros k v E. destruct (step_call _ _ _ _ _ _ _ _ P E) as (n & c & -> & A & B).
    pose proof (fb_in _ _ _ (no_id opt strat pulse x c (H n c A)) B) as Q. simpl in Q. rewrite Nat.eqb_refl in Q. discriminate. }
  destruct W as [->| ->]; eapply K; eauto.
Qed.
(** A strategy: safe when it is not a pulse, or when all agents that use it are asked from one goroutine. *)
Theorem C100_strategy_safe opt strat pulse cs ex k g :
  possible (agentProg opt strat pulse cs) ex -> pulse k = false \/ (forall i c, In c (cs i) -> usesPulse strat k c = true -> i = g) -> ~ race ex (LPulse k).
Proof.
  intros P H (i & j & t & u & a & b & L & Ei & Ej & NE & Aa & Ab & W & NB). apply NE.
  assert (K : forall n v o, nth_error ex n = Some (v, o) -> access o (LPulse k) -> v = App g).
  { intros n v o E A. destruct (step_call _ _ _ _ _ _ _ _ P E) as (m & c & -> & I & J).
    assert (F : forallb (notAt k) (agentOps opt strat pulse c) = true -> False).
    { intros F. pose proof (fb_in _ _ _ F J) as Q. destruct A as [->| ->]; simpl in Q; rewrite Nat.eqb_refl in Q; discriminate. }
    destruct H as [H|H]; [exfalso; apply F, pulse_none, H|]. destruct (usesPulse strat k c) eqn:U; [f_equal; eapply H; eauto|].
    exfalso. apply F, no_pulse, U. }
  rewrite (K _ _ _ Ei Aa), (K _ _ _ Ej Ab). reflexivity.
Qed.
(** No call ever waits in a circle. *)
Theorem C100_no_deadlock opt strat pulse cs ex waiting t o rest :
  possible (agentProg opt strat pulse cs) ex ->
  (forall u m, waiting u = Some m -> started ex u /\ exists r, agentProg opt strat pulse cs u = done u ex ++ Lk m :: r) ->
  started ex t -> agentProg opt strat pulse cs t = done t ex ++ o :: rest ->
  exists u o' r, started ex u /\ agentProg opt strat pulse cs u = done u ex ++ o' :: r /\ canStep (heldAt ex (List.length ex)) waiting u o'.
Proof.
  intros P W ST T. apply (ranked_progress flatRank 1 (fun m => le_n 1) _ ex waiting t o rest P); auto.
  intros u. destruct (prog_sound opt strat pulse cs u) as (_ & A & B). auto.
Qed.

(** Replacing the decision maker while the agent decides; returning an agent to the pool while it is connected; two agents
    that share a pulse. *)
Definition yes (_ : nat) := true.
Definition same (_ : nat) := 0.
Definition decideCalls (i : nat) : list AgentCall := match i with 0 => [XPropose 0 [] false false] | 1 => [XSetDecider 0] | _ => [] end.
Definition decideRun : Exec := by_ (App 0) (firstn 11 (proposeOps yes same (fun _ => false) 0 [] false false)) ++ by_ (App 1) (setDeciderOps 0).
Theorem C100_decider_refuted : possible (agentProg yes same (fun _ => false) decideCalls) decideRun /\ race decideRun (LDecider 0).
Proof.
  split.
  - constructor.
    + intros i t o H. unfold decideRun, by_ in H. cbn in H. walk i H lockstep.
    + intros i k o H. unfold decideRun, by_ in H. cbn in H. walk i H absent.
    + intros i t k H. unfold decideRun, by_ in H. cbn in H. walk i H absent.
    + intros [[|[|i]]|k]; eexists; [vm_compute; reflexivity|vm_compute; reflexivity|simpl; reflexivity|simpl; reflexivity].
  - apply (race_by _ _ 10 11 (App 0) (App 1) (Rd (LDecider 0)) (Wr (LDecider 0))); try reflexivity; try discriminate; try lia; auto; try (right; reflexivity); try (left; reflexivity).
    intros k o L1 L2 H. assert (k = 10) by lia. subst k. cbn in H. injection H as <-. reflexivity.
Qed.
Definition poolCalls (i : nat) : list AgentCall := match i with 0 => [XClear 0] | 1 => [XConnect 0 0 false] | _ => [] end.
Definition poolRun : Exec := by_ (App 1) [Rd (LId 0)] ++ by_ (App 0) [Wr (LId 0)].
Theorem C100_name_refuted : possible (agentProg yes same yes poolCalls) poolRun /\ race poolRun (LId 0).
Proof.
  split.
  - constructor.
    + intros i t o H. unfold poolRun, by_ in H. cbn in H. walk i H lockstep.
    + intros i k o H. unfold poolRun, by_ in H. cbn in H. walk i H absent.
    + intros i t k H. unfold poolRun, by_ in H. cbn in H. walk i H absent.
    + intros [[|[|i]]|k]; eexists; [vm_compute; reflexivity|vm_compute; reflexivity|simpl; reflexivity|simpl; reflexivity].
  - apply (race_by _ _ 0 1 (App 1) (App 0) (Rd (LId 0)) (Wr (LId 0))); try reflexivity; try discriminate; try lia; auto; try (right; reflexivity); try (left; reflexivity).
    intros k o L1 L2 H. assert (k = 0) by lia. subst k. cbn in H. injection H as <-. reflexivity.
Qed.
Definition pulseCalls (i : nat) : list AgentCall := match i with 0 => [XPropose 0 [] false true] | 1 => [XPropose 1 [] false true] | _ => [] end.
Definition pulseRun : Exec :=
  by_ (App 0) (firstn 12 (proposeOps yes same yes 0 [] false true)) ++ by_ (App 1) (firstn 12 (proposeOps yes same yes 1 [] false true)).
Theorem C100_strategy_refuted : possible (agentProg yes same yes pulseCalls) pulseRun /\ race pulseRun (LPulse 0).
Proof.
  split.
  - constructor.
    + intros i t o H. unfold pulseRun, by_ in H. cbn in H. walk i H lockstep.
    + intros i k o H. unfold pulseRun, by_ in H. cbn in H. walk i H absent.
    + intros i t k H. unfold pulseRun, by_ in H. cbn in H. walk i H absent.
    + intros [[|[|i]]|k]; eexists; [vm_compute; reflexivity|vm_compute; reflexivity|simpl; reflexivity|simpl; reflexivity].
  - apply (race_by _ _ 11 23 (App 0) (App 1) (Wr (LPulse 0)) (Wr (LPulse 0))); try reflexivity; try discriminate; try lia; auto; try (right; reflexivity); try (left; reflexivity).
    intros k o L1 L2 H. do 11 (destruct k as [|k]; [lia|]). unfold pulseRun, by_ in H. cbn in H.
    walk k H ltac:(fun H => first [discriminate H | injection H as <-; reflexivity]).
Qed.

(** The hypotheses are met: two goroutines connect the same agent and write its neighbours, and ask agents of their own;
    the two agents use different strategies. *)
Definition exAgCalls (i : nat) : list AgentCall :=
  match i with 0 => [XConnect 0 1 false; XPropose 0 [1] false true] | 1 => [XConnect 0 1 false; XPropose 1 [0] false true] | _ => [] end.
Definition exAgRun : Exec :=
  by_ (App 0) (flat_map (agentOps yes (fun x => x) yes) (exAgCalls 0)) ++ by_ (App 1) (flat_map (agentOps yes (fun x => x) yes) (exAgCalls 1)).
Example C100_agents_example :
  possible (agentProg yes (fun x => x) yes exAgCalls) exAgRun /\
  (forall i c, In c (exAgCalls i) -> writesDecider 0 c = false) /\ (forall i c, In c (exAgCalls i) -> writesId 0 c = false) /\
  (forall i c, In c (exAgCalls i) -> usesPulse (fun x => x) 1 c = true -> i = 1) /\
  (exists i, nth_error exAgRun i = Some (App 0, Wr (LNeigh 0))) /\ (exists i, nth_error exAgRun i = Some (App 1, Wr (LNeigh 0))).
Proof.
  split; [|split; [|split; [|split; [|split; [exists 5|exists 30]; reflexivity]]]].
  - constructor.
    + intros i t o H. unfold exAgRun, by_ in H. cbn in H. walk i H lockstep.
    + intros i k o H. unfold exAgRun, by_ in H. cbn in H. walk i H absent.
    + intros i t k H. unfold exAgRun, by_ in H. cbn in H. walk i H absent.
    + intros [[|[|i]]|k]; eexists; [vm_compute; reflexivity|vm_compute; reflexivity|simpl; reflexivity|simpl; reflexivity].
  - intros [|[|i]] c; simpl; try tauto; intros [<-|[<-|[]]]; reflexivity.
  - intros [|[|i]] c; simpl; try tauto; intros [<-|[<-|[]]]; reflexivity.
  - intros [|[|i]] c; simpl; try tauto; intros [<-|[<-|[]]]; simpl; congruence.
Qed.
(** One goroutine holds the lock of an agent's neighbours and another one waits for it. *)
Definition exAgWait : Exec := by_ (App 0) (firstn 3 (connectOps yes 0 1 false)) ++ by_ (App 1) (firstn 2 (connectOps yes 0 1 false)).
Definition exAgWaiting (u : Tid) : option Mut := if tid_eq u (App 1) then Some (MNeigh 0) else None.
Example C100_deadlock_example :
  possible (agentProg yes (fun x => x) yes exAgCalls) exAgWait /\
  (forall u m, exAgWaiting u = Some m -> started exAgWait u /\ exists r, agentProg yes (fun x => x) yes exAgCalls u = done u exAgWait ++ Lk m :: r) /\
  ~ canStep (heldAt exAgWait (List.length exAgWait)) exAgWaiting (App 1) (Lk (MNeigh 0)).
Proof.
  split; [|split].
  - constructor.
    + intros i t o H. unfold exAgWait, by_ in H. cbn in H. walk i H lockstep.
    + intros i k o H. unfold exAgWait, by_ in H. cbn in H. walk i H absent.
    + intros i t k H. unfold exAgWait, by_ in H. cbn in H. walk i H absent.
    + intros [[|[|i]]|k]; eexists; [vm_compute; reflexivity|vm_compute; reflexivity|simpl; reflexivity|simpl; reflexivity].
  - unfold exAgWaiting. intros u m H. destruct (tid_eq u (App 1)) as [->|]; [|discriminate]. injection H as <-. split; [exact I|]. eexists. vm_compute. reflexivity.
  - intros [A _]. vm_compute in A. destruct A as [A _]. discriminate.
Qed.

Print Assumptions C100_agents_safe.
Print Assumptions C100_decider_safe.
Print Assumptions C100_name_safe.
Print Assumptions C100_strategy_safe.
Print Assumptions C100_no_deadlock.
Print Assumptions C100_decider_refuted.
Print Assumptions C100_name_refuted.
Print Assumptions C100_strategy_refuted.
