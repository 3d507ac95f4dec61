(** C98: the methods of a client called from several goroutines. *)
From Coq Require Import List Arith Lia Bool Classical.
From Verif Require Import M_Race S_Race L_Race.
Import ListNotations.

(** How each location is protected. *)
Definition class (l : Loc) : Class :=
  match l with
  | LClient | LSwarm | LGds | LMonWindow | LThreshold => Const
  | LSim | LSwarmCtx | LMetrics | LBatchStats | LCurrent | LPending _ | LCounter _ | LBurst _
  | LAgent _ | LId _ | LDecider _ | LNeigh _ | LPulse _ => Const (* not touched by the client *)
  | LSlice => Guard MAgents
  | LStrategy | LPerf => Guard MGds
  | LMonHistory => Guard MHistory
  | LTemplates => Guard MTemplates
  | LConv => Guard MConv
  | LTarget | LPattern | LMonTarget | LRecovery => Own
  end.
(** No method takes a lock while it holds one. *)
Definition flatOp (h : list (Mut * bool)) (o : Op) : Prop :=
  match o with Lk _ | RLk _ => h = [] | Ul m => h = [(m, true)] | RUl m => h = [(m, false)] | _ => True end.
Fixpoint flat (h : list (Mut * bool)) (os : list Op) : Prop :=
  match os with [] => True | o :: r => flatOp h o /\ flat (own1 h o) r end.
Lemma flat_app h a b : flat h (a ++ b) <-> flat h a /\ flat (own h a) b.
Proof. revert h. induction a as [|o a IH]; intros h; simpl; [tauto|]. rewrite IH. unfold own. simpl. tauto. Qed.
Definition good (h : list (Mut * bool)) (os : list Op) (h' : list (Mut * bool)) : Prop :=
  chk class h os /\ flat h os /\ own h os = h'.
Lemma good_nil h : good h [] h. Proof. repeat split. Qed.
Lemma good_cons h o r h' : okOp class h o -> flatOp h o -> good (own1 h o) r h' -> good h (o :: r) h'.
Proof. intros A B (C & D & E). repeat split; auto. Qed.
Lemma good_app h a h1 b h' : good h a h1 -> good h1 b h' -> good h (a ++ b) h'.
Proof.
  intros (A & B & C) (D & E & F). repeat split.
  - apply chk_app. rewrite C. auto.
  - apply flat_app. rewrite C. auto.
  - rewrite own_app, C. exact F.
Qed.
Lemma good_repeat h o k : good h [o] h -> good h (repeat o k) h.
Proof. intros G. induction k as [|k IH]; [apply good_nil|]. apply (good_app h [o] h (repeat o k) h G IH). Qed.
Lemma good_flat {A} h (f : A -> list Op) l : (forall x, good h (f x) h) -> good h (flat_map f l) h.
Proof. intros G. induction l as [|x l IH]; [apply good_nil|]. simpl. eapply good_app; [apply G|exact IH]. Qed.
Ltac norm := match goal with |- good ?h _ _ => let h' := eval vm_compute in h in change h with h' end.
Ltac good1 :=
  match goal with
  | |- good _ [] _ => apply good_nil
  | |- good _ (_ ++ _) _ => eapply good_app
  | |- good _ (if ?b then _ else _) _ => destruct b
  | |- good _ (repeat _ _) _ => apply good_repeat
  | |- good _ (flat_map _ _) _ => apply good_flat; intros ?
  | |- good _ (_ :: _) _ => apply good_cons; [cbn; auto; fail|cbn; auto; fail|norm]
  end.
Ltac good := repeat good1.

Section Good.
Variables (opt : bool) (n : nat).
Lemma good_agents : good [] (agentsOps opt n) [].
Proof. unfold agentsOps. destruct opt; good. Qed.
Lemma good_coherence : good [] (coherenceOps opt n) [].
Proof. unfold coherenceOps. destruct opt; good. Qed.
Lemma good_phases : good [] (phasesOps opt n) [].
Proof. unfold phasesOps. destruct opt; good. Qed.
Lemma good_record : good [] recordOps [].
Proof. unfold recordOps. good. Qed.
Lemma good_readMon : good [] readMonOps [].
Proof. unfold readMonOps. good. Qed.
Lemma good_resetMon : good [] resetMonOps [].
Proof. unfold resetMonOps. good. Qed.
Lemma good_resetConv : good [] resetConvOps [].
Proof. unfold resetConvOps. good. Qed.
Lemma good_readConv : good [] readConvOps [].
Proof. unfold readConvOps. good. Qed.
Lemma good_switch k : good [] (switchOps k) [].
Proof. unfold switchOps. good. Qed.
Lemma good_complete k : good [] (completeOps k) [].
Proof. unfold completeOps. good. Qed.
Ltac goodx1 := first [good1 | apply good_agents | apply good_coherence | apply good_phases | apply good_record | apply good_readMon
  | apply good_resetMon | apply good_resetConv | apply good_readConv | apply good_switch | apply good_complete].
Lemma good_achieved high : good [] (achievedOps opt n high) [].
Proof. unfold achievedOps. destruct high; repeat goodx1. Qed.
Lemma good_apply mv : good [] (applyOps opt n mv) [].
Proof. unfold applyOps. repeat goodx1. Qed.
Lemma good_noise k : good [] (noiseOps opt n k) [].
Proof. unfold noiseOps. repeat goodx1. Qed.
Lemma good_iter i : good [] (iterOps opt n i) [].
Proof.
  unfold iterOps, measureOps. destruct i as [hi wo sw te mv no]; cbn [it_high it_won it_switch it_templates it_moves it_noise].
  destruct wo, sw, no; repeat first [goodx1 | apply good_achieved | apply good_apply | apply good_noise].
Qed.
Lemma good_achieve clamp is : good [] (achieveOps opt n clamp is) [].
Proof. unfold achieveOps, setTargetOps. destruct clamp; repeat first [goodx1 | apply good_iter]. Qed.
Lemma good_call c : good [] (callOps opt n c) [].
Proof. destruct c; cbn [callOps]; repeat first [goodx1 | apply good_achieve]. Qed.
Lemma good_calls cs : good [] (callsOps opt n cs) [].
Proof. apply good_flat. apply good_call. Qed.
Lemma good_startSync k : good [] (startSyncOps k) [].
Proof. unfold startSyncOps. repeat goodx1. Qed.
Lemma good_tick : good [] (tickOps opt n) [].
Proof. unfold tickOps. repeat goodx1. Qed.
Lemma good_rounds r : forall k last heard, good [] (roundsOps opt n k r last heard) [].
Proof.
  induction r as [|[a b] r IH]; intros k last heard; cbn [roundsOps]; unfold ticksOps; [destruct heard|];
    repeat first [goodx1 | apply good_tick | apply good_startSync | apply IH].
Qed.
Lemma good_continuous fresh r last heard : good [] (continuousOps opt n fresh r last heard) [].
Proof. unfold continuousOps. destruct fresh; repeat first [goodx1 | apply good_startSync | apply good_rounds]. Qed.
Lemma good_sync k clamp is : good [] (syncOps opt n k clamp is) [].
Proof. unfold syncOps. repeat first [goodx1 | apply good_achieve]. Qed.

(** Which kinds of operations occur where. *)
Lemma fb_repeat q (o : Op) k : q o = true -> forallb q (repeat o k) = true.
Proof. intros H. induction k; simpl; [reflexivity|]. now rewrite H. Qed.
Lemma fb_flat {A} q (f : A -> list Op) l : (forall x, forallb q (f x) = true) -> forallb q (flat_map f l) = true.
Proof. intros H. induction l; simpl; [reflexivity|]. now rewrite forallb_app, H. Qed.
Lemma fb_app q (a b : list Op) : forallb q a = true -> forallb q b = true -> forallb q (a ++ b) = true.
Proof. intros. rewrite forallb_app. now rewrite H, H0. Qed.
Lemma fb_cons q (o : Op) r : q o = true -> forallb q r = true -> forallb q (o :: r) = true.
Proof. intros. simpl. now rewrite H, H0. Qed.
Ltac fb := repeat match goal with
  | |- forallb _ [] = true => reflexivity
  | |- forallb _ (_ ++ _) = true => apply fb_app
  | |- forallb _ (repeat _ _) = true => apply fb_repeat
  | |- forallb _ (flat_map _ _) = true => apply fb_flat; intros ?
  | |- forallb _ (_ :: _) = true => apply fb_cons
  | |- forallb _ (if ?b then _ else _) = true => destruct b
  | |- forallb _ (match ?b with Some _ => _ | None => _ end) = true => destruct b
  end.
(** Locks, atomics, accesses to locations that are not [Own]. *)
Definition plain (o : Op) : bool :=
  match o with Rd l => match class l with Own => false | _ => true end | Wr l => match class l with Own => false | _ => true end
  | Go _ | Send _ | Recv _ => false | _ => true end.
Lemma plain_agents : forallb plain (agentsOps opt n) = true. Proof. unfold agentsOps. fb; reflexivity. Qed.
Lemma plain_coherence : forallb plain (coherenceOps opt n) = true. Proof. unfold coherenceOps. fb; reflexivity. Qed.
Lemma plain_phases : forallb plain (phasesOps opt n) = true. Proof. unfold phasesOps. fb; reflexivity. Qed.
Definition starts (c : Call) : bool := match c with CStart _ _ => true | _ => false end.
Lemma plain_call c : starts c = false -> forallb plain (callOps opt n c) = true.
Proof.
  destruct c; intros H; try discriminate; cbn [callOps]; unfold readConvOps, resetConvOps, resetMonOps; fb;
    try reflexivity; first [apply plain_agents | apply plain_coherence].
Qed.
Lemma plain_calls cs : existsb starts cs = false -> forallb plain (callsOps opt n cs) = true.
Proof.
  unfold callsOps. induction cs as [|c cs IH]; intros H; [reflexivity|]. simpl in *. apply orb_false_iff in H. destruct H as [H1 H2].
  apply fb_app; [apply plain_call; exact H1|apply IH; exact H2].
Qed.
Lemma plain_tick : forallb (fun o => match o with Rd LRecovery => true | _ => plain o end) (tickOps opt n) = true.
Proof. unfold tickOps, coherenceOps. fb; reflexivity. Qed.
Lemma plain_startSync k : forallb (fun o => match o with Go _ => true | _ => plain o end) (startSyncOps k) = true.
Proof. unfold startSyncOps, resetConvOps, resetMonOps. fb; reflexivity. Qed.
(** A synchronisation touches everything but the recovery configuration. *)
Definition syncing (o : Op) : bool :=
  match o with Rd LRecovery | Wr LRecovery | Go _ | Send _ | Recv _ => false | _ => true end.
Lemma syncing_achieve clamp is : forallb syncing (achieveOps opt n clamp is) = true.
Proof.
  unfold achieveOps, setTargetOps, iterOps, measureOps, recordOps, readMonOps, switchOps, completeOps, achievedOps, applyOps, noiseOps,
    phasesOps, coherenceOps, agentsOps, readMonOps. fb; reflexivity.
Qed.
End Good.

Lemma fb_in q (os : list Op) o : forallb q os = true -> In o os -> q o = true.
Proof. intros H. now apply (proj1 (forallb_forall q os) H). Qed.
Lemma step_in prog ex i t o : possible prog ex -> nth_error ex i = Some (t, o) -> In o (prog t).
Proof. intros P H. destruct (step_prog _ _ _ _ _ P H) as [r ->]. apply in_elt. Qed.
Lemma plain_own o l : plain o = true -> access o l -> class l = Own -> False.
Proof. intros P [->| ->] C; simpl in P; rewrite C in P; discriminate. Qed.

(** The application: goroutine [i] makes the calls [cs i]. *)
Definition clientProg (opt : bool) (n : nat) (cs : nat -> list Call) (t : Tid) : list Op :=
  match t with App i => callsOps opt n (cs i) | Sync _ => [] end.

(** Any number of goroutines may use a client at the same time without a data race, as long as no two of them call Start. *)
Theorem C98_client_safe opt n cs o ex :
  (forall i, existsb starts (cs i) = true -> i = o) ->
  possible (clientProg opt n cs) ex -> forall l, ~ race ex l.
Proof.
  intros H P. apply (drf class _ _ P).
  - intros [i|k]; [apply good_calls|exact I].
  - intros l i j t u a b C L NE Ei Ej Aa Ab. exfalso.
    assert (K : forall k v x, nth_error ex k = Some (v, x) -> access x l -> v = App o).
    { intros k v x E A. pose proof (step_in _ _ _ _ _ P E) as I. destruct v as [v|v]; [|destruct I].
      destruct (existsb starts (cs v)) eqn:S; [f_equal; apply H; exact S|]. exfalso.
      apply (plain_own x l); auto. eapply fb_in; [apply plain_calls; exact S|exact I]. }
    rewrite (K _ _ _ Ei Aa), (K _ _ _ Ej Ab) in NE. congruence.
Qed.

(** Calls never wait for each other in a circle: whatever the goroutines have done so far, and whoever waits in Lock,
    as long as one of them is not finished some goroutine can take its next step.  Concurrent Starts included. *)
Lemma good_end os a b : good [] os [] -> os = a ++ b -> own [] a <> [] ->
  exists o r, b = o :: r /\ flatOp (own [] a) o /\ (forall m, o <> Lk m /\ o <> RLk m).
Proof.
  intros (_ & F & O) -> N. rewrite own_app in O. apply flat_app in F. destruct F as [_ F].
  destruct b as [|o r]; [exfalso; apply N; exact O|]. exists o, r. destruct F as [F _]. split; [reflexivity|]. split; [exact F|].
  intros m. split; intros ->; simpl in F; congruence.
Qed.
Theorem C98_no_deadlock opt n cs ex waiting t o rest :
  possible (clientProg opt n cs) ex ->
  (forall u m, waiting u = Some m -> exists r, clientProg opt n cs u = done u ex ++ Lk m :: r) ->
  clientProg opt n cs t = done t ex ++ o :: rest ->
  exists u o' r, clientProg opt n cs u = done u ex ++ o' :: r /\ canStep (heldAt ex (List.length ex)) waiting u o'.
Proof.
  intros P W T.
  assert (G : forall u, good [] (clientProg opt n cs u) []) by (intros [i|k]; [apply good_calls|apply good_nil]).
  set (h := heldAt ex (List.length ex)).
  assert (OW : forall u m, cnt (own [] (done u ex)) (m, true) = (if tid_eq (match wr h m with Some w => w | None => u end) u then
      match wr h m with Some _ => 1 | None => 0 end else 0) /\ cnt (own [] (done u ex)) (m, false) = rds h m u).
  { intros u m. pose proof (own_held _ _ P _ (le_n _) u m) as Q. rewrite firstn_all in Q. exact Q. }
  (* an unlock in a flat program is allowed *)
  assert (UN : forall u o', flatOp (own [] (done u ex)) o' -> (forall m, o' <> Lk m /\ o' <> RLk m) -> canStep h waiting u o').
  { intros u o' F N. split; [|intros m ->; destruct (N m); congruence].
    destruct o' as [l|l| |m|m|m|m|k|k|k]; simpl; auto; try (destruct (N m); congruence); simpl in F.
    - destruct (OW u m) as [_ Q]. rewrite F in Q. unfold cnt in Q. cbn [count_occ] in Q. destruct (key_eq (m, false) (m, false)); [lia|congruence].
    - destruct (OW u m) as [Q _]. rewrite F in Q. unfold cnt in Q. cbn [count_occ] in Q. destruct (key_eq (m, true) (m, true)); [|congruence].
      destruct (wr h m) as [w|]; [|destruct (tid_eq u u); discriminate]. destruct (tid_eq w u) as [->|]; [reflexivity|discriminate]. }
  (* whoever holds a lock can go on *)
  assert (HO : forall u m, holds h m u -> exists o' r, clientProg opt n cs u = done u ex ++ o' :: r /\ canStep h waiting u o').
  { intros u m Hh. destruct (p_prog _ _ P u) as [r R].
    assert (N : own [] (done u ex) <> []).
    { intros E. destruct (OW u m) as [Q1 Q2]. rewrite E in Q1, Q2. unfold cnt in *. simpl in *. destruct Hh as [Hh|Hh]; [|lia].
      rewrite Hh in Q1. destruct (tid_eq u u); [discriminate|congruence]. }
    destruct (good_end _ _ _ (G u) R N) as (o' & r' & -> & F & NL). exists o', r'. split; [exact R|]. apply UN; auto. }
  (* a writer either can go on or somebody holds the lock *)
  assert (LO : forall u m r, clientProg opt n cs u = done u ex ++ Lk m :: r ->
     exists u' o' r', clientProg opt n cs u' = done u' ex ++ o' :: r' /\ canStep h waiting u' o').
  { intros u m r R. destruct (wr h m) as [w|] eqn:Ew.
    - destruct (HO w m (or_introl Ew)) as (o' & r' & A & B). exists w, o', r'. auto.
    - destruct (classic (exists v, 0 < rds h m v)) as [[v Hv]|NV].
      + destruct (HO v m (or_intror Hv)) as (o' & r' & A & B). exists v, o', r'. auto.
      + exists u, (Lk m), r. split; [exact R|]. split; [|intros; discriminate]. simpl. split; [exact Ew|].
        intros v. destruct (rds h m v) eqn:E; [reflexivity|]. exfalso. apply NV. exists v. lia. }
  destruct (classic (exists m, o = Lk m \/ o = RLk m)) as [[m [->| ->]]|N].
  - eapply LO; exact T.
  - destruct (wr h m) as [w|] eqn:Ew.
    + destruct (HO w m (or_introl Ew)) as (o' & r' & A & B). exists w, o', r'. auto.
    + destruct (classic (exists u, waiting u = Some m)) as [[u Hu]|NW].
      * destruct (W u m Hu) as [r R]. eapply LO; exact R.
      * exists t, (RLk m), rest. split; [exact T|]. split; [exact Ew|]. intros m' E u Hu. injection E as <-. apply NW. now exists u.
  - exists t, o, rest. split; [exact T|]. apply UN.
    + destruct (G t) as (_ & F & _). rewrite T in F. apply flat_app in F. apply F.
    + intros m. split; intros ->; apply N; exists m; auto.
Qed.

(** "All client methods are thread-safe" (docs/client/emerge.md:209) is false: two Starts race on the target. *)
Theorem C98_client_safe_refuted opt n : exists cs ex,
  possible (clientProg opt n cs) ex /\ race ex LTarget.
Proof.
  exists (fun i => if i <? 2 then [CStart false []] else []).
  exists [(App 0, Rd LClient); (App 0, Rd LSwarm); (App 0, Wr LPattern); (App 0, Rd LSwarm); (App 0, Wr LTarget);
          (App 1, Rd LClient); (App 1, Rd LSwarm); (App 1, Wr LPattern); (App 1, Rd LSwarm); (App 1, Wr LTarget)].
  set (ex := _ : Exec).
  assert (Q : forall i t o, nth_error ex i = Some (t, o) -> exists l, access o l).
  { intros i t o H. unfold ex in H. do 10 (destruct i as [|i]; [injection H as <- <-; eexists; first [left; reflexivity|right; reflexivity]|]).
    simpl in H. destruct i; discriminate. }
  assert (NK : forall i t o, nth_error ex i = Some (t, o) ->
     (forall m, o <> Lk m /\ o <> RLk m /\ o <> Ul m /\ o <> RUl m) /\ (forall k, o <> Go k /\ o <> Recv k /\ o <> Send k)).
  { intros i t o H. destruct (Q _ _ _ H) as [l [->| ->]]; repeat split; discriminate. }
  split.
  - constructor.
    + intros i t o H. destruct (Q _ _ _ H) as [l [->| ->]]; exact I.
    + intros i k o H. unfold ex in H. do 10 (destruct i as [|i]; [discriminate|]). destruct i; discriminate.
    + intros i t k H. destruct (NK _ _ _ H) as [_ N]. destruct (N k) as (_ & N1 & _). congruence.
    + intros [i|k]; [|exists []; reflexivity]. destruct i as [|[|i]]; simpl; eexists; reflexivity.
  - exists 4, 9, (App 0), (App 1), (Wr LTarget), (Wr LTarget). repeat split; auto; try lia; try discriminate; try (right; reflexivity).
    assert (S : forall i j, before ex i j -> exists t a b, nth_error ex i = Some (t, a) /\ nth_error ex j = Some (t, b)).
    { induction 1 as [i j t a b L Ei Ej|i j t u m o L Ei Ej|i j t u m L Ei Ej|i j t k o L Ei Ej|i j t u k L Ei Ej|i j k _ IH1 _ IH2].
      - eauto 6.
      - destruct (NK _ _ _ Ei) as [N _]. destruct (N m) as (_ & _ & N1 & _). congruence.
      - destruct (NK _ _ _ Ei) as [N _]. destruct (N m) as (_ & _ & _ & N1). congruence.
      - destruct (NK _ _ _ Ei) as [_ N]. destruct (N k) as (N1 & _). congruence.
      - destruct (NK _ _ _ Ei) as [_ N]. destruct (N k) as (_ & _ & N1). congruence.
      - destruct IH1 as (t1 & a1 & b1 & A & B). destruct IH2 as (t2 & a2 & b2 & C & D). rewrite B in C. injection C as <- <-. eauto 6. }
    intros B. destruct (S _ _ B) as (t & a & b & A & C). simpl in A, C. congruence.
Qed.

(** RunContinuous in goroutine 0, which then makes the calls [cs0]; goroutine [S i] makes the calls [cs i]; [sy k] is the
    course of synchronisation [k]. *)
Definition contProg (opt : bool) (n : nat) (fresh : bool) (rounds : list (nat * nat)) (last : nat) (heard : option nat)
    (cs0 : list Call) (cs : nat -> list Call) (sy : nat -> bool * list Iter) (t : Tid) : list Op :=
  match t with
  | App 0 => continuousOps opt n fresh rounds last heard ++ callsOps opt n cs0
  | App (S i) => callsOps opt n (cs i)
  | Sync k => syncOps opt n k (fst (sy k)) (snd (sy k))
  end.

Fixpoint goOK (seen : list nat) (os : list Op) : Prop :=
  match os with
  | [] => True
  | Go (S k) :: r => In k seen /\ goOK seen r
  | Recv k :: r => goOK (k :: seen) r
  | _ :: r => goOK seen r
  end.
Lemma goOK_skip q os : (forall k, q (Go (S k)) = false) -> (forall k, q (Recv k) = false) -> forallb q os = true ->
  forall seen b, goOK seen b -> goOK seen (os ++ b).
Proof.
  intros Q1 Q2. induction os as [|o os IH]; intros F seen b G; [exact G|]. simpl in F. apply andb_true_iff in F. destruct F as [F1 F2].
  destruct o as [l|l| |m|m|m|m|[|k]|k|k]; simpl; auto; [rewrite Q1 in F1|rewrite Q2 in F1]; discriminate.
Qed.
Lemma goOK_in os : forall seen a b k, goOK seen os -> os = a ++ Go (S k) :: b -> In k seen \/ In (Recv k) a.
Proof.
  induction os as [|o os IH]; intros seen a b k G E; [destruct a; discriminate|].
  destruct a as [|x a]; simpl in E; injection E as -> E.
  - subst os. simpl in G. now left.
  - destruct x as [l|l| |m|m|m|m|[|j]|j|j]; simpl in G;
      try (destruct (IH _ _ _ _ G E) as [H|H]; [now left|right; now right]).
    + destruct G as [_ G]. destruct (IH _ _ _ _ G E) as [H|H]; [now left|right; now right].
    + destruct (IH _ _ _ _ G E) as [[->|H]|H]; [right; now left|now left|right; now right].
Qed.
Lemma split_pre {A} (x : A) pre : forall post a b, pre ++ post = a ++ x :: b -> ~ In x post -> exists c, pre = a ++ x :: c.
Proof.
  induction pre as [|p pre IH]; intros post a b E N; simpl in E.
  - exfalso. apply N. rewrite E. apply in_elt.
  - destruct a as [|y a]; simpl in E; injection E as -> E.
    + now exists pre.
    + destruct (IH _ _ _ E N) as [c ->]. now exists c.
Qed.

(** Operations after the first go statement of RunContinuous: the pattern and the monitor's target are not touched. *)
Definition late (o : Op) : bool :=
  match o with Rd LTarget | Wr LTarget | Rd LPattern | Wr LPattern | Rd LMonTarget | Wr LMonTarget | Send _ => false | _ => true end.
Lemma fb_imp (p q : Op -> bool) os : (forall o, p o = true -> q o = true) -> forallb p os = true -> forallb q os = true.
Proof. intros H F. apply forallb_forall. intros o I. apply H. eapply fb_in; eauto. Qed.
Lemma plain_late o : plain o = true -> late o = true.
Proof. destruct o as [[]|[]| | | | | | | |]; simpl; auto. Qed.
Ltac fb1 := match goal with
  | |- forallb _ [] = true => reflexivity
  | |- forallb _ (_ ++ _) = true => apply fb_app
  | |- forallb _ (flat_map _ _) = true => apply fb_flat; intros ?
  | |- forallb _ (_ :: _) = true => apply fb_cons; [reflexivity|]
  end.
Lemma late_tick opt n : forallb late (tickOps opt n) = true.
Proof. eapply fb_imp; [|apply plain_tick]. intros [[]|[]| | | | | | | |]; simpl; auto. Qed.
Lemma late_startSync k : forallb late (startSyncOps k) = true.
Proof. eapply fb_imp; [|apply plain_startSync]. intros [[]|[]| | | | | | | |]; simpl; auto. Qed.
Lemma late_rounds opt n r : forall k last heard, forallb late (roundsOps opt n k r last heard) = true.
Proof.
  induction r as [|[a b] r IH]; intros k last heard; cbn [roundsOps]; unfold ticksOps; [destruct heard|];
    repeat first [fb1 | apply late_tick | apply late_startSync | apply IH].
Qed.
Lemma goOK_rounds opt n r : forall k last heard seen b, (forall s, goOK s b) -> goOK seen (roundsOps opt n k r last heard ++ b).
Proof.
  pose (q := fun o => match o with Rd LRecovery => true | _ => plain o end).
  assert (T : forall j, forallb q (ticksOps opt n j) = true) by (intros j; apply fb_flat; intros _; apply plain_tick).
  assert (SK : forall j s c, goOK s c -> goOK s (ticksOps opt n j ++ c)) by (intros j; apply (goOK_skip q); auto).
  induction r as [|[a b] r IH]; intros k last heard seen c Hc; cbn [roundsOps].
  - destruct heard as [j|]; rewrite <- app_assoc; apply SK; simpl; [|apply Hc]. apply SK. apply Hc.
  - rewrite <- !app_assoc. apply SK. cbn [app]. cbn [goOK]. apply SK.
    apply (goOK_skip q); auto; [apply plain_tick|].
    unfold startSyncOps, resetConvOps, resetMonOps. cbn [app]. cbn [goOK]. split; [now left|]. apply IH. exact Hc.
Qed.

Section Continuous.
Variables (opt : bool) (n : nat) (fresh : bool) (rounds : list (nat * nat)) (last : nat) (heard : option nat).
Variables (cs0 : list Call) (cs : nat -> list Call) (sy : nat -> bool * list Iter).
Hypothesis no0 : existsb starts cs0 = false.
Hypothesis no : forall i, existsb starts (cs i) = false.
Let prog := contProg opt n fresh rounds last heard cs0 cs sy.
Variable ex : Exec.
Hypothesis P : possible prog ex.

Lemma plain_goOK os : forallb plain os = true -> forall s, goOK s os.
Proof. intros F s. rewrite <- (app_nil_r os). apply (goOK_skip plain); auto. exact I. Qed.
Lemma cont_go a b k : prog (App 0) = a ++ Go (S k) :: b -> In (Recv k) a.
Proof.
  intros E.
  assert (G : goOK [] (prog (App 0))).
  { unfold prog, contProg, continuousOps. rewrite <- !app_assoc. destruct fresh; unfold startSyncOps, resetConvOps, resetMonOps; cbn [app goOK];
      (apply (goOK_skip plain); [auto|auto|apply plain_coherence|]); apply goOK_rounds; apply plain_goOK; apply plain_calls; exact no0. }
  destruct (goOK_in _ _ _ _ _ G E) as [[]|H]. exact H.
Qed.
Definition pre : list Op :=
  [Rd LRecovery] ++ (if fresh then [Rd LSwarm; Wr LRecovery] else []) ++ [Rd LSwarm; Wr LPattern] ++ Rd LSwarm :: resetConvOps ++ [Rd LGds] ++ resetMonOps.
Definition post : list Op := Go 0 :: [Rd LRecovery] ++ coherenceOps opt n ++ roundsOps opt n 0 rounds last heard ++ callsOps opt n cs0.
Lemma cont_split : prog (App 0) = pre ++ post.
Proof. unfold prog, contProg, continuousOps, pre, post, startSyncOps. destruct fresh; cbn [app]; rewrite <- ?app_assoc; cbn [app]; rewrite <- ?app_assoc; reflexivity. Qed.
Lemma late_post : forallb late post = true.
Proof.
  unfold post. repeat first [fb1 | apply late_rounds].
  - eapply fb_imp; [exact plain_late|apply plain_coherence].
  - eapply fb_imp; [exact plain_late|apply plain_calls; exact no0].
Qed.
(** The pattern is prepared before anything is started. *)
Lemma cont_pre a b x k : prog (App 0) = a ++ x :: b -> late x = false -> ~ In (Go k) a.
Proof.
  rewrite cont_split. intros E L I. destruct (split_pre x pre post a b E) as [c C].
  - intros H. rewrite (fb_in _ _ _ late_post H) in L. discriminate.
  - assert (In (Go k) pre) by (rewrite C; apply in_or_app; now left).
    unfold pre in H. destruct fresh; simpl in H; decompose [or] H; discriminate || assumption.
Qed.
Lemma go_by i u k : nth_error ex i = Some (u, Go k) -> u = App 0.
Proof.
  intros E. pose proof (step_in _ _ _ _ _ P E) as I. destruct u as [[|i']|k']; [reflexivity|exfalso|exfalso]; unfold prog, contProg in I.
  - pose proof (fb_in _ _ _ (plain_calls opt n _ (no i')) I). discriminate.
  - unfold syncOps in I. apply in_app_or in I. destruct I as [[I|[]]|I]; [discriminate|]. apply in_app_or in I. destruct I as [I|[I|[]]]; [|discriminate].
    pose proof (fb_in _ _ _ (syncing_achieve opt n _ _) I). discriminate.
Qed.
Lemma send_by i u k : nth_error ex i = Some (u, Send k) -> u = Sync k.
Proof.
  intros E. pose proof (step_in _ _ _ _ _ P E) as I. destruct u as [[|i']|k']; unfold prog in I.
  - exfalso. fold prog in I. rewrite cont_split in I. apply in_app_or in I. destruct I as [I|I].
    + unfold pre in I. destruct fresh; simpl in I; decompose [or] I; discriminate || assumption.
    + pose proof (fb_in _ _ _ late_post I). discriminate.
  - exfalso. unfold contProg in I. pose proof (fb_in _ _ _ (plain_calls opt n _ (no i')) I). discriminate.
  - unfold contProg, syncOps in I. apply in_app_or in I. destruct I as [[I|[]]|I]; [discriminate|]. apply in_app_or in I. destruct I as [I|[I|[]]]; [|congruence].
    pose proof (fb_in _ _ _ (syncing_achieve opt n _ _) I). discriminate.
Qed.
(** A synchronisation reports last. *)
Lemma sync_last a b k : prog (Sync k) = a ++ Send k :: b -> b = [].
Proof.
  unfold prog, contProg, syncOps. rewrite app_assoc. intros E.
  set (body := [Rd LSwarm] ++ achieveOps opt n (fst (sy k)) (snd (sy k))) in *.
  assert (N : ~ In (Send k) body).
  { intros I. unfold body in I. apply in_app_or in I. destruct I as [[I|[]]|I]; [discriminate|].
    pose proof (fb_in _ _ _ (syncing_achieve opt n _ _) I). discriminate. }
  clearbody body. revert a E. induction body as [|y body IH]; intros a E.
  - destruct a as [|z a]; simpl in E; [congruence|]. injection E as -> E. destruct a; discriminate.
  - destruct a as [|z a]; simpl in E; injection E as -> E; [exfalso; apply N; now left|].
    eapply IH; [intros I; apply N; now right|exact E].
Qed.
Lemma started k j o : nth_error ex j = Some (Sync k, o) -> exists g, g < j /\ nth_error ex g = Some (App 0, Go k).
Proof. intros E. destruct (p_go _ _ P _ _ _ E) as (g & u & L & G). exists g. rewrite <- (go_by _ _ _ G). auto. Qed.
(** All of synchronisation [k] comes before the start of the next one. *)
Lemma sync_next k i o g : nth_error ex i = Some (Sync k, o) -> nth_error ex g = Some (App 0, Go (S k)) -> before ex i g.
Proof.
  intros Ei Eg. destruct (earlier _ _ _ _ _ (Recv k) P Eg) as (r & Lr & Er); [intros a b; apply cont_go|].
  destruct (p_chan _ _ P _ _ _ Er) as (s & u & Ls & Es). pose proof (send_by _ _ _ Es) as ->.
  assert (SR : before ex s g) by (apply b_trans with r; [eapply b_chan; eauto|eapply b_prog; eauto]).
  destruct (lt_eq_lt_dec i s) as [[L| ->]|L]; [|exact SR|].
  - apply b_trans with s; [|exact SR]. eapply b_prog; eauto.
  - exfalso. destruct (in_before _ _ _ _ _ _ _ P L Es Ei) as (a & b & E & I).
    destruct (in_split _ _ I) as (a1 & a2 & ->). rewrite <- app_assoc in E. simpl in E.
    pose proof (sync_last _ _ _ E). destruct a2; discriminate.
Qed.
Lemma sync_before k d : forall i o j o', nth_error ex i = Some (Sync k, o) -> nth_error ex j = Some (Sync (S (k + d)), o') -> before ex i j.
Proof.
  induction d as [|d IH]; intros i o j o' Ei Ej.
  - rewrite Nat.add_0_r in Ej. destruct (started _ _ _ Ej) as (g & L & G). apply b_trans with g; [eapply sync_next; eauto|eapply b_go; eauto].
  - destruct (started _ _ _ Ej) as (g & L & G). replace (k + S d) with (S (k + d)) in G, Ej by lia.
    destruct (earlier _ _ _ _ _ (Recv (S (k + d))) P G) as (r & Lr & Er); [intros a b; apply cont_go|].
    destruct (p_chan _ _ P _ _ _ Er) as (s & u & Ls & Es). pose proof (send_by _ _ _ Es) as ->.
    apply b_trans with s; [eapply IH; eauto|]. apply b_trans with r; [eapply b_chan; eauto|].
    apply b_trans with g; [eapply b_prog; eauto|eapply b_go; eauto].
Qed.
Lemma own_before l i j t u a b : class l = Own -> i < j -> t <> u -> nth_error ex i = Some (t, a) -> nth_error ex j = Some (u, b) ->
  access a l -> access b l -> before ex i j.
Proof.
  intros C L NE Ei Ej Aa Ab.
  assert (OT : forall k v x, nth_error ex k = Some (v, x) -> access x l -> (forall m, v <> App (S m)) /\ (l = LRecovery -> v = App 0)).
  { intros k v x E A. pose proof (step_in _ _ _ _ _ P E) as I. split.
    - intros m ->. unfold prog, contProg in I. apply (plain_own x l); auto. eapply fb_in; [apply plain_calls; apply no|exact I].
    - intros ->. destruct v as [[|m]|k']; [reflexivity| |]; exfalso; unfold prog, contProg in I.
      + apply (plain_own x LRecovery); auto. eapply fb_in; [apply plain_calls; apply no|exact I].
      + unfold syncOps in I. apply in_app_or in I. destruct I as [[<-|[]]|I]; [destruct A; discriminate|].
        apply in_app_or in I. destruct I as [I|[<-|[]]]; [|destruct A; discriminate].
        pose proof (fb_in _ _ _ (syncing_achieve opt n _ _) I). destruct A as [->| ->]; discriminate. }
  destruct (OT _ _ _ Ei Aa) as [T1 T2]. destruct (OT _ _ _ Ej Ab) as [U1 U2].
  assert (NR : l <> LRecovery) by (intros E; apply NE; rewrite (T2 E), (U2 E); reflexivity).
  assert (LA : forall x, access x l -> late x = false).
  { intros x [->| ->]; destruct l; simpl in *; congruence. }
  destruct t as [[|t]|k]; [|exfalso; eapply T1; reflexivity|]; (destruct u as [[|u]|k']; [|exfalso; eapply U1; reflexivity|]); try congruence.
  - (* the pattern is written before the first go *)
    destruct (started _ _ _ Ej) as (g & Lg & G). apply b_trans with g; [|eapply b_go; eauto].
    destruct (lt_eq_lt_dec i g) as [[L'| ->]|L']; [eapply b_prog; eauto| |].
    + rewrite Ei in G. injection G as ->. destruct Aa; discriminate.
    + exfalso. destruct (in_before _ _ _ _ _ _ _ P L' G Ei) as (c & d & E & I). eapply cont_pre; eauto.
  - exfalso. destruct (started _ _ _ Ei) as (g & Lg & G).
    destruct (in_before _ _ _ _ _ _ _ P (Nat.lt_trans _ _ _ Lg L) G Ej) as (c & d & E & I). eapply cont_pre; eauto.
  - destruct (lt_eq_lt_dec k k') as [[L'| ->]|L']; [|congruence|].
    + replace k' with (S (k + (k' - S k))) in Ej by lia. eapply sync_before; eauto.
    + exfalso. replace k with (S (k' + (k - S k'))) in Ei by lia. pose proof (before_lt _ _ _ (sync_before _ _ _ _ _ _ Ej Ei)). lia.
Qed.

(** The synchronisations RunContinuous starts one after another share their target without a lock and do not race,
    neither with each other nor with any other call but Start. *)
Theorem C98_continuous_safe : forall l, ~ race ex l.
Proof.
  apply (drf class _ _ P).
  - intros [[|i]|k].
    + apply (good_app [] _ [] _ []); [apply good_continuous|apply good_calls].
    + apply good_calls.
    + apply good_sync.
  - apply own_before.
Qed.
End Continuous.

Definition by_ (t : Tid) (os : list Op) : Exec := map (fun o => (t, o)) os.

(** RunContinuous returns on cancellation without waiting for the synchronisation it started: a caller that then calls
    Start, in the same goroutine, races with it. *)
Definition lingering : Exec :=
  by_ (App 0) (continuousOps false 2 false [] 0 None ++ [Rd LClient; Rd LSwarm; Wr LPattern; Rd LSwarm; Wr LTarget])
  ++ by_ (Sync 0) [Rd LSwarm; Wr LTarget].
Theorem C98_continuous_then_start_refuted :
  possible (contProg false 2 false [] 0 None [CStart false []] (fun _ => []) (fun _ => (false, []))) lingering /\ race lingering LTarget.
Proof.
  assert (K : forall i t o, nth_error lingering i = Some (t, o) -> i <= 14 \/ match o with Rd _ | Wr _ | At => True | _ => False end).
  { intros i t o H. destruct (le_lt_dec i 14) as [L|L]; [now left|]. right. do 15 (destruct i as [|i]; [lia|]).
    unfold lingering, by_ in H. simpl in H. do 12 (destruct i as [|i]; [injection H as <- <-; exact I|]). simpl in H. destruct i; discriminate. }
  split.
  - constructor.
    + intros i t o H. unfold lingering, by_ in H. simpl in H.
      do 27 (destruct i as [|i]; [injection H as <- <-; vm_compute; auto|]). simpl in H. destruct i; discriminate.
    + intros i k o H. unfold lingering, by_ in H. simpl in H.
      do 25 (destruct i as [|i]; [discriminate|]). exists 14, (App 0).
      do 2 (destruct i as [|i]; [injection H as <- <-; split; [lia|reflexivity]|]). simpl in H. destruct i; discriminate.
    + intros i t k H. unfold lingering, by_ in H. simpl in H. do 27 (destruct i as [|i]; [discriminate|]). simpl in H. destruct i; discriminate.
    + intros [[|i]|[|k]]; eexists; [vm_compute; reflexivity|simpl; reflexivity|vm_compute; reflexivity|simpl; reflexivity].
  - exists 24, 26, (App 0), (Sync 0), (Wr LTarget), (Wr LTarget). repeat split; auto; try lia; try discriminate; try (right; reflexivity).
    assert (S : forall i j, before lingering i j -> i <= 14 \/ exists t a b, nth_error lingering i = Some (t, a) /\ nth_error lingering j = Some (t, b)).
    { induction 1 as [i j t a b L Ei Ej|i j t u m o L Ei Ej|i j t u m L Ei Ej|i j t k o L Ei Ej|i j t u k L Ei Ej|i j k B1 IH1 _ IH2];
        try (destruct (K _ _ _ Ei) as [Q|[]]; now left).
      - right. eauto 6.
      - destruct IH1 as [IH1|IH1]; [now left|]. destruct IH2 as [IH2|IH2]; [left; apply before_lt in B1; lia|].
        right. destruct IH1 as (t1 & a1 & b1 & A & B). destruct IH2 as (t2 & a2 & b2 & C & D). rewrite B in C. injection C as <- <-. eauto 6. }
    intros B. destruct (S _ _ B) as [Q|(t & a & b & A & C)]; [lia|]. vm_compute in A, C. congruence.
Qed.

(** The hypotheses are met: a Start and two disruptions of the same swarm in two goroutines, both writing the history of
    the monitor. *)
Definition exCalls (i : nat) : list Call := match i with 0 => [CStart false []; CDisrupt 1] | 1 => [CDisrupt 1] | _ => [] end.
Definition exRun : Exec :=
  by_ (App 0) (callOps true 2 (CStart false [])) ++ by_ (App 1) (callOps true 2 (CDisrupt 1)) ++ by_ (App 0) (callOps true 2 (CDisrupt 1)).
Example C98_client_example :
  (forall i, existsb starts (exCalls i) = true -> i = 0) /\ possible (clientProg true 2 exCalls) exRun /\
  nth_error exRun 30 = Some (App 1, Wr LMonHistory) /\ nth_error exRun 45 = Some (App 0, Wr LMonHistory).
Proof.
  split; [intros [|[|i]]; simpl; congruence|]. split; [|split; reflexivity].
  constructor.
  - intros i t o H. unfold exRun, by_ in H. simpl in H.
    do 48 (destruct i as [|i]; [injection H as <- <-; vm_compute; auto|]). simpl in H. destruct i; discriminate.
  - intros i k o H. unfold exRun, by_ in H. simpl in H. do 48 (destruct i as [|i]; [discriminate|]). simpl in H. destruct i; discriminate.
  - intros i t k H. unfold exRun, by_ in H. simpl in H. do 48 (destruct i as [|i]; [discriminate|]). simpl in H. destruct i; discriminate.
  - intros [[|[|i]]|k]; exists []; vm_compute; reflexivity.
Qed.
(** One goroutine inside a lock, another one waiting for it. *)
Definition exWait : Exec := firstn 25 exRun ++ by_ (App 0) [Rd LClient; Rd LSwarm; At; Rd LSwarm].
Definition exWaiting (u : Tid) : option Mut := if tid_eq u (App 0) then Some MConv else None.
Example C98_deadlock_example :
  possible (clientProg true 2 exCalls) exWait /\
  (forall u m, exWaiting u = Some m -> exists r, clientProg true 2 exCalls u = done u exWait ++ Lk m :: r) /\
  ~ canStep (heldAt exWait (List.length exWait)) exWaiting (App 0) (Lk MConv).
Proof.
  split; [|split].
  - constructor.
    + intros i t o H. unfold exWait, exRun, by_ in H. simpl in H.
      do 29 (destruct i as [|i]; [injection H as <- <-; vm_compute; auto|]). simpl in H. destruct i; discriminate.
    + intros i k o H. unfold exWait, exRun, by_ in H. simpl in H. do 29 (destruct i as [|i]; [discriminate|]). simpl in H. destruct i; discriminate.
    + intros i t k H. unfold exWait, exRun, by_ in H. simpl in H. do 29 (destruct i as [|i]; [discriminate|]). simpl in H. destruct i; discriminate.
    + intros [[|[|i]]|k]; eexists; [vm_compute; reflexivity|vm_compute; reflexivity|simpl; reflexivity|simpl; reflexivity].
  - unfold exWaiting. intros u m H. destruct (tid_eq u (App 0)) as [->|]; [|discriminate]. injection H as <-. eexists. vm_compute. reflexivity.
  - intros [A _]. vm_compute in A. destruct A as [A _]. discriminate.
Qed.
(** A continuous run with one restart: both synchronisations write the target. *)
Definition exCont : Exec :=
  by_ (App 0) (firstn 20 (continuousOps false 2 false [(0, 0)] 0 None))
  ++ by_ (Sync 0) (syncOps false 2 0 false [])
  ++ by_ (App 0) (skipn 20 (continuousOps false 2 false [(0, 0)] 0 None))
  ++ by_ (Sync 1) (syncOps false 2 1 false []).
Example C98_continuous_example :
  possible (contProg false 2 false [(0, 0)] 0 None [] (fun _ => []) (fun k => (false, []))) exCont /\
  nth_error exCont 21 = Some (Sync 0, Wr LTarget) /\ (exists i, 21 < i /\ nth_error exCont i = Some (Sync 1, Wr LTarget)).
Proof.
  split; [|split; [reflexivity|exists 53; split; [lia|reflexivity]]].
  constructor.
  - intros i t o H. unfold exCont, by_ in H. simpl in H.
    do 64 (destruct i as [|i]; [injection H as <- <-; vm_compute; auto|]). simpl in H. destruct i; discriminate.
  - intros i k o H. unfold exCont, by_ in H. simpl in H.
    do 20 (destruct i as [|i]; [discriminate|]).
    do 12 (destruct i as [|i]; [injection H as <- <-; exists 14, (App 0); split; [lia|reflexivity]|]).
    do 20 (destruct i as [|i]; [discriminate|]).
    do 12 (destruct i as [|i]; [injection H as <- <-; exists 51, (App 0); split; [lia|reflexivity]|]).
    simpl in H. destruct i; discriminate.
  - intros i t k H. unfold exCont, by_ in H. simpl in H.
    do 32 (destruct i as [|i]; [discriminate|]). destruct i as [|i]; [injection H as <- <-; exists 31, (Sync 0); split; [lia|reflexivity]|].
    do 31 (destruct i as [|i]; [discriminate|]). simpl in H. destruct i; discriminate.
  - intros [[|i]|[|[|k]]]; eexists; [vm_compute; reflexivity|simpl; reflexivity|vm_compute; reflexivity|vm_compute; reflexivity|simpl; reflexivity].
Qed.

Print Assumptions C98_client_safe.
Print Assumptions C98_no_deadlock.
Print Assumptions C98_client_safe_refuted.
Print Assumptions C98_continuous_safe.
Print Assumptions C98_continuous_then_start_refuted.
