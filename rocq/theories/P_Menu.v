(** Property theorems C74 (menu), C75 (assessment), C76 (text display), C77 (scripted controller). *)
From Coq Require Import ZArith List Bool String Ascii Lia DecimalString.
From Verif Require Import Num F64 M_GoalConfig M_Scale M_ReqPattern M_Controller M_Menu P_Controller L_TrigZero.
Import ListNotations.
Open Scope list_scope.
Open Scope Z_scope.

(** The rune of a key as typed in either case. *)
Definition typed (c : ascii) (k : Z) : Prop := keyed (String c EmptyString) k.

(** ** C74 *)
(** The key of an entry leads to the goal that the entry highlights, and changes nothing else. *)
Theorem C74_goal_keys : forall cur e term esc c k, In e (goalMenu cur) -> special esc -> typed (en_key e) k ->
  leadsTo (pressKey term esc c k) (fun c' => (en_bold e = true <-> mc_goal c' = cur) /\ mc_scale c' = mc_scale c /\ mc_pattern c' = mc_pattern c).
Proof.
  intros cur e term esc c k HI HE HK.
  assert (X : exists g, g <> OtherGoal /\ leadsTo (pressKey term esc c k) (fun c' => mc_goal c' = g /\ mc_scale c' = mc_scale c /\ mc_pattern c' = mc_pattern c) /\ (en_bold e = true <-> g = cur)).
  { cbn in HI. unfold typed in HK.
    repeat (destruct HI as [<-|HI];
      [cbn [en_key en_bold fst snd] in *;
       match goal with |- context [goalEqb cur ?h] => exists h; split; [discriminate|]; split; [|destruct cur; cbn; intuition congruence] end;
       first [apply C52_goal_keys; auto; discriminate
             |apply C52_rhythm; auto; destruct HK as (ch & Ec & HK); injection Ec as <-; exists "m"%char; split; [reflexivity|];
              change (rune "M") with 77 in HK; change (rune "m") with 109; lia]|]). destruct HI. }
  destruct X as (g & _ & L & B). destruct (pressKey term esc c k) as [c'|[c'|]]; cbn [leadsTo] in *; try tauto; destruct L as (-> & L2 & L3); auto.
Qed.
Theorem C74_one_goal : forall cur, cur <> OtherGoal -> List.length (filter en_bold (goalMenu cur)) = 1%nat.
Proof. intros [] H; try congruence; reflexivity. Qed.
(** The key of a scale leads to that scale; it is highlighted exactly when the assessment of that scale shows a
    tick, although the menu uses another count for the largest scale. *)
Theorem C74_scale_keys : forall cur e term esc c k, In e (scaleMenu cur) -> special esc -> typed (en_key e) k ->
  leadsTo (pressKey term esc c k) (fun c' => (en_bold e = true <-> fst (scaleMark cur (mc_scale c')) = "  ✓"%string) /\ mc_goal c' = mc_goal c /\ mc_pattern c' = mc_pattern c).
Proof.
  intros cur e term esc c k HI HE HK.
  assert (X : exists s, leadsTo (pressKey term esc c k) (fun c' => mc_scale c' = s /\ mc_goal c' = mc_goal c /\ mc_pattern c' = mc_pattern c) /\ (en_bold e = true <-> fst (scaleMark cur s) = "  ✓"%string)).
  { cbn in HI. unfold typed in HK. 
    assert (G : forall ch s, en_key e = ch -> rune ch = 49 + s -> 0 <= s <= 4 -> leadsTo (pressKey term esc c k) (fun c' => mc_scale c' = s /\ mc_goal c' = mc_goal c /\ mc_pattern c' = mc_pattern c)).
    { intros ch s <- E R. apply C52_scale_keys; auto. destruct HK as (c0 & Ec & HK). injection Ec as <-. change (rune "1") with 49. lia. }
    destruct HI as [<-|[<-|[<-|[<-|[<-|[]]]]]]; cbn [en_bold fst snd];
      [exists 0|exists 1|exists 2|exists 3|exists 4]; (split; [eapply G; [reflexivity|reflexivity|lia]|destruct cur; vm_compute; intuition congruence]). }
  destruct X as (g & L & B). destruct (pressKey term esc c k) as [c'|[c'|]]; cbn [leadsTo] in *; try tauto; destruct L as (-> & L2 & L3); auto.
Qed.
Section Patterns.
Variable tr : Trig.
Let NF := FNum tr.
Local Existing Instance NF.
(** The key of a pattern leads to it (unless it is the one chosen automatically, see C52); the highlighted ones are
    those whose assessment shows a tick. *)
Theorem C74_pattern_keys : forall cur s e term esc c k, In e (patternMenu cur s) -> special esc -> typed (en_key e) k ->
  (term = false \/ mc_pattern c <> Unset) ->
  leadsTo (pressKey term esc c k) (fun c' => (en_bold e = true <-> exists col, patternMark cur s (mc_pattern c') = Some ("  ✓"%string, col)) /\ mc_goal c' = mc_goal c /\ mc_scale c' = mc_scale c).
Proof.
  intros cur s e term esc c k HI HE HK HT.
  assert (X : exists p, leadsTo (pressKey term esc c k) (fun c' => mc_pattern c' = p /\ mc_goal c' = mc_goal c /\ mc_scale c' = mc_scale c) /\ (en_bold e = true <-> exists col, patternMark cur s p = Some ("  ✓"%string, col))).
  { assert (B : forall p, goodQualifier (GetQualifier (goalInt cur) (DefaultAgentCount s) p) = true <-> exists col, patternMark cur s p = Some ("  ✓"%string, col)).
    { intros p. unfold patternMark, goodQualifier. set (q := GetQualifier _ _ _). destruct (q =? "optimal")%string; cbn [orb]; [split; eauto|].
      destruct ((q =? "excellent")%string || (q =? "good")%string); [split; eauto|].
      destruct (q =? "fair")%string; [split; [discriminate|intros [col H]; discriminate]|]. destruct (q =? "poor")%string; split; try discriminate; intros [col H]; discriminate. }
    assert (G : forall p, 1 <= p <= 5 -> keyed (PatternShortKey p) k -> leadsTo (pressKey term esc c k) (fun c' => mc_pattern c' = p /\ mc_goal c' = mc_goal c /\ mc_scale c' = mc_scale c)).
    { intros p Hp Hk. apply C52_pattern_keys; auto. intros (A1 & A2 & _). destruct HT; congruence. }
    unfold patternMenu, menuPatterns in HI. cbn [map fst snd] in HI. unfold typed in HK.
    destruct HI as [<-|[<-|[<-|[<-|[<-|[]]]]]]; cbn [en_key en_bold] in *;
      [exists HighFrequency|exists Burst|exists Steady|exists Mixed|exists Sparse]; (split; [apply G; [unfold HighFrequency, Burst, Steady, Mixed, Sparse; lia|]|apply B]);
      destruct HK as (ch & Ec & HK); injection Ec as <-;
      match type of HK with context [rune ?x] => let r := eval vm_compute in (rune x) in change (rune x) with r in HK end;
      match goal with |- keyed ?x _ => let r := eval vm_compute in x in change x with r end;
      match goal with |- keyed (String ?x _) _ => exists x; split; [reflexivity|]; let r := eval vm_compute in (rune x) in change (rune x) with r; lia end. }
  destruct X as (g & L & B). destruct (pressKey term esc c k) as [c'|[c'|]]; cbn [leadsTo] in *; try tauto; destruct L as (-> & L2 & L3); auto.
Qed.
End Patterns.
(** The actions line tells the truth. *)
Theorem C74_action_keys : forall a esc k, In a menuActions -> special esc -> typed (fst a) k ->
  exists e, keyEvent esc k = Some e /\ In (snd a, e) [("Disrupt"%string, EventDisrupt); ("Reset"%string, EventReset); ("Pause"%string, EventPause); ("Quit"%string, EventQuit)].
Proof.
  intros a esc k HI HE HK. unfold typed in HK. cbn in HI.
  destruct HI as [<-|[<-|[<-|[<-|[]]]]]; cbn [fst snd] in *; key_cases HK; try lia; rewrite key_esc by (assumption || lia); eexists; (split; [reflexivity|cbn; tauto]).
Qed.
(** No hidden keys: whatever key does something is in the menu, except the space bar and Escape. *)
Definition listed (cur : Goal) (tr : Trig) (s : Z) : list ascii :=
  map en_key (goalMenu cur) ++ map en_key (@patternMenu _ (FNum tr) cur s) ++ map en_key (scaleMenu cur) ++ map fst menuActions.
Theorem C74_no_hidden_keys : forall cur tr s esc k, keyEvent esc k <> None -> k = rune " " \/ k = esc \/ exists c, In c (listed cur tr s) /\ typed c k.
Proof.
  intros cur tr s esc k H.
  assert (L : listed cur tr s = ["B";"L";"C";"T";"E";"M";"F";"A";"H";"U";"Y";"X";"Z";"1";"2";"3";"4";"5";"D";"R";"P";"Q"]%char) by reflexivity. rewrite L. clear L.
  assert (O : forall a b, oneOf k a b = true -> k = rune a \/ k = rune b).
  { intros a b Q. unfold oneOf in Q. apply orb_true_iff in Q. destruct Q as [Q|Q]; apply Z.eqb_eq in Q; auto. }
  unfold keyEvent in H.
  repeat match type of H with
  | (if oneOf k ?a ?b then _ else _) <> _ => let E := fresh "E" in destruct (oneOf k a b) eqn:E;
      [apply O in E; right; right; exists b; split; [cbn; tauto|];
       exists b; split; [reflexivity|]; let ra := eval vm_compute in (rune a) in change (rune a) with ra in E; let rb := eval vm_compute in (rune b) in change (rune b) with rb in *; lia|]
  | (if Z.eqb k (rune " ") then _ else _) <> _ => destruct (Z.eqb_spec k (rune " ")) as [?|?]; [now left|]
  | (if Z.eqb k esc then _ else _) <> _ => destruct (Z.eqb_spec k esc) as [?|?]; [now (right; left)|]
  | (if Z.eqb k (rune ?c) then _ else _) <> _ => let E := fresh "E" in destruct (Z.eqb_spec k (rune c)) as [E|E]; [right; right; exists c; split; [cbn; tauto|exists c; split; [reflexivity|now left]]|]
  end.
  exact (False_ind _ (H eq_refl)).
Qed.
(** The name of a scale carries its agent count. *)
Theorem C74_scale_name : forall s, 0 <= s <= 4 ->
  exists w, DisplayName s = (w ++ " SWARM (" ++ NilZero.string_of_int (Z.to_int (DefaultAgentCount s)) ++ " workloads)")%string.
Proof.
  intros s H. assert (D : s = 0 \/ s = 1 \/ s = 2 \/ s = 3 \/ s = 4) by lia.
  destruct D as [->|[->|[->|[->| ->]]]]; [exists "TINY"%string|exists "SMALL"%string|exists "MEDIUM"%string|exists "LARGE"%string|exists "HUGE"%string]; reflexivity.
Qed.
(** The capital letter of a small one. *)
Definition upper (c : ascii) : ascii := let n := nat_of_ascii c in if (97 <=? n)%nat && (n <=? 122)%nat then ascii_of_nat (n - 32) else c.
(** The menu recommends each scale for the agent count of the scale, except the last: it asks about 5000 agents where
    the scale has 2000.  No goal separates the two, so the highlighted scales are exactly those with a tick on the welcome screen. *)
Theorem C74_scale_counts : forall k name s n, In (k, name, s, n) menuScales ->
  (exists w, DisplayName s = (w ++ " SWARM (" ++ NilZero.string_of_int (Z.to_int (DefaultAgentCount s)) ++ " workloads)")%string /\ map upper (list_ascii_of_string name) = list_ascii_of_string w) /\
  (n = DefaultAgentCount s <-> s <> Huge) /\ (s = Huge -> n = 5000 /\ DefaultAgentCount s = 2000) /\
  forall g, In (mkEntry k name (String.eqb (fst (scaleMark g s)) "  ✓")) (scaleMenu g).
Proof.
  intros k name s n H. assert (W : exists w, DisplayName s = (w ++ " SWARM (" ++ NilZero.string_of_int (Z.to_int (DefaultAgentCount s)) ++ " workloads)")%string /\ map upper (list_ascii_of_string name) = list_ascii_of_string w).
  { cbn in H; repeat (destruct H as [H|H]; [injection H as <- <- <- <-|]); [exists "TINY"%string|exists "SMALL"%string|exists "MEDIUM"%string|exists "LARGE"%string|exists "HUGE"%string|contradiction]; split; reflexivity. }
  split; [exact W|]. clear W.
  cbn in H; repeat (destruct H as [H|H]; [injection H as <- <- <- <-|]); try contradiction; (split; [vm_compute; split; congruence|split; [vm_compute; intros; try discriminate; auto|]]); intros g; destruct g; vm_compute; tauto.
Qed.
(** Typing 'm' while batching is active meets the hypotheses. *)
Example C74_applies : In (mkEntry "M" "Rhythm" false) (goalMenu MinimizeAPICalls) /\ typed "M" 109 /\ special (-27) /\
  In (mkEntry "5" "Huge" false) (scaleMenu ReachConsensus) /\ In (mkEntry "1" "Tiny" true) (scaleMenu MinimizeLatency).
Proof.
  split; [cbn; tauto|]. split; [exists "M"%char; split; [reflexivity|right; left; split; [split; discriminate|reflexivity]]|]. split; [reflexivity|]. split; cbn; tauto.
Qed.

(** ** C75 *)
Section Assess.
Variable tr : Trig.
Let NF := FNum tr.
Local Existing Instance NF.
Ltac goals_scales g s :=
  let S := fresh "S" in
  assert (S : exists n, In n [20; 50; 200; 1000; 2000] /\ DefaultAgentCount s = n) by
    (eexists; split; [|reflexivity]; unfold DefaultAgentCount, onScale; repeat match goal with |- context [if ?b then _ else _] => destruct b end; cbn; tauto);
  let n := fresh "n" in let I := fresh "I" in let E := fresh "E" in
  destruct S as (n & I & E); rewrite ?E; cbn in I; destruct I as [<-|[<-|[<-|[<-|[<-|[]]]]]]; destruct g.
(** The mark beside the name and the assessment below always agree, and there always is a mark. *)
Theorem C75_mark : forall g s p, exists m, patternMark g s p = Some (m, snd (patternStatus g s p)) /\
  In (m, fst (patternStatus g s p)) [("  ✓", "Optimal"); ("  ✓", "Good"); ("  ⚠", "Fair"); ("  ✗", "Poor")]%string.
Proof.
  intros g s p. unfold patternMark, patternStatus.
  assert (Q : In (GetQualifier (goalInt g) (DefaultAgentCount s) p) ["optimal"; "excellent"; "good"; "fair"; "poor"]%string).
  { unfold GetQualifier. repeat match goal with |- context [if ?b then _ else _] => destruct b end; cbn; tauto. }
  set (q := GetQualifier _ _ _) in *. clearbody q. cbn in Q. destruct Q as [<-|[<-|[<-|[<-|[<-|[]]]]]]; eexists; (split; [reflexivity|cbn; tauto]).
Qed.
(** The automatically chosen pattern is always assessed as good. *)
Theorem C75_auto_good : forall g s, exists col, patternMark g s (BestPatternForGoal (goalInt g)) = Some ("  ✓"%string, col).
Proof. intros g s. unfold patternMark. goals_scales g s; exists CGreen; vm_compute; reflexivity. Qed.
(** A chosen pattern is always explained. *)
Theorem C75_explained : forall g s p, p <> Unset -> shownReason g s p <> ""%string.
Proof.
  intros g s p H. unfold shownReason. generalize (goodQualifier (GetQualifier (goalInt g) (DefaultAgentCount s) p)). intros b.
  unfold getPatternReason. rewrite (proj2 (Z.eqb_neq _ _) H). destruct (lookupReason g p b) as [r|] eqn:E.
  - unfold lookupReason in E. destruct (find _ reasons) as [x|] eqn:Fx; [|discriminate]. injection E as <-. apply find_some in Fx as [I _].
    assert (A : forallb (fun x => negb (snd x =? "")%string) reasons = true) by reflexivity. rewrite forallb_forall in A. apply A in I. intros Z. rewrite Z in I. discriminate.
  - destruct b, g; discriminate.
Qed.
(** The reason given for a good pattern is not the one the table gives for it being bad, with one exception. *)
Theorem C75_reason : forall g s p, 1 <= p <= 5 -> ~ (g = RecoverFromFailure /\ p = Mixed) ->
  goodQualifier (GetQualifier (goalInt g) (DefaultAgentCount s) p) = true ->
  shownReason g s p <> getPatternReason g p false.
Proof.
  intros g s p Hp N. unfold shownReason. assert (D : p = 1 \/ p = 2 \/ p = 3 \/ p = 4 \/ p = 5) by lia.
  destruct D as [->|[->|[->|[->| ->]]]]; goals_scales g s; try (exfalso; apply N; split; reflexivity); vm_compute; congruence.
Qed.
(** The exception: the pattern assessed as best for recovery is explained by the reason against it, at every scale. *)
Theorem C75_reason_refuted : exists g p, forall s, fst (patternStatus g s p) = "Optimal"%string /\ p = BestPatternForGoal (goalInt g) /\
  shownReason g s p = getPatternReason g p false /\ shownReason g s p = " (unpredictable recovery timing)"%string.
Proof.
  exists RecoverFromFailure, Mixed. intros s. unfold patternStatus, shownReason.
  assert (S : exists n, In n [20; 50; 200; 1000; 2000] /\ DefaultAgentCount s = n).
  { eexists. split; [|reflexivity]. unfold DefaultAgentCount, onScale. repeat match goal with |- context [if ?b then _ else _] => destruct b end; cbn; tauto. }
  destruct S as (n & I & ->). cbn in I. destruct I as [<-|[<-|[<-|[<-|[<-|[]]]]]]; vm_compute; auto.
Qed.
(** The scale is called poor in exactly these cases, with these reasons. *)
Theorem C75_scale : forall g s, 0 <= s <= 4 ->
  (fst (fst (scaleStatus g s)) = "Poor"%string <->
     (g = ReachConsensus /\ (s = Tiny \/ s = Huge)) \/ ((g = MinimizeLatency \/ g = SaveEnergy) /\ (s = Large \/ s = Huge)) \/ (g = AdaptToTraffic /\ s = Huge)) /\
  (fst (fst (scaleStatus g s)) = "Poor"%string -> In (g, s, snd (scaleStatus g s))
     [(ReachConsensus, Tiny, " (too few voices for quorum)"); (ReachConsensus, Huge, " (too many agents slows consensus)");
      (MinimizeLatency, Large, " (more hops between agents)"); (MinimizeLatency, Huge, " (more hops between agents)");
      (SaveEnergy, Large, " (too many agents drain power)"); (SaveEnergy, Huge, " (too many agents drain power)"); (AdaptToTraffic, Huge, " (slow to adapt)")]%string) /\
  (fst (fst (scaleStatus g s)) = "Poor" \/ fst (fst (scaleStatus g s)) = "Good")%string /\
  (g <> OtherGoal -> snd (scaleStatus g s) <> ""%string) /\ scaleMark g s = (if (fst (fst (scaleStatus g s)) =? "Good")%string then ("  ✓"%string, CGreen) else ("  ✗"%string, CRed)).
Proof.
  intros g s H. assert (D : s = 0 \/ s = 1 \/ s = 2 \/ s = 3 \/ s = 4) by lia.
  destruct D as [->|[->|[->|[->| ->]]]]; destruct g; vm_compute; intuition congruence.
Qed.
(** Best and worst case are described differently for every goal, and being all together is called the best case exactly
    where agents should act together and the worst case exactly where they should not. *)
Definition together (t : string) : Prop := index 0 "synchronized" t <> None \/ index 0 "Synchronized" t <> None \/ index 0 "simultaneously" t <> None.
Theorem C75_best_worst : forall g, fst (bestWorst g) <> snd (bestWorst g) /\ (forall h, bestWorst g = bestWorst h -> g = h) /\
  (together (fst (bestWorst g)) <-> g = MinimizeAPICalls \/ g = MinimizeLatency) /\
  (together (snd (bestWorst g)) <-> g = DistributeLoad \/ g = SaveEnergy \/ g = AdaptToTraffic).
Proof.
  intros g. split; [destruct g; discriminate|]. split; [intros h; destruct g, h; try reflexivity; discriminate|].
  unfold together. destruct g; cbn; intuition congruence.
Qed.
End Assess.
Example C75_applies : @goodQualifier (@GetQualifier F (FNum flatTrig) (goalInt DistributeLoad) (DefaultAgentCount Small) Steady) = true.
Proof. vm_compute. reflexivity. Qed.

(** ** C76 *)
(** The calls of Update: the two clock readings, never going back. *)
Fixpoint clock (t : Z) (l : list (Z * Z)) : Prop :=
  match l with [] => True | (now, stamp) :: r => t <= now <= stamp /\ clock stamp r end.
(** The calls and whether they print. *)
Fixpoint textRun (d : TextDisplay) (l : list (Z * Z)) : list (Z * Z * bool) :=
  match l with [] => [] | (now, stamp) :: r => let q := textUpdate d now stamp in (now, stamp, snd q) :: textRun (fst q) r end.
Definition lastOk (d : TextDisplay) (t : Z) : Prop := match td_last d with Some l => l <= t | None => True end.
(** Two printed lines are at least the interval apart (from the reading stored with the first to the reading of the second). *)
Theorem C76_apart : forall l t d pre now1 stamp1 mid now2 stamp2 post, 0 <= td_interval d -> clock t l -> lastOk d t ->
  textRun d l = pre ++ ((now1, stamp1), true) :: mid ++ ((now2, stamp2), true) :: post -> td_interval d <= now2 - stamp1.
Proof.
  intros l t d pre n1 s1 mid n2 s2 post HI. revert t d pre HI. induction l as [|[now stamp] l IH]; intros t d pre HI HC HL E; [destruct pre; discriminate|].
  cbn [textRun] in E. destruct HC as [HC1 HC]. destruct (textUpdate d now stamp) as [d' b] eqn:U. cbn [fst snd] in E.
  assert (ID : td_interval d' = td_interval d). { unfold textUpdate in U. destruct (td_last d); [destruct (_ <? _)|]; injection U as <- <-; reflexivity. }
  assert (L' : lastOk d' stamp). { unfold textUpdate, lastOk in *. destruct (td_last d) eqn:Q; [destruct (_ <? _)|]; injection U as <- <-; cbn; rewrite ?Q; lia. }
  destruct pre as [|z pre].
  - injection E as -> -> -> E. assert (LS : td_last d' = Some s1). { unfold textUpdate in U. destruct (td_last d); [destruct (_ <? _)|]; now injection U as <-. }
    clear IH. revert d' U ID L' LS E. revert HC. generalize s1 at 1 2 3 as t0.
    intros t0 HC d' U ID L' LS E. rewrite <- ID.
    assert (G : forall l d' t0 mid, td_last d' = Some s1 -> s1 <= t0 -> clock t0 l -> textRun d' l = mid ++ ((n2, s2), true) :: post -> 0 <= td_interval d' -> td_interval d' <= n2 - s1).
    { clear. intros l. induction l as [|[now stamp] l IH]; intros d' t0 mid LS Ht HC E HI; [destruct mid; discriminate|].
      cbn [textRun] in E. destruct HC as [HC1 HC]. unfold textUpdate in E. rewrite LS in E. destruct (Z.ltb_spec (now - s1) (td_interval d')) as [Q|Q]; cbn [fst snd] in E.
      - destruct mid as [|z mid]; [discriminate|]. injection E as <- E. apply (IH d' stamp mid); auto. lia.
      - destruct mid as [|z mid]; [injection E as -> -> _; lia|]. injection E as <- E.
        assert (MON : forall l d t0 mid, clock t0 l -> textRun d l = mid ++ ((n2, s2), true) :: post -> t0 <= n2).
        { clear. intros l. induction l as [|[now stamp] l IH]; intros d t0 mid HC E; [destruct mid; discriminate|]. cbn [textRun] in E. destruct HC as [HC1 HC]. destruct mid as [|z mid]; [injection E as -> -> _ _; lia|]. injection E as _ E. apply (IH _ stamp _ HC) in E. lia. }
        apply (MON _ _ stamp _ HC) in E. lia. }
    apply (G l d' t0 mid); auto; [|lia]. unfold lastOk in L'. rewrite LS in L'. exact L'.
  - injection E as _ E. rewrite <- ID. apply (IH stamp d' pre); auto. lia.
Qed.
(** The first call prints, and a call that does not print comes less than the interval after one that did. *)
Theorem C76_fresh : forall l t d pre now stamp post, clock t l -> td_last d = None ->
  textRun d l = pre ++ ((now, stamp), false) :: post ->
  exists pre1 now0 stamp0 mid, pre = pre1 ++ ((now0, stamp0), true) :: mid /\ now - stamp0 < td_interval d.
Proof.
  intros l t d pre now stamp post HC HN E.
  assert (G : forall l d pre now stamp post, textRun d l = pre ++ ((now, stamp), false) :: post ->
    (exists q, td_last d = Some q /\ now - q < td_interval d) \/ exists pre1 now0 stamp0 mid, pre = pre1 ++ ((now0, stamp0), true) :: mid /\ now - stamp0 < td_interval d).
  { clear. intros l. induction l as [|[n s] l IH]; intros d pre now stamp post E; [destruct pre; discriminate|].
    cbn [textRun] in E. destruct (textUpdate d n s) as [d' b] eqn:U. cbn [fst snd] in E.
    assert (ID : td_interval d' = td_interval d). { unfold textUpdate in U. destruct (td_last d); [destruct (_ <? _)|]; injection U as <- <-; reflexivity. }
    destruct pre as [|z pre].
    - injection E as -> -> -> _. left. unfold textUpdate in U. destruct (td_last d) as [q|]; [|discriminate]. exists q. split; [reflexivity|]. destruct (Z.ltb_spec (now - q) (td_interval d)); [lia|discriminate].
    - injection E as <- E. destruct (IH d' pre now stamp post E) as [(q & Q & Hq)|(p1 & n0 & s0 & mid & -> & Hm)].
      + destruct b.
        * right. exists [], n, s, pre. split; [reflexivity|]. unfold textUpdate in U. assert (td_last d' = Some s) by (destruct (td_last d); [destruct (_ <? _)|]; injection U as <-; auto; discriminate). rewrite <- ID. congruence.
        * left. exists q. assert (d' = d) as -> by (unfold textUpdate in U; destruct (td_last d); [destruct (_ <? _); [now injection U|discriminate]|discriminate]). auto.
      + right. exists ((n, s, b) :: p1), n0, s0, mid. split; [reflexivity|]. lia. }
  destruct (G l d pre now stamp post E) as [(q & Q & _)|H]; [congruence|exact H].
Qed.
(** The text display prints its first line at once, and then never two lines within one second. *)
Theorem C76_second : forall l t, clock t l ->
  (forall now stamp r, l = (now, stamp) :: r -> exists q, textRun NewTextDisplay l = ((now, stamp), true) :: q) /\
  (forall pre now1 stamp1 mid now2 stamp2 post, textRun NewTextDisplay l = pre ++ ((now1, stamp1), true) :: mid ++ ((now2, stamp2), true) :: post -> now2 - stamp1 >= 10 ^ 9) /\
  (forall pre now stamp post, textRun NewTextDisplay l = pre ++ ((now, stamp), false) :: post ->
     exists pre1 now0 stamp0 mid, pre = pre1 ++ ((now0, stamp0), true) :: mid /\ now - stamp0 < 10 ^ 9).
Proof.
  intros l t C. split; [|split].
  - intros now stamp r ->. eexists. reflexivity.
  - intros. pose proof (C76_apart l t NewTextDisplay pre now1 stamp1 mid now2 stamp2 post ltac:(discriminate) C I H) as A. change (td_interval NewTextDisplay) with (10 ^ 9) in A. lia.
  - intros. exact (C76_fresh l t NewTextDisplay pre now stamp post C eq_refl H).
Qed.
(** Three calls, 0.4 s apart and then 0.7 s: the second is skipped, the third printed. *)
Example C76_applies : clock 0 [(0, 1); (400000000, 400000001); (1100000000, 1100000001)] /\
  textRun NewTextDisplay [(0, 1); (400000000, 400000001); (1100000000, 1100000001)] = [(0, 1, true); (400000000, 400000001, false); (1100000000, 1100000001, true)].
Proof. split; [cbn; lia|reflexivity]. Qed.

(** ** C77 *)
Definition waits (l : list Z) : Z := fold_right (fun d s => Z.max 0 d + s) 0 l.
Lemma waits_nonneg l : 0 <= waits l. Proof. induction l as [|d l IH]; [reflexivity|]. change (0 <= Z.max 0 d + waits l). lia. Qed.
(** [begun a]: the events whose sleep has been started. *)
Definition sent (a : Auto) : list Event := au_got a ++ au_chan a.
Definition begun (a : Auto) : nat := (List.length (sent a) + match au_sleep a with Some _ => 1 | None => 0 end)%nat.
Definition autoInv (script : list Event) (delays : list Z) (a : Auto) : Prop :=
  sent a ++ au_script a = script /\ (List.length (au_chan a) <= 10)%nat /\
  au_delays a = skipn (begun a) delays /\ au_time a = waits (firstn (begun a) delays) /\ (au_script a = [] -> au_sleep a = None).
Lemma skipn_S {A} n (l : list A) d r : skipn n l = d :: r -> skipn (S n) l = r /\ exists x, firstn (S n) l = firstn n l ++ [d] /\ x = d.
Proof.
  revert l. induction n as [|n IH]; intros [|y l] H; cbn in *; try discriminate.
  - injection H as -> ->. split; [reflexivity|]. exists d. auto.
  - destruct (IH l H) as [A1 (x & B1 & C1)]. split; [exact A1|]. exists x. rewrite <- B1. auto.
Qed.
Lemma waits_app l m : waits (l ++ m) = waits l + waits m.
Proof. induction l; cbn [app waits fold_right]; [reflexivity|]. change (fold_right _ 0 (l ++ m)) with (waits (l ++ m)). change (fold_right _ 0 l) with (waits l). lia. Qed.
Lemma skipn_nil_S {A} n (l : list A) : skipn n l = [] -> skipn (S n) l = [] /\ firstn (S n) l = firstn n l.
Proof.
  intros H. assert (L : (List.length l <= n)%nat). { assert (Q := f_equal (@List.length A) H). rewrite skipn_length in Q. cbn in Q. lia. }
  rewrite !firstn_all2, skipn_all2 by lia. auto.
Qed.
Lemma autoInv_step script delays a m a' : autoInv script delays a -> aStep a m = Some a' -> autoInv script delays a'.
Proof.
  intros (I1 & I2 & I3 & I4 & I5) H. destruct m; cbn [aStep] in H.
  - destruct (au_script a) as [|e es] eqn:ES; [discriminate|]. destruct (au_sleep a) as [q|] eqn:SL; [discriminate|].
    assert (B : begun a = List.length (sent a)) by (unfold begun; rewrite SL; lia). rewrite B in *.
    destruct (au_delays a) as [|d ds] eqn:DL; injection H as <-; unfold autoInv, begun, sent in *; cbn [au_script au_delays au_sleep au_chan au_got au_time]; rewrite Nat.add_1_r.
    + symmetry in I3. destruct (skipn_nil_S _ _ I3) as [X Y]. rewrite X, Y. repeat split; auto. discriminate.
    + symmetry in I3. destruct (skipn_S _ _ _ _ I3) as [X (x & Y & _)]. rewrite X, Y, waits_app. cbn [waits fold_right]. repeat split; auto; [lia|discriminate].
  - destruct (au_script a) as [|e es] eqn:ES; [discriminate|]. destruct (au_sleep a) as [q|] eqn:SL; [|discriminate].
    destruct (Nat.ltb_spec (List.length (au_chan a)) 10) as [L|L]; [|discriminate]. injection H as <-.
    unfold autoInv, begun, sent in *. cbn [au_script au_delays au_sleep au_chan au_got au_time]. rewrite SL in *.
    rewrite !app_length in *. cbn [List.length] in *. rewrite Nat.add_0_r. rewrite <- Nat.add_assoc in I3, I4. repeat split; auto; [|lia]. rewrite <- I1, <- !app_assoc. reflexivity.
  - destruct (au_chan a) as [|e c] eqn:EC; [discriminate|]. injection H as <-.
    unfold autoInv, begun, sent in *. rewrite EC in *. cbn [au_script au_delays au_sleep au_chan au_got au_time]. rewrite <- !app_assoc. cbn [app List.length] in *. rewrite ?app_length in *; cbn [List.length Nat.add] in *; repeat split; auto; [|lia]. rewrite <- I1, <- app_assoc. reflexivity.
Qed.
Lemma autoInv_run script delays l : forall a a', autoInv script delays a -> aRun a l = Some a' -> autoInv script delays a'.
Proof.
  induction l as [|m l IH]; intros a a' I H; cbn [aRun] in H; [now injection H as <-|]. destruct (aStep a m) as [b|] eqn:S; [|discriminate]. eapply IH; [|exact H]. eapply autoInv_step; eauto.
Qed.
Lemma autoInv_init script delays : autoInv script delays (NewAutomated script delays).
Proof. unfold autoInv, begun, sent, NewAutomated. cbn. repeat split; auto. lia. Qed.
(** In every schedule: the events received are a prefix of the script, nothing is lost or reordered, at most ten
    wait, and the sleeps so far are at least the delays of everything handed over. *)
Theorem C77_script : forall script delays l a, aRun (NewAutomated script delays) l = Some a ->
  au_got a ++ au_chan a ++ au_script a = script /\ (List.length (au_chan a) <= 10)%nat /\
  waits (firstn (List.length (au_got a ++ au_chan a)) delays) <= au_time a.
Proof.
  intros script delays l a H. destruct (autoInv_run _ _ _ _ _ (autoInv_init script delays) H) as (I1 & I2 & _ & I4 & _). unfold sent in *. rewrite <- app_assoc in I1. split; [exact I1|]. split; [exact I2|].
  rewrite I4. unfold begun, sent. destruct (au_sleep a); [|now rewrite Nat.add_0_r].
  set (n := List.length (au_got a ++ au_chan a)). rewrite Nat.add_1_r. destruct (skipn n delays) as [|d r] eqn:E.
  - destruct (skipn_nil_S _ _ E) as [_ ->]. lia.
  - destruct (skipn_S _ _ _ _ E) as [_ (x & -> & _)]. rewrite waits_app. pose proof (waits_nonneg [d]). lia.
Qed.
(** It comes to rest only when everything was received, after at most three steps per event; without a consumer it
    stops at ten events. *)
Definition work (a : Auto) : nat := (3 * List.length (au_script a) + List.length (au_chan a) - match au_sleep a with Some _ => 1 | None => 0 end)%nat.
Theorem C77_progress : forall script delays l a, aRun (NewAutomated script delays) l = Some a ->
  (List.length l <= 3 * List.length script)%nat /\
  (au_got a = script \/ exists m, aStep a m <> None) /\
  (aStep a ASleep = None -> aStep a ASend = None -> au_script a = [] \/ List.length (au_chan a) = 10%nat).
Proof.
  intros script delays l a H. pose proof (autoInv_run _ _ _ _ _ (autoInv_init script delays) H) as I.
  assert (W : forall l a a', (au_script a = [] -> au_sleep a = None) -> aRun a l = Some a' -> (List.length l + work a' <= work a)%nat).
  { clear. induction l as [|m l IH]; intros a a' HS H; cbn [aRun] in H; [injection H as <-; cbn; lia|]. destruct (aStep a m) as [b|] eqn:S; [|discriminate].
    assert (X : (work b + 1 <= work a)%nat /\ (au_script b = [] -> au_sleep b = None)).
    { destruct m; cbn [aStep] in S.
      - destruct (au_script a) as [|e es] eqn:ES; [discriminate|]. destruct (au_sleep a) eqn:SL; [discriminate|].
        destruct (au_delays a); injection S as <-; unfold work; rewrite ES, SL; cbn; split; try discriminate; lia.
      - destruct (au_script a) as [|e es] eqn:ES; [discriminate|]. destruct (au_sleep a) eqn:SL; [|discriminate].
        destruct (_ <? 10)%nat; [|discriminate]. injection S as <-. unfold work. rewrite ES, SL. cbn [au_script au_chan au_sleep List.length]. rewrite app_length. cbn [List.length]. split; [lia|auto].
      - destruct (au_chan a) as [|e c] eqn:EC; [discriminate|]. injection S as <-. unfold work. rewrite EC. cbn [au_script au_chan au_sleep List.length]. split; [|exact HS].
        destruct (au_sleep a) eqn:SL; [|lia]. destruct (au_script a) as [|e' es'] eqn:ES; [now specialize (HS eq_refl)|]. cbn [List.length]. lia. }
    destruct X as [X1 X2]. specialize (IH b a' X2 H). cbn [List.length]. lia. }
  split; [|split].
  - specialize (W l (NewAutomated script delays) a (fun _ => eq_refl) H). unfold work at 2 in W. cbn in W. lia.
  - destruct I as (I1 & I2 & _). destruct (au_chan a) as [|e c] eqn:EC; [|right; exists ARecv; cbn; rewrite EC; discriminate].
    destruct (au_script a) as [|e es] eqn:ES; [left; unfold sent in I1; rewrite EC in I1; now rewrite !app_nil_r in I1|].
    right. destruct (au_sleep a) eqn:SL.
    + exists ASend. cbn. rewrite ES, SL, EC. discriminate.
    + exists ASleep. cbn. rewrite ES, SL. destruct (au_delays a); discriminate.
  - intros N1 N2. destruct I as (_ & I2 & _). destruct (au_script a) as [|e es] eqn:ES; [now left|right]. cbn [aStep] in N1, N2. rewrite ES in N1, N2.
    destruct (au_sleep a); [|destruct (au_delays a); discriminate]. destruct (Nat.ltb_spec (List.length (au_chan a)) 10); [discriminate|lia].
Qed.
(** A script of two events with one delay, received in order. *)
Example C77_applies : exists a, aRun (NewAutomated [EventDisrupt; EventQuit] [5]) [ASleep; ASend; ASleep; ARecv; ASend; ARecv] = Some a /\ au_got a = [EventDisrupt; EventQuit] /\ au_time a = 5.
Proof. eexists. split; [reflexivity|]. split; reflexivity. Qed.
Print Assumptions C74_goal_keys.
Print Assumptions C74_one_goal.
Print Assumptions C74_scale_keys.
Print Assumptions C74_pattern_keys.
Print Assumptions C74_action_keys.
Print Assumptions C74_no_hidden_keys.
Print Assumptions C74_scale_name.
Print Assumptions C75_mark.
Print Assumptions C75_auto_good.
Print Assumptions C75_explained.
Print Assumptions C75_reason.
Print Assumptions C75_reason_refuted.
Print Assumptions C75_scale.
Print Assumptions C75_best_worst.
Print Assumptions C76_apart.
Print Assumptions C76_fresh.
Print Assumptions C77_script.
Print Assumptions C77_progress.
