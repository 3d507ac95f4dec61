(** Property theorems C52: keyboard control, from the key to the configuration the program runs with. *)
From Coq Require Import ZArith List Bool String Ascii Lia.
From Verif Require Import Num M_GoalConfig M_Scale M_ReqPattern M_Controller.
Import ListNotations.
Open Scope Z_scope.

(** Specification: the runes of a one-character string in both cases of the letter. *)
Definition keyed (s : string) (k : Z) : Prop :=
  exists c, s = String c EmptyString /\
    (k = rune c \/ (65 <= rune c <= 90 /\ k = rune c + 32) \/ (97 <= rune c <= 122 /\ k = rune c - 32)).
(** The key reaches the configuration: either it already holds and the run goes on, or the program
    restarts with it. *)
Definition leadsTo (r : MainConfig + option MainConfig) (P : MainConfig -> Prop) : Prop :=
  match r with inl c => P c | inr (Some c) => P c | inr None => False end.
(** keyboard.KeyEsc is none of the printable characters (termdash gives special keys negative runes). *)
Definition special (esc : Z) : Prop := esc < 0.

Lemma esc_neq esc k : special esc -> 0 <= k -> (k =? esc) = false.
Proof. unfold special. intros H K. apply Z.eqb_neq. lia. Qed.
Lemma key_esc esc k : special esc -> 0 <= k -> keyEvent esc k = keyEvent (-1) k.
Proof. intros H K. unfold keyEvent. rewrite (esc_neq esc k H K), (esc_neq (-1) k) by (assumption || unfold special; lia). reflexivity. Qed.

(** At most one event per key, in order; it is lost only when ten are waiting. *)
Theorem C52_one_event : forall esc q k,
  (ProcessKey esc q k = q \/ exists e, ProcessKey esc q k = q ++ [e] /\ keyEvent esc k = Some e) /\
  (List.length q < 10 -> ProcessKey esc q k = q -> keyEvent esc k = None)%nat /\
  (List.length q <= 10 -> List.length (ProcessKey esc q k) <= 10)%nat.
Proof.
  intros esc q k. unfold ProcessKey, eventCap. destruct (keyEvent esc k) as [e|].
  - destruct (Nat.ltb_spec (List.length q) 10) as [L|L].
    + split; [right; now exists e|]. split.
      * intros _ E. exfalso. apply (f_equal (@List.length Event)) in E. rewrite app_length in E. cbn in E. lia.
      * rewrite app_length. cbn. lia.
    + split; [now left|]. split; [lia|auto].
  - split; [now left|]. split; auto.
Qed.
(** A full channel does lose a key press. *)
Theorem C52_drop_refuted : exists esc q k, special esc /\ (List.length q <= 10)%nat /\ keyEvent esc k = Some GoalBatch /\ ProcessKey esc q k = q.
Proof. exists (-1), (repeat EventReset 10), 98. repeat split. cbn. lia. Qed.

Lemma keyed_letter c k : keyed (String c EmptyString) k -> k = rune c \/ (65 <= rune c <= 90 /\ k = rune c + 32) \/ (97 <= rune c <= 122 /\ k = rune c - 32).
Proof. intros (c' & E & H). injection E as <-. exact H. Qed.
Ltac key_cases H := apply keyed_letter in H;
  match type of H with context [rune ?c] => let r := eval vm_compute in (rune c) in change (rune c) with r in H end;
  let L := fresh in destruct H as [->|[[L ->]|[L ->]]].

Ltac simp := cbn [List.length Nat.ltb Nat.leb eventCap app fold_left handleEvent isChangeEvent runnerConfig rc_pattern rc_scale rc_goal mc_pattern mc_goal mc_scale ru_cancelled ru_switch ru_paused ru_calls tl runResult applySwitch negb leadsTo runner0]; unfold Tiny, Small, Medium, Large, Huge, HighFrequency, Burst, Steady, Mixed, Sparse, Unset in *.

(** The advertised key of every goal except the rhythm goal, in either case, leads to that goal and changes nothing else;
    whatever the current configuration. *)
Theorem C52_goal_keys : forall term esc c g k, special esc -> g <> MaintainRhythm -> g <> OtherGoal -> keyed (GoalShortKey g) k ->
  leadsTo (pressKey term esc c k) (fun c' => mc_goal c' = g /\ mc_scale c' = mc_scale c /\ mc_pattern c' = mc_pattern c).
Proof.
  intros term esc [cg cs cp] g k HE N1 N2 HK. unfold pressKey, ProcessKey.
  destruct g; try congruence; cbn [GoalShortKey] in HK; key_cases HK; try lia;
    rewrite key_esc by (assumption || lia); unfold runnerConfig; destruct cg; vm_compute; auto.
Qed.
(** 'm' selects the rhythm goal, but its advertised key "R" does not: it asks for a reset. *)
Theorem C52_rhythm : forall term esc c k, special esc -> keyed "m" k ->
  leadsTo (pressKey term esc c k) (fun c' => mc_goal c' = MaintainRhythm /\ mc_scale c' = mc_scale c /\ mc_pattern c' = mc_pattern c).
Proof.
  intros term esc [cg cs cp] k HE HK. unfold pressKey, ProcessKey.
  key_cases HK; try lia; rewrite key_esc by (assumption || lia); unfold runnerConfig; destruct cg; vm_compute; auto.
Qed.
Theorem C52_rhythm_refuted : forall term esc c k, special esc -> keyed (GoalShortKey MaintainRhythm) k ->
  keyEvent esc k = Some EventReset /\ pressKey term esc c k = inl c.
Proof.
  intros term esc c k HE HK. cbn [GoalShortKey] in HK. unfold pressKey, ProcessKey.
  key_cases HK; try lia; rewrite key_esc by (assumption || lia); vm_compute; auto.
Qed.

(** The keys 1..5 lead to the scales. *)
Theorem C52_scale_keys : forall term esc c s k, special esc -> 0 <= s <= 4 -> k = rune "1" + s ->
  leadsTo (pressKey term esc c k) (fun c' => mc_scale c' = s /\ mc_goal c' = mc_goal c /\ mc_pattern c' = mc_pattern c).
Proof.
  intros term esc [cg cs cp] s k HE HS ->. unfold pressKey, ProcessKey. change (rune "1") with 49.
  assert (D : s = 0 \/ s = 1 \/ s = 2 \/ s = 3 \/ s = 4) by lia.
  destruct D as [->|[->|[->|[->| ->]]]]; rewrite key_esc by (assumption || lia); unfold runnerConfig;
    match goal with |- context [keyEvent (-1) ?k] => let r := eval vm_compute in (keyEvent (-1) k) in change (keyEvent (-1) k) with r end;
    unfold Tiny, Small, Medium, Large, Huge; simp;
    match goal with |- context [cs =? ?n] => destruct (Z.eqb_spec cs n) as [E|E]; simp; rewrite ?(proj2 (Z.eqb_neq cs n) E); simp; auto end.
Qed.

(** The advertised key of every pattern leads to that pattern, provided a pattern has been chosen before
    or the output is not a terminal, or the pattern is not the automatically chosen one. *)
Theorem C52_pattern_keys : forall term esc c p k, special esc -> 1 <= p <= 5 -> keyed (PatternShortKey p) k ->
  ~ (term = true /\ mc_pattern c = Unset /\ p = BestPatternForGoal (goalInt (mc_goal c))) ->
  leadsTo (pressKey term esc c k) (fun c' => mc_pattern c' = p /\ mc_goal c' = mc_goal c /\ mc_scale c' = mc_scale c).
Proof.
  intros term esc [cg cs cp] p k HE HP HK HN. unfold pressKey, ProcessKey. cbn [mc_pattern mc_goal] in HN.
  assert (D : p = 1 \/ p = 2 \/ p = 3 \/ p = 4 \/ p = 5) by lia.
  destruct D as [->|[->|[->|[->| ->]]]]; match type of HK with keyed ?s _ => let r := eval vm_compute in s in change s with r in HK end; key_cases HK; try lia;
    rewrite key_esc by (assumption || lia);
    match goal with |- context [keyEvent (-1) ?k] => let r := eval vm_compute in (keyEvent (-1) k) in change (keyEvent (-1) k) with r end;
    simp;
    (destruct term; cbn [andb];
      [destruct (Z.eqb_spec cp 0) as [E|E];
        [subst cp; match goal with |- context [BestPatternForGoal ?a =? ?b] => destruct (Z.eqb_spec (BestPatternForGoal a) b) as [E2|E2]; [exfalso; apply HN; auto|cbn; auto] end
        |]
      |]);
    match goal with |- context [cp =? ?n] => destruct (Z.eqb_spec cp n) as [E3|E3]; simp; rewrite ?(proj2 (Z.eqb_neq cp n) E3); simp; auto end.
Qed.
(** On a terminal, with the pattern left to the program, the automatically chosen pattern is shown but the
    workloads keep the unset one, and the key of the pattern shown is ignored: it cannot be selected. *)
Theorem C52_auto_pattern_refuted : exists c p k, c = DefaultMainConfig /\ p = shownPattern c /\ 1 <= p <= 5 /\ keyed (PatternShortKey p) k /\
  forall esc, special esc -> pressKey true esc c k = inl c /\ simPattern c = Unset /\ simPattern c <> p.
Proof.
  exists DefaultMainConfig, HighFrequency, 104. split; [reflexivity|]. split; [reflexivity|]. split; [cbv; intuition discriminate|].
  split; [exists "h"%char; split; [reflexivity|now left]|]. intros esc HE. unfold pressKey, ProcessKey. rewrite key_esc by (assumption || lia).
  split; [reflexivity|]. split; [reflexivity|cbv; discriminate].
Qed.

(** The runner asks for a restart exactly when main would change something, once a pattern is chosen. *)
Theorem C52_change_agrees : forall term c e, (term = false \/ mc_pattern c <> Unset) ->
  ~ In e [EventQuit; EventReset; EventDisrupt; EventPause; EventResume] ->
  (isChangeEvent (runnerConfig term c) e = true <-> applySwitch c e <> None).
Proof.
  intros term [cg cs cp] e H NE. cbn [mc_pattern] in H.
  assert (R : rc_pattern (runnerConfig term (mkMC cg cs cp)) = cp).
  { cbn. destruct term; [|reflexivity]. destruct H as [H|H]; [discriminate|]. rewrite (proj2 (Z.eqb_neq cp Unset) H). reflexivity. }
  destruct e; (try (exfalso; apply NE; cbn; tauto)); unfold isChangeEvent, applySwitch; rewrite ?R; cbn [rc_scale rc_goal runnerConfig mc_scale mc_goal mc_pattern];
    match goal with |- context [negb ?b] => destruct b; cbn; split; congruence end.
Qed.

(** At most one switch request is ever waiting, so the handler never blocks on its channel of ten; a
    request always cancels the run; Reset and Disrupt are never called while paused. *)
Definition runs (c : RunnerConfig) (es : list Event) : RunnerState := fold_left (handleEvent c) es runner0.
Theorem C52_runner : forall c es, let s := runs c es in
  (List.length (ru_switch s) <= 1)%nat /\ (ru_switch s <> [] -> ru_cancelled s = true) /\
  (forall e, In e (ru_switch s) -> isChangeEvent c e = true /\ In e es).
Proof.
  intros c es. unfold runs. rewrite <- fold_left_rev_right. cbv zeta.
  assert (G : forall l, let s := fold_right (fun y x => handleEvent c x y) runner0 l in
    (List.length (ru_switch s) <= 1)%nat /\ (ru_switch s <> [] -> ru_cancelled s = true) /\
    (forall e, In e (ru_switch s) -> isChangeEvent c e = true /\ In e l)).
  { induction l as [|e l IH]; cbn [fold_right]; [cbn; repeat split; try lia; congruence || tauto|].
    cbv zeta in IH. destruct IH as (A & B & C). set (s := fold_right _ _ l) in *. clearbody s.
    assert (Keep : (List.length (ru_switch s) <= 1)%nat /\ (ru_switch s <> [] -> ru_cancelled s = true) /\ (forall e', In e' (ru_switch s) -> isChangeEvent c e' = true /\ In e' (e :: l))).
    { repeat split; auto; try (now apply C). right. now apply C. }
    assert (Sw : isChangeEvent c e = true -> (List.length (tl (ru_switch s) ++ [e]) <= 1)%nat /\ (forall e', In e' (tl (ru_switch s) ++ [e]) -> isChangeEvent c e' = true /\ In e' (e :: l))).
    { intros H. destruct (ru_switch s) as [|x [|y t]]; cbn in *; [| |lia]; (split; [lia|]); intros e' [<-|[]]; auto. }
    destruct e; cbn [handleEvent]; try exact Keep;
      try (destruct (ru_paused s); exact Keep);
      try (destruct Keep as (K1 & K2 & K3); cbn [ru_switch ru_cancelled]; split; [exact K1|]; split; [reflexivity|exact K3]);
      (match goal with |- context [isChangeEvent c ?ev] => destruct (isChangeEvent c ev) eqn:E end; [|exact Keep];
       cbn [ru_switch ru_cancelled]; destruct (Sw eq_refl) as [S1 S2]; repeat split; auto; apply S2; auto). }
  specialize (G (rev es)). cbv zeta in G. destruct G as (A & B & C). split; [exact A|]. split; [exact B|].
  intros e He. destruct (C e He) as [C1 C2]. split; [exact C1|now apply in_rev].
Qed.

(** Calls made while the flag is [p], oldest first: Pause only when not paused, Reset and Disrupt only when not paused. *)
Fixpoint polite (p : bool) (l : list SimCall) : bool :=
  match l with
  | [] => true
  | CallPause :: t => negb p && polite true t
  | CallResume :: t => polite false t
  | (CallReset | CallDisrupt) :: t => negb p && polite p t
  end.
Lemma polite_app l : forall p, polite p l = true -> exists q, forall t, polite p (l ++ t) = polite q t.
Proof.
  induction l as [|a l IH]; intros p H; [now exists p|]. destruct a; cbn in *.
  - apply andb_prop in H. destruct H as [H1 H2]. destruct (IH _ H2) as [q Q]. exists q. intros t. now rewrite H1, Q.
  - apply andb_prop in H. destruct H as [H1 H2]. destruct (IH _ H2) as [q Q]. exists q. intros t. now rewrite H1, Q.
  - apply andb_prop in H. destruct H as [H1 H2]. destruct (IH _ H2) as [q Q]. exists q. intros t. now rewrite H1, Q.
  - destruct (IH _ H) as [q Q]. exists q. exact Q.
Qed.
Theorem C52_runner_calls : forall c es, polite false (rev (ru_calls (runs c es))) = true.
Proof.
  intros c es. unfold runs.
  assert (G : forall l s, (forall t, polite false (rev (ru_calls s) ++ t) = polite (ru_paused s) t) ->
     forall t, polite false (rev (ru_calls (fold_left (handleEvent c) l s)) ++ t) = polite (ru_paused (fold_left (handleEvent c) l s)) t).
  { induction l as [|e l IH]; intros s H; [exact H|]. cbn [fold_left]. apply IH. intros t.
    destruct e; cbn [handleEvent]; try (match goal with |- context [isChangeEvent c ?ev] => destruct (isChangeEvent c ev) end; cbn; apply H);
      try (destruct (ru_paused s) eqn:E; cbn [ru_calls ru_paused rev]; rewrite <- ?app_assoc, ?H, ?E; reflexivity);
      cbn [ru_calls ru_paused rev]; rewrite <- ?app_assoc, H; cbn; destruct (ru_paused s); reflexivity. }
  rewrite <- (app_nil_r (rev _)). rewrite (G es runner0) by reflexivity. now destruct (ru_paused _).
Qed.

(** The scale names are parsed back, and only they are. *)
Theorem C52_parse_scale : (forall s, 0 <= s <= 4 -> ParseScale (ScaleString s) = (s, true)) /\
  (forall t s, ParseScale t = (s, true) -> t = ScaleString s /\ 0 <= s <= 4).
Proof.
  split.
  - intros s H. assert (D : s = 0 \/ s = 1 \/ s = 2 \/ s = 3 \/ s = 4) by lia. destruct D as [->|[->|[->|[->| ->]]]]; reflexivity.
  - intros t s. unfold ParseScale, Tiny, Small, Medium, Large, Huge.
    repeat match goal with |- context [String.eqb t ?x] => destruct (String.eqb_spec t x) as [->|_]; [intros E; injection E as <-; split; [reflexivity|lia]|] end.
    discriminate.
Qed.

(** Instances. *)
Example C52_example : special (-1) /\ keyed (GoalShortKey SaveEnergy) 101 /\ keyed (GoalShortKey SaveEnergy) 69 /\ keyed (PatternShortKey Sparse) 90 /\
  pressKey true (-1) DefaultMainConfig 101 = inr (Some (mkMC SaveEnergy Tiny Unset)) /\ pressKey true (-1) DefaultMainConfig 98 = inl DefaultMainConfig.
Proof.
  split; [unfold special; lia|]. split; [exists "E"%char; split; [reflexivity|right; left; vm_compute; intuition discriminate]|].
  split; [exists "E"%char; split; [reflexivity|now left]|]. split; [exists "z"%char; split; [reflexivity|right; right; vm_compute; intuition discriminate]|]. split; reflexivity.
Qed.
Print Assumptions C52_one_event.
Print Assumptions C52_drop_refuted.
Print Assumptions C52_goal_keys.
Print Assumptions C52_rhythm.
Print Assumptions C52_rhythm_refuted.
Print Assumptions C52_scale_keys.
Print Assumptions C52_pattern_keys.
Print Assumptions C52_auto_pattern_refuted.
Print Assumptions C52_change_agrees.
Print Assumptions C52_runner.
Print Assumptions C52_runner_calls.
Print Assumptions C52_parse_scale.
