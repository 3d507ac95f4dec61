(** C82-C85: the life of the simulation program. *)
From Coq Require Import ZArith List Bool String Ascii Lia Arith.
From Verif Require Import Num M_GoalConfig M_Scale M_ReqPattern M_Controller M_App S_App P_Controller.
Import ListNotations.
Open Scope nat_scope.

Lemma runner_switch c s e : ru_switch s = [] -> ru_cancelled s = false ->
  let s' := handleEvent c s e in
  (ru_switch s' = [] /\ (ru_cancelled s' = true -> e = EventQuit)) \/ (ru_switch s' = [e] /\ ru_cancelled s' = true /\ asks_switch e = true /\ isChangeEvent c e = true).
Proof.
  intros H C. destruct s as [p w cn cl]; cbn in H, C; subst. destruct (asks_switch e) eqn:A.
  - assert (E : handleEvent c (mkRS p [] false cl) e = if isChangeEvent c e then mkRS p [e] true cl else mkRS p [] false cl) by (destruct e; try discriminate A; reflexivity).
    cbv zeta. rewrite E. destruct (isChangeEvent c e); cbn; [right|left]; repeat split; auto; discriminate.
  - destruct e; try discriminate A; cbn; try (destruct p; cbn); left; split; auto; discriminate.
Qed.
Lemma runner_calls c s e : ru_switch s = [] -> ru_cancelled s = false -> calls s (handleEvent c s e) = true -> ru_switch (handleEvent c s e) = [] /\ ru_cancelled (handleEvent c s e) = false.
Proof.
  intros H C. destruct s as [p w cn cl]; cbn in H, C; subst. unfold calls. destruct (asks_switch e) eqn:A.
  - assert (E : handleEvent c (mkRS p [] false cl) e = if isChangeEvent c e then mkRS p [e] true cl else mkRS p [] false cl) by (destruct e; try discriminate A; reflexivity).
    rewrite E. destruct (isChangeEvent c e); cbn; rewrite Nat.eqb_refl; discriminate.
  - destruct e; try discriminate A; cbn; try (destruct p; cbn); rewrite ?Nat.eqb_refl; auto; discriminate.
Qed.
(** What the runner takes for a change is one. *)
Lemma change_applies term c e : asks_switch e = true -> isChangeEvent (runnerConfig term c) e = true -> applySwitch c e <> None.
Proof.
  intros A H. assert (P : forall p, negb (rc_pattern (runnerConfig term c) =? p)%Z = true -> (0 < p)%Z -> (mc_pattern c =? p)%Z = false).
  { intros p Q Hp. unfold runnerConfig in Q; cbn in Q. destruct term; cbn in Q; [|now apply negb_true_iff in Q]. destruct (mc_pattern c =? Unset)%Z eqn:U; cbn in Q.
    - apply Z.eqb_eq in U. rewrite U. apply Z.eqb_neq. unfold Unset. lia.
    - now apply negb_true_iff in Q. }
  destruct e; try discriminate A; cbn [isChangeEvent] in H; cbn [applySwitch]; try (apply negb_true_iff in H; cbn in H; rewrite H; discriminate); rewrite (P _ H) by (unfold HighFrequency, Burst, Steady, Mixed, Sparse; lia); discriminate.
Qed.

Section Life.
Variables (term : bool) (esc timeout : Z).
Notation step := (aStep term esc timeout).
Notation run := (aRun term esc timeout).

Definition inv (s : App) : Prop :=
  (ru_cancelled (ap_ru s) = false -> ru_switch (ap_ru s) = []) /\
  (ru_cancelled (ap_ru s) = true -> ap_hand s = HTop \/ ap_hand s = HGone) /\
  (ru_switch (ap_ru s) = [] \/ exists e, ru_switch (ap_ru s) = [e] /\ asks_switch e = true /\ applySwitch (ap_cfg s) e <> None).
Lemma inv_runner s : inv s -> forall keys b, inv (set_hand s keys (ap_ru s) b) \/ b = HInner \/ b = HBusy.
Proof. intros (A & B & C) keys b. destruct b; auto; left; split; [exact A|split; [cbn; auto|exact C]| exact A|split; [cbn; auto|exact C]]. Qed.
Lemma inv_step s e : inv s -> inv (step s e).
Proof.
  intros I. pose proof I as (A & B & C). unfold aStep. destruct (ap_over s); [exact I|].
  assert (CP : forall s', ap_ru s' = ap_ru s -> ap_hand s' = ap_hand s -> ap_cfg s' = ap_cfg s -> inv s') by (intros s' E1 E2 E3; unfold inv; rewrite E1, E2, E3; exact I).
  destruct e as [| |k| |b| |].
  - destruct (ap_sig s); apply CP; reflexivity.
  - destruct (ap_sig s); try exact I. destruct (ap_sigq s); [|exact I]. destruct (Nat.eqb (ap_run s) 0); apply CP; reflexivity.
  - destruct term; [apply CP; reflexivity|exact I].
  - destruct (0 <? timeout)%Z; [apply CP; reflexivity|exact I].
  - destruct (ap_hand s) eqn:Hh; try exact I.
    + unfold runDone. destruct (ru_cancelled (ap_ru s)) eqn:Cn.
      * destruct (inv_runner s I (ap_keys s) HGone) as [Q|[Q|Q]]; try discriminate Q. replace (_ || true || _) with true by (destruct (ap_ctx s); reflexivity). exact Q.
      * unfold inv. cbn. rewrite Cn. split; [auto|]. split; [discriminate|]. rewrite A; auto.
    + assert (Cn : ru_cancelled (ap_ru s) = false) by (destruct (ru_cancelled (ap_ru s)); [destruct (B eq_refl); discriminate|reflexivity]). specialize (A Cn). destruct b.
      * destruct (ap_keys s) as [|ev r]; [exact I|]. unfold inv. cbn [ap_ru ap_hand ap_cfg set_hand].
        set (ru := handleEvent (runnerConfig term (ap_cfg s)) (ap_ru s) ev). pose proof (runner_calls (runnerConfig term (ap_cfg s)) (ap_ru s) ev A Cn) as K. fold ru in K.
        destruct (runner_switch (runnerConfig term (ap_cfg s)) (ap_ru s) ev A Cn) as [[E Q]|(E & Q & W & V)]; fold ru in E, Q.
        -- split; [auto|]. split; [|auto]. intros Cr. destruct (calls (ap_ru s) ru); [|auto]. destruct (K eq_refl). congruence.
        -- split; [congruence|]. split; [|right; exists ev; split; [exact E|split; [exact W|now apply (change_applies term)]]]. intros _. destruct (calls (ap_ru s) ru); [|auto]. destruct (K eq_refl). congruence.
      * unfold inv. cbn. auto.
  - destruct (ap_hand s) eqn:Hh; try exact I. unfold inv. cbn. auto.
  - destruct (runDone s); [|exact I]. destruct (applySwitch (ap_cfg s) (runResult (ap_ru s))); [|apply CP; reflexivity]. unfold inv. cbn. repeat split; auto; discriminate.
Qed.
Lemma inv0 c : inv (app0 c).
Proof. repeat split; auto; discriminate. Qed.
Lemma inv_run es : forall s, inv s -> inv (run s es).
Proof. induction es as [|e es IH]; intros s I; [exact I|]. apply IH, inv_step, I. Qed.
Lemma over_stays es : forall s, ap_over s = true -> run s es = s.
Proof. induction es as [|e es IH]; intros s H; [reflexivity|]. cbn [aRun fold_left]. unfold aStep at 2. rewrite H. now apply IH. Qed.
Lemma run_app s a b : run s (a ++ b) = run (run s a) b.
Proof. apply fold_left_app. Qed.

(** ** C82: signals *)
(** Nothing to restart with, in the first run: kept by schedules without switch keys, and by all in text mode. *)
Definition plain (s : App) : Prop := ap_run s = 0 /\ ru_switch (ap_ru s) = [] /\ Forall (fun e => asks_switch e = false) (ap_keys s).
Lemma handle_plain c s e : asks_switch e = false -> ru_switch (handleEvent c s e) = ru_switch s.
Proof. destruct e; try discriminate; intros _; cbn; destruct (ru_paused s); reflexivity. Qed.
Lemma plain_step s e : (term = false \/ forall k ev, e = AKey k -> keyEvent esc k = Some ev -> asks_switch ev = false) -> plain s -> plain (step s e).
Proof.
  intros H (A & B & C). unfold aStep. destruct (ap_over s); [repeat split; assumption|]. destruct e as [| |k| |b| |].
  - destruct (ap_sig s); repeat split; assumption.
  - destruct (ap_sig s); [repeat split; assumption| |repeat split; assumption]. destruct (ap_sigq s); [|repeat split; assumption]. destruct (Nat.eqb (ap_run s) 0); repeat split; assumption.
  - destruct term eqn:Ht; [|repeat split; assumption]. destruct H as [H|H]; [discriminate|]. unfold ProcessKey. split; [exact A|]. split; [exact B|]. cbn [ap_keys set_hand].
    destruct (keyEvent esc k) as [ev|] eqn:K; [|exact C]. destruct (_ <? _)%nat; [|exact C]. apply Forall_app. split; [exact C|]. constructor; [|constructor]. now apply (H k ev).
  - destruct (0 <? timeout)%Z; repeat split; assumption.
  - destruct (ap_hand s); try (repeat split; assumption). destruct b; [|repeat split; assumption]. destruct (ap_keys s) as [|ev r] eqn:Ek; [repeat split; try assumption; now rewrite Ek|]. inversion C as [|? ? C1 C2]; subst.
    split; [exact A|]. split; [cbn; now rewrite handle_plain|exact C2].
  - destruct (ap_hand s); repeat split; assumption.
  - destruct (runDone s); [|repeat split; assumption]. unfold runResult. rewrite B. cbn. repeat split; assumption.
Qed.
Lemma plain_run es : forall s, (term = false \/ no_switch_key esc es) -> plain s -> plain (run s es).
Proof.
  induction es as [|e es IH]; intros s H P; [exact P|]. apply IH.
  - destruct H as [H|H]; [now left|right; intros k ev Hk; apply H; now right].
  - apply plain_step; [|exact P]. destruct H as [H|H]; [now left|right; intros k ev -> Hv; apply (H k ev); [now left|exact Hv]].
Qed.
(** A signal taken by the goroutine in the first run has cancelled its context. *)
Definition sig_ok (s : App) : Prop := ap_run s = 0 -> ap_sig s = SDone -> ap_ctx s = true.
Lemma sig_ok_step s e : sig_ok s -> sig_ok (step s e).
Proof.
  unfold sig_ok. intros H. unfold aStep. destruct (ap_over s); [exact H|]. destruct e as [| |k| |b| |].
  - destruct (ap_sig s) eqn:E; cbn; intros; try discriminate; try congruence; auto.
  - destruct (ap_sig s) eqn:E; [cbn; intros; discriminate| |rewrite E; exact H]. destruct (ap_sigq s); [|rewrite E; intros; discriminate]. destruct (Nat.eqb (ap_run s) 0) eqn:Q; cbn; auto. intros R. rewrite R in Q. discriminate.
  - destruct term; exact H.
  - destruct (0 <? timeout)%Z; exact H.
  - destruct (ap_hand s); try exact H. destruct b; [|exact H]. destruct (ap_keys s); exact H.
  - destruct (ap_hand s); exact H.
  - destruct (runDone s); [|exact H]. destruct (applySwitch _ _); [cbn; discriminate|exact H].
Qed.
Lemma sig_ok_run es : forall s, sig_ok s -> sig_ok (run s es).
Proof. induction es as [|e es IH]; intros s H; [exact H|]. apply IH, sig_ok_step, H. Qed.
Lemma sig_keep s e : ap_sig (step s e) = SStart -> ap_sig s = SStart.
Proof.
  unfold aStep. destruct (ap_over s); [auto|]. destruct e as [| |k| |b| |]; auto.
  - destruct (ap_sig s) eqn:E; cbn; congruence.
  - destruct (ap_sig s) eqn:E; cbn; try congruence. destruct (ap_sigq s); [|congruence]. destruct (Nat.eqb _ _); cbn; discriminate.
  - destruct term; auto.
  - destruct (0 <? timeout)%Z; auto.
  - destruct (ap_hand s); auto. destruct b; auto. destruct (ap_keys s); auto.
  - destruct (ap_hand s); auto.
  - destruct (runDone s); auto. destruct (applySwitch _ _); auto.
Qed.
(** A signal waits until it is taken. *)
Definition waits (s : App) : Prop := ap_over s = true \/ ap_sig s = SDone \/ (ap_sig s = SWait /\ ap_sigq s = true).
Lemma waits_step s e : waits s -> waits (step s e).
Proof.
  intros H. unfold aStep. destruct (ap_over s) eqn:O; [now left|]. destruct H as [H|H]; [congruence|]. unfold waits. destruct e as [| |k| |b| |].
  - destruct (ap_sig s) eqn:E; cbn; auto.
  - destruct (ap_sig s) eqn:E; cbn; rewrite ?E; auto; [destruct H as [H|[H _]]; discriminate|]. destruct (ap_sigq s) eqn:Q; [|destruct H as [H|[_ H]]; discriminate]. destruct (Nat.eqb _ _); cbn; auto.
  - destruct term; cbn; auto.
  - destruct (0 <? timeout)%Z; cbn; auto.
  - destruct (ap_hand s); cbn; auto. destruct b; cbn; auto. destruct (ap_keys s); cbn; auto.
  - destruct (ap_hand s); cbn; auto.
  - destruct (runDone s); cbn; auto. destruct (applySwitch _ _); cbn; auto.
Qed.
Lemma waits_run es : forall s, waits s -> waits (run s es).
Proof. induction es as [|e es IH]; intros s H; [exact H|]. apply IH, waits_step, H. Qed.

(** As long as nobody asks for another goal, scale or pattern (in text mode nobody can), a signal that the goroutine takes
    ends the program as soon as the display returns. *)
Theorem C82_first_run : forall c es1 es2 es3, (term = false \/ no_switch_key esc (es1 ++ es2 ++ es3)) ->
  ap_over (run (app0 c) (es1 ++ [ASignal] ++ es2 ++ [ASigStep] ++ es3 ++ [AReturn])) = true.
Proof.
  intros c es1 es2 es3 H. rewrite !run_app. set (s1 := run (app0 c) es1). set (s2 := run s1 [ASignal]). set (s3 := run s2 es2). set (s4 := run s3 [ASigStep]). set (s5 := run s4 es3).
  assert (HS : forall l, incl l (es1 ++ es2 ++ es3) -> term = false \/ no_switch_key esc l) by (intros l Hl; destruct H as [H|H]; [now left|right; intros k ev Hk; apply H, Hl, Hk]).
  assert (P1 : plain s1) by (apply plain_run; [apply HS; intros x Hx; apply in_or_app; now left|repeat split; constructor]).
  assert (W2 : waits s2). { unfold s2. cbn. unfold aStep. destruct (ap_over s1) eqn:O; [now left|]. destruct (ap_sig s1); unfold waits; cbn; auto. }
  assert (P2 : plain s2) by (apply (plain_run [ASignal]); [right; intros k ev [?|[]]; discriminate|exact P1]).
  assert (P3 : plain s3) by (apply plain_run; [apply HS; intros x Hx; apply in_or_app; right; apply in_or_app; now left|exact P2]). assert (W3 : waits s3) by now apply waits_run.
  assert (G3 : sig_ok s3) by (apply sig_ok_run, sig_ok_step, sig_ok_run; intros _ Q; discriminate Q).
  assert (W4 : ap_over s4 = true \/ (ap_sig s4 = SDone /\ ap_run s4 = 0)).
  { unfold s4. cbn. unfold aStep. destruct (ap_over s3) eqn:O; [now left|]. right. destruct P3 as [R _]. destruct W3 as [W|[W|[W Q]]]; [congruence|rewrite W; auto|]. rewrite W, Q, R. cbn. auto. }
  assert (P4 : plain s4) by (apply (plain_run [ASigStep]); [right; intros k ev [?|[]]; discriminate|exact P3]). assert (G4 : sig_ok s4) by now apply sig_ok_step.
  assert (P5 : plain s5) by (apply plain_run; [apply HS; intros x Hx; apply in_or_app; right; apply in_or_app; now right|exact P4]).
  destruct W4 as [O|[D R]].
  { unfold s5. rewrite (over_stays es3) by exact O. rewrite over_stays; assumption. }
  cbn. unfold aStep. destruct (ap_over s5) eqn:O; [exact O|].
  assert (D5 : ap_sig s5 = SDone). { clear -D O. unfold s5. revert D. generalize s4. clear. intros s D. revert s D. induction es3 as [|e es IH]; intros s D; [exact D|]. apply IH. unfold aStep. destruct (ap_over s); [exact D|].
    destruct e as [| |k| |b| |]; rewrite ?D; auto; try (destruct term; exact D); try (destruct (0 <? timeout)%Z; exact D); try (destruct (ap_hand s); try exact D; destruct b; try exact D; destruct (ap_keys s); exact D); try (destruct (ap_hand s); exact D).
    destruct (runDone s); [|exact D]. destruct (applySwitch _ _); [reflexivity|exact D]. }
  assert (G5 : sig_ok s5) by now apply sig_ok_run. destruct P5 as (R5 & W5 & _). unfold runDone. rewrite (G5 R5 D5). cbn. unfold runResult. rewrite W5. reflexivity.
Qed.

(** After the first restart signals have no effect at all: the program goes exactly as if they had not come. *)
Theorem C82_later_runs : forall es s, ap_run s <> 0 -> ap_sig s <> SStart ->
  rest_of (run s es) = rest_of (run s (filter (fun e => negb (about_signals e)) es)).
Proof.
  assert (SAME : forall e s s', about_signals e = false -> rest_of s = rest_of s' -> rest_of (step s e) = rest_of (step s' e)).
  { intros e s s' He E. unfold rest_of in E. destruct s as [a1 a2 a3 a4 a5 a6 a7 a8 a9 a10], s' as [b1 b2 b3 b4 b5 b6 b7 b8 b9 b10]. cbn in E. inversion E; subst. clear E.
    destruct b10; [reflexivity|]. destruct e as [| |k| |b| |]; try discriminate He; cbn.
    - destruct term; reflexivity.
    - destruct (0 <? timeout)%Z; reflexivity.
    - destruct b7; try reflexivity. destruct b; [|reflexivity]. destruct b5; reflexivity.
    - destruct b7; reflexivity.
    - unfold runDone. cbn. destruct (_ || _ || _); [|reflexivity]. destruct (applySwitch _ _); reflexivity. }
  assert (SIG : forall e s, about_signals e = true -> ap_run s <> 0 -> ap_sig s <> SStart -> rest_of (step s e) = rest_of s /\ ap_sig (step s e) <> SStart).
  { intros e s He R S. assert (K : ap_sig (step s e) <> SStart) by (intros Q; apply S, (sig_keep _ _ Q)). split; [|exact K]. unfold aStep. destruct (ap_over s); [reflexivity|]. destruct e; try discriminate He.
    - destruct (ap_sig s); [congruence|reflexivity|reflexivity].
    - destruct (ap_sig s); [congruence| |reflexivity]. destruct (ap_sigq s); [|reflexivity]. destruct (Nat.eqb (ap_run s) 0) eqn:Q; [apply Nat.eqb_eq in Q; congruence|reflexivity]. }
  assert (RUN : forall e s, ap_run s <> 0 -> ap_run (step s e) <> 0).
  { intros e s R. unfold aStep. destruct (ap_over s); [exact R|]. destruct e as [| |k| |b| |].
    - destruct (ap_sig s); exact R.
    - destruct (ap_sig s); try exact R. destruct (ap_sigq s); [|exact R]. destruct (Nat.eqb _ _); exact R.
    - destruct term; exact R.
    - destruct (0 <? timeout)%Z; exact R.
    - destruct (ap_hand s); try exact R. destruct b; [|exact R]. destruct (ap_keys s); exact R.
    - destruct (ap_hand s); exact R.
    - destruct (runDone s); [|exact R]. destruct (applySwitch _ _); [cbn; lia|exact R]. }
  enough (G : forall es s s', ap_run s <> 0 -> ap_sig s <> SStart -> rest_of s = rest_of s' -> rest_of (run s es) = rest_of (run s' (filter (fun e => negb (about_signals e)) es))) by (intros es s R S; now apply G).
  induction es as [|e es IH]; intros s s' R S E; [exact E|]. cbn [filter]. destruct (about_signals e) eqn:A; cbn [negb].
  - destruct (SIG e s A R S) as [E1 S1]. apply (IH (step s e)); [now apply RUN|exact S1|congruence].
  - apply (IH (step s e) (step s' e)); [now apply RUN|intros Q; apply S, (sig_keep _ _ Q)|now apply SAME].
Qed.
(** A run nobody touches goes on for ever. *)
Definition untouched (s : App) : Prop := ap_over s = false /\ ap_run s <> 0 /\ ap_sig s <> SStart /\ runDone s = false /\ ap_keys s = [].
Lemma untouched_step s e : (forall k, e <> AKey k) -> e <> AExpire -> untouched s -> untouched (step s e).
Proof.
  intros NK NE (O & R & S & D & K). assert (U : untouched s) by (repeat split; assumption).
  assert (CP : forall s', ap_over s' = ap_over s -> ap_run s' = ap_run s -> ap_ctx s' = ap_ctx s -> ap_late s' = ap_late s -> ap_ru s' = ap_ru s -> ap_keys s' = ap_keys s -> ap_sig s' <> SStart -> untouched s').
  { intros s' E1 E2 E3 E4 E5 E6 E7. unfold untouched, runDone in *. rewrite E1, E2, E3, E4, E5, E6. repeat split; assumption. }
  unfold aStep. rewrite O. destruct e as [| |k| |b| |].
  - destruct (ap_sig s) eqn:G; [congruence| |]; apply CP; try reflexivity; discriminate.
  - destruct (ap_sig s) eqn:G; [congruence| |exact U]. destruct (ap_sigq s); [|exact U]. destruct (Nat.eqb (ap_run s) 0) eqn:Q; [apply Nat.eqb_eq in Q; congruence|]. apply CP; try reflexivity; discriminate.
  - now destruct (NK k).
  - congruence.
  - destruct (ap_hand s) eqn:H; try exact U. destruct b; [rewrite K; exact U|exact U].
  - destruct (ap_hand s) eqn:H; exact U.
  - rewrite D. exact U.
Qed.
Lemma untouched_run es : forall s, (forall e, In e es -> (forall k, e <> AKey k) /\ e <> AExpire) -> untouched s -> untouched (run s es).
Proof. induction es as [|e es IH]; intros s H U; [exact U|]. apply IH; [intros x Hx; apply H; now right|]. destruct (H e (or_introl eq_refl)). now apply untouched_step. Qed.

(** ** C83: the quit key *)
(** Quit has been taken, or is the next event, and nothing else is on its way. *)
Definition quitting (s : App) : Prop := inv s /\ ru_switch (ap_ru s) = [] /\ (ru_cancelled (ap_ru s) = true \/ exists r, ap_keys s = EventQuit :: r).
Lemma quitting_step s e : quitting s -> quitting (step s e) /\ ap_run (step s e) = ap_run s.
Proof.
  intros (I & W & Q). assert (I' : inv (step s e)) by now apply inv_step. unfold quitting. enough (G : ru_switch (ap_ru (step s e)) = [] /\ (ru_cancelled (ap_ru (step s e)) = true \/ exists r, ap_keys (step s e) = EventQuit :: r) /\ ap_run (step s e) = ap_run s) by tauto.
  clear I'. unfold aStep. destruct (ap_over s); [auto|]. destruct e as [| |k| |b| |].
  - destruct (ap_sig s); auto.
  - destruct (ap_sig s); auto. destruct (ap_sigq s); [|auto]. destruct (Nat.eqb (ap_run s) 0); auto.
  - destruct term; [|auto]. cbn. split; [exact W|]. split; [|reflexivity]. destruct Q as [Q|[r Q]]; [now left|right]. unfold ProcessKey. rewrite Q. destruct (keyEvent esc k); [|eauto]. destruct (_ <? _)%nat; eauto. cbn. eauto.
  - destruct (0 <? timeout)%Z; auto.
  - destruct (ap_hand s) eqn:H; auto. destruct I as (A & B & _). destruct Q as [Q|[r Q]]; [destruct (B Q); congruence|]. destruct b; [|cbn; eauto]. rewrite Q. cbn. auto.
  - destruct (ap_hand s); auto.
  - destruct (runDone s); [|auto]. unfold runResult. rewrite W. cbn. auto.
Qed.
Lemma quitting_run es : forall s, quitting s -> quitting (run s es) /\ ap_run (run s es) = ap_run s.
Proof. induction es as [|e es IH]; intros s Q; [auto|]. destruct (quitting_step s e Q) as [Q' R]. destruct (IH _ Q') as [Q2 R2]. split; [exact Q2|]. transitivity (ap_run (step s e)); assumption. Qed.
(** The quit keys: q, Q and Escape. *)
Definition quit_key (k : Z) : Prop := keyEvent esc k = Some EventQuit.

(** A quit key pressed while no other event waits and no switch is under way: whatever happens afterwards, the program
    never starts another run and ends when the display returns from a finished run. *)
Theorem C83_quit_final : forall c es k es', let s := run (app0 c) es in
  term = true -> quit_key k -> ap_keys s = [] -> ru_cancelled (ap_ru s) = false ->
  let s' := run (step s (AKey k)) es' in ap_run s' = ap_run s /\ (runDone s' = true -> ap_over (step s' AReturn) = true).
Proof.
  intros c es k es' s Ht Hk He Hc s'. assert (I : inv s) by (apply inv_run, inv0). destruct (ap_over s) eqn:O.
  { assert (E : step s (AKey k) = s) by (unfold aStep; now rewrite O). assert (E' : s' = s) by (unfold s'; rewrite E; now apply over_stays). rewrite E'. split; [reflexivity|]. intros _. unfold aStep. now rewrite O. }
  assert (Q : quitting (step s (AKey k))). { split; [apply inv_step; exact I|]. unfold aStep. rewrite O, Ht. cbn. destruct I as (A & _ & _). split; [apply A; exact Hc|]. right. unfold ProcessKey. rewrite Hk, He. cbn. eauto. }
  destruct (quitting_run es' _ Q) as [(Iq & Wq & _) R]. fold s' in Wq, R. split.
  - rewrite R. unfold aStep. rewrite O, Ht. reflexivity.
  - intros D. unfold aStep. destruct (ap_over s') eqn:O'; [exact O'|]. rewrite D. unfold runResult. rewrite Wq. reflexivity.
Qed.
(** The handler only returns when the run is over. *)
Definition gone (s : App) : Prop := ap_hand s = HGone -> runDone s = true.
Lemma gone_step s e : gone s -> gone (step s e).
Proof.
  unfold gone. intros G. unfold aStep. destruct (ap_over s); [exact G|]. destruct e as [| |k| |b| |].
  - destruct (ap_sig s); exact G.
  - destruct (ap_sig s); try exact G. destruct (ap_sigq s); [|exact G]. destruct (Nat.eqb _ _); [reflexivity|exact G].
  - destruct term; exact G.
  - destruct (0 <? timeout)%Z; [|exact G]. intros _. unfold runDone. cbn. now rewrite orb_true_r.
  - destruct (ap_hand s) eqn:H; cbn; try rewrite H; auto; try discriminate.
    + destruct (runDone s) eqn:D; [intros _; exact D|discriminate].
    + destruct b; [|discriminate]. destruct (ap_keys s); [rewrite H; discriminate|]. cbn. destruct (calls _ _); discriminate.
  - destruct (ap_hand s) eqn:H; cbn; try rewrite H; auto; discriminate.
  - destruct (runDone s) eqn:D; [|intros H; discriminate (G H)]. destruct (applySwitch _ _); [discriminate|intros _; exact D].
Qed.
Lemma gone_run es : forall s, gone s -> gone (run s es).
Proof. induction es as [|e es IH]; intros s H; [exact H|]. apply IH, gone_step, H. Qed.
(** And a few steps of the handler suffice, once a call it may be in has returned. *)
Theorem C83_quit_prompt : forall c es k, let s := run (app0 c) es in
  term = true -> quit_key k -> ap_keys s = [] -> ru_cancelled (ap_ru s) = false ->
  ap_over (run s [AKey k; ACallEnds; AHand true; AHand true; AReturn]) = true.
Proof.
  intros c es k s Ht Hk He Hc. assert (I : inv s) by (apply inv_run, inv0). destruct I as (A & _ & _). specialize (A Hc).
  assert (G : gone s) by (apply gone_run; discriminate). assert (PK : ProcessKey esc [] k = [EventQuit]) by (unfold ProcessKey; rewrite Hk; reflexivity).
  clearbody s. destruct s as [cf rn cx lt ks ru hd sg sq ov]. unfold gone, runDone in G. cbn [ap_keys ap_ru ap_hand ap_ctx ap_late] in *. subst ks. destruct ov; [reflexivity|].
  unfold aRun. cbn [fold_left]. set (ru1 := mkRS (ru_paused ru) (ru_switch ru) true (ru_calls ru)).
  assert (S0 : step (mkApp cf rn cx lt [] ru hd sg sq false) (AKey k) = mkApp cf rn cx lt [EventQuit] ru hd sg sq false) by (unfold aStep; cbn [ap_over]; rewrite Ht; cbn; rewrite PK; reflexivity). rewrite S0.
  assert (DN : forall h keys ruu, ruu = ru \/ ruu = ru1 -> runDone (mkApp cf rn cx lt keys ruu h sg sq false) = true -> ap_over (step (mkApp cf rn cx lt keys ruu h sg sq false) AReturn) = true).
  { intros h keys ruu Hr D. unfold aStep. cbn [ap_over]. rewrite D. unfold runResult. cbn. destruct Hr as [-> | ->]; [rewrite A|cbn; rewrite A]; reflexivity. }
  assert (TOP : ap_over (step (step (step (mkApp cf rn cx lt [EventQuit] ru HTop sg sq false) (AHand true)) (AHand true)) AReturn) = true).
  { change (step (mkApp cf rn cx lt [EventQuit] ru HTop sg sq false) (AHand true)) with (mkApp cf rn cx lt [EventQuit] ru (if runDone (mkApp cf rn cx lt [EventQuit] ru HTop sg sq false) then HGone else HInner) sg sq false). destruct (runDone (mkApp cf rn cx lt [EventQuit] ru HTop sg sq false)) eqn:D.
    - assert (E : step (mkApp cf rn cx lt [EventQuit] ru HGone sg sq false) (AHand true) = mkApp cf rn cx lt [EventQuit] ru HGone sg sq false) by reflexivity.
      rewrite E. apply DN; [now left|exact D].
    - assert (E : step (mkApp cf rn cx lt [EventQuit] ru HInner sg sq false) (AHand true) = mkApp cf rn cx lt [] ru1 HTop sg sq false).
      { unfold aStep. cbn. unfold calls. cbn. rewrite Nat.eqb_refl. reflexivity. }
      rewrite E. apply DN; [now right|]. unfold runDone. cbn. now rewrite orb_true_r. }
  destruct hd.
  - exact TOP.
  - assert (E : step (mkApp cf rn cx lt [EventQuit] ru HInner sg sq false) (AHand true) = mkApp cf rn cx lt [] ru1 HTop sg sq false) by (unfold aStep; cbn; unfold calls; cbn; rewrite Nat.eqb_refl; reflexivity).
    change (step (mkApp cf rn cx lt [EventQuit] ru HInner sg sq false) ACallEnds) with (mkApp cf rn cx lt [EventQuit] ru HInner sg sq false). rewrite E.
    assert (D : runDone (mkApp cf rn cx lt [] ru1 HTop sg sq false) = true) by (unfold runDone; cbn; now rewrite orb_true_r).
    change (step (mkApp cf rn cx lt [] ru1 HTop sg sq false) (AHand true)) with (mkApp cf rn cx lt [] ru1 (if runDone (mkApp cf rn cx lt [] ru1 HTop sg sq false) then HGone else HInner) sg sq false). rewrite D. apply (DN HGone []); [now right|]. unfold runDone. cbn. now rewrite orb_true_r.
  - exact TOP.
  - change (step (step (step (mkApp cf rn cx lt [EventQuit] ru HGone sg sq false) ACallEnds) (AHand true)) (AHand true)) with (mkApp cf rn cx lt [EventQuit] ru HGone sg sq false). apply DN; [now left|]. unfold runDone. cbn. now apply G.
Qed.
(** While the handler is in a call on the simulation, no key does anything: without a timeout and signals the program goes
    on, however often quit is pressed. *)
Theorem C83_busy_refuted : forall es s, ap_hand s = HBusy -> runDone s = false -> ap_over s = false ->
  (forall e, In e es -> e <> ACallEnds /\ e <> AExpire /\ e <> ASignal /\ e <> ASigStep) -> ap_over (run s es) = false /\ ap_run (run s es) = ap_run s.
Proof.
  induction es as [|e es IH]; intros s H D O N; [auto|]. assert (N' : forall e, In e es -> e <> ACallEnds /\ e <> AExpire /\ e <> ASignal /\ e <> ASigStep) by (intros x Hx; apply N; now right).
  assert (K : ap_hand (step s e) = HBusy /\ runDone (step s e) = false /\ ap_over (step s e) = false /\ ap_run (step s e) = ap_run s).
  { destruct (N e (or_introl eq_refl)) as (N1 & N2 & N3 & N4). unfold aStep. rewrite O. destruct e as [| |k| |b| |]; try congruence.
    - destruct term; auto.
    - rewrite H. auto.
    - rewrite D. auto. }
  destruct K as (K1 & K2 & K3 & K4). destruct (IH _ K1 K2 K3 N') as [A B]. split; [exact A|]. transitivity (ap_run (step s e)); assumption.
Qed.

(** ** C84: switching *)
Lemma part_app_r {A} (l m : list A) : part_of l m -> forall x, part_of l (m ++ x).
Proof. induction 1; intros y; cbn; [apply po_nil|apply po_skip; auto|apply po_take; auto]. Qed.
Lemma part_snoc {A} (l m : list A) x : part_of l m -> part_of (l ++ [x]) (m ++ [x]).
Proof. induction 1 as [m|y l m P IH|y l m P IH]; cbn; [induction m; cbn; [apply po_take, po_nil|apply po_skip; assumption]|apply po_skip; auto|apply po_take; auto]. Qed.
Lemma pressed_app a b : pressed esc (a ++ b) = pressed esc a ++ pressed esc b.
Proof. induction a as [|e a IH]; [reflexivity|]. destruct e; cbn; auto. destruct (keyEvent esc k); cbn; now rewrite IH. Qed.
Lemma part_left {A} (l a b : list A) : part_of (a ++ b) l -> part_of a l.
Proof. revert a. induction l as [|x l IH]; intros a H; [destruct a; [constructor|inversion H]|]. destruct a as [|y a]; [constructor|]. inversion H; subst; [apply po_skip, IH, H2|apply po_take, IH, H1]. Qed.
Lemma part_drop {A} (l a b : list A) x : part_of (a ++ x :: b) l -> part_of (a ++ b) l.
Proof.
  revert a. induction l as [|y l IH]; intros a H; [destruct a; inversion H|]. destruct a as [|z a]; cbn in *.
  - inversion H; subst; [apply po_skip, (IH []), H2|apply po_skip, H1].
  - inversion H; subst; [apply po_skip, (IH (z :: a)), H2|apply po_take, IH, H1].
Qed.
Lemma switches_app evs : forall c e c', switches c evs = Some c' -> switches c (evs ++ [e]) = applySwitch c' e.
Proof. induction evs as [|x evs IH]; intros c e c' H; cbn in *; [inversion H; subst; destruct (applySwitch c' e); reflexivity|]. destruct (applySwitch c x); [now apply IH|discriminate]. Qed.
(** What led here: the switches made, then the one requested, then the events waiting, all of them keys in this order. *)
Lemma chain c es : let s := run (app0 c) es in exists evs, List.length evs = ap_run s /\ Forall (fun e => asks_switch e = true) evs /\ switches c evs = Some (ap_cfg s) /\
  part_of (evs ++ ru_switch (ap_ru s) ++ ap_keys s) (pressed esc es).
Proof.
  induction es as [|e es IH] using rev_ind; cbn [aRun fold_left].
  { exists []. repeat split; constructor. }
  rewrite run_app, pressed_app. cbn [aRun fold_left]. change (fold_left (step) es (app0 c)) with (run (app0 c) es) in *. cbv zeta in IH. set (s := run (app0 c) es) in *. assert (I : inv s) by (apply inv_run, inv0).
  destruct IH as (evs & L & Fa & Sw & P). assert (P1 : part_of (evs ++ ru_switch (ap_ru s) ++ ap_keys s) (pressed esc es ++ pressed esc [e])) by now apply part_app_r.
  assert (CP : forall s', ap_run s' = ap_run s -> ap_cfg s' = ap_cfg s -> ru_switch (ap_ru s') = ru_switch (ap_ru s) -> ap_keys s' = ap_keys s ->
    exists evs, List.length evs = ap_run s' /\ Forall (fun e => asks_switch e = true) evs /\ switches c evs = Some (ap_cfg s') /\ part_of (evs ++ ru_switch (ap_ru s') ++ ap_keys s') (pressed esc es ++ pressed esc [e])).
  { intros s' E1 E2 E3 E4. exists evs. rewrite E1, E2, E3, E4. auto. }
  unfold aStep. destruct (ap_over s); [now apply CP|]. destruct e as [| |k| |b| |].
  - destruct (ap_sig s); now apply CP.
  - destruct (ap_sig s); try now apply CP. destruct (ap_sigq s); [|now apply CP]. destruct (Nat.eqb _ _); now apply CP.
  - destruct term; [|now apply CP]. cbn [pressed] in *. unfold ProcessKey. destruct (keyEvent esc k) as [ev|] eqn:K; [|now apply CP]. destruct (_ <? _)%nat; [|now apply CP].
    exists evs. cbn [ap_run ap_cfg ap_ru ap_keys set_hand]. repeat split; auto. rewrite app_assoc, app_assoc. apply part_snoc. now rewrite <- app_assoc.
  - destruct (0 <? timeout)%Z; now apply CP.
  - destruct (ap_hand s) eqn:H; try now apply CP. destruct b; [|now apply CP]. destruct (ap_keys s) as [|ev r] eqn:Ek; [now apply CP|].
    assert (Cn : ru_cancelled (ap_ru s) = false). { destruct I as (_ & B & _). destruct (ru_cancelled (ap_ru s)); [destruct (B eq_refl); congruence|reflexivity]. }
    destruct I as (A & _ & _). specialize (A Cn). rewrite A in P1. cbn [app] in P1. exists evs. cbn [ap_run ap_cfg ap_ru ap_keys set_hand]. repeat split; auto.
    destruct (runner_switch (runnerConfig term (ap_cfg s)) (ap_ru s) ev A Cn) as [[E _]|(E & _)]; rewrite E; cbn [app]; [|exact P1]. now apply part_drop with ev.
  - destruct (ap_hand s); now apply CP.
  - destruct (runDone s); [|now apply CP]. destruct (applySwitch (ap_cfg s) (runResult (ap_ru s))) as [c'|] eqn:AS; [|now apply CP].
    destruct I as (_ & _ & [W|(ev & W & Ask & _)]); unfold runResult in AS; rewrite W in AS; [discriminate AS|].
    exists (evs ++ [ev]). cbn [ap_run ap_cfg ap_ru ap_keys runner0 ru_switch]. split; [rewrite app_length, L; cbn; lia|]. split; [apply Forall_app; split; [exact Fa|constructor; [exact Ask|constructor]]|].
    split; [now rewrite (switches_app evs c ev (ap_cfg s) Sw)|]. rewrite W in P1. cbn [app]. rewrite app_nil_r. apply part_left with (ap_keys s). rewrite <- app_assoc. exact P1.
Qed.
(** Every restart answers one key of its own, in the order pressed, and changes exactly what that key asks for; a run
    starts with nothing left over from the one before. *)
Theorem C84_restarts : forall c es, let s := run (app0 c) es in
  exists evs, List.length evs = ap_run s /\ Forall (fun e => asks_switch e = true) evs /\ switches c evs = Some (ap_cfg s) /\ part_of evs (pressed esc es).
Proof. intros c es s. destruct (chain c es) as (evs & A & B & C & D). exists evs. repeat split; auto. now apply part_left in D. Qed.
Theorem C84_fresh : forall s, ap_run (step s AReturn) <> ap_run s ->
  let s' := step s AReturn in ap_keys s' = [] /\ ap_ru s' = runner0 /\ runDone s' = false /\ ap_hand s' = HTop /\ ap_over s' = false.
Proof.
  intros s. unfold aStep. destruct (ap_over s); [congruence|]. destruct (runDone s); [|congruence]. destruct (applySwitch _ _); cbn; [|congruence]. intros _. repeat split.
Qed.
(** A key that asks for a change, pressed while no other event waits and the run is not over: as long as neither the
    timeout nor a signal ends the run first, the next run is the one with that change. *)
Definition asked (c : MainConfig) (n : nat) (s : App) : Prop :=
  inv s /\ ap_over s = false /\ ap_run s = n /\ ap_late s = false /\ ap_ctx s = false /\ exists ev, applySwitch (ap_cfg s) ev = Some c /\ asks_switch ev = true /\ isChangeEvent (runnerConfig term (ap_cfg s)) ev = true /\
    (ru_switch (ap_ru s) = [ev] \/ (ru_cancelled (ap_ru s) = false /\ exists r, ap_keys s = ev :: r)).
Lemma asked_step c n s e : e <> AExpire -> about_signals e = false -> asked c n s -> asked c n (step s e) \/ (ap_run (step s e) = S n /\ ap_cfg (step s e) = c /\ ap_over (step s e) = false).
Proof.
  intros NE NS (I & O & R & La & Cx & ev & AS & Ask & Ch & Q). assert (I' : inv (step s e)) by now apply inv_step.
  assert (CP : forall s', inv s' -> ap_over s' = false -> ap_run s' = n -> ap_late s' = false -> ap_ctx s' = false -> ap_cfg s' = ap_cfg s -> (ru_switch (ap_ru s') = [ev] \/ (ru_cancelled (ap_ru s') = false /\ exists r, ap_keys s' = ev :: r)) -> asked c n s').
  { intros s' H1 H2 H3 H4 H5 H6 H7. refine (conj H1 (conj H2 (conj H3 (conj H4 (conj H5 _))))). exists ev. rewrite H6. auto. }
  revert I'. unfold aStep. rewrite O. destruct e as [| |k| |b| |]; try discriminate NS; intros I'.
  - left. destruct term; [|now apply CP]. apply CP; auto. destruct Q as [Q|[Q [r Qr]]]; [now left|right]. split; [exact Q|]. cbn. unfold ProcessKey. rewrite Qr. destruct (keyEvent esc k); [|eauto]. destruct (_ <? _)%nat; cbn; eauto.
  - congruence.
  - left. destruct (ap_hand s) eqn:H; try now apply CP. destruct b; [|now apply CP].
    assert (Cn : ru_cancelled (ap_ru s) = false). { destruct I as (_ & B & _). destruct (ru_cancelled (ap_ru s)); [destruct (B eq_refl); congruence|reflexivity]. }
    destruct I as (A & _ & _). specialize (A Cn). destruct Q as [Q|[_ [r Qr]]]; [congruence|]. rewrite Qr in *. apply CP; auto. left. cbn.
    destruct (runner_switch (runnerConfig term (ap_cfg s)) (ap_ru s) ev A Cn) as [[E _]|(E & _)]; [|exact E]. exfalso.
    assert (E2 : handleEvent (runnerConfig term (ap_cfg s)) (ap_ru s) ev = if isChangeEvent (runnerConfig term (ap_cfg s)) ev then mkRS (ru_paused (ap_ru s)) (tl (ru_switch (ap_ru s)) ++ [ev]) true (ru_calls (ap_ru s)) else ap_ru s) by (destruct ev; try discriminate Ask; reflexivity).
    rewrite E2, Ch in E. cbn in E. destruct (tl (ru_switch (ap_ru s))); discriminate.
  - left. destruct (ap_hand s) eqn:H; now apply CP.
  - destruct (runDone s) eqn:D; [|left; now apply CP]. unfold runDone in D. rewrite Cx, La in D. cbn in D. rewrite orb_false_r in D.
    destruct Q as [Q|[Q _]]; [|congruence]. right. unfold runResult. rewrite Q, AS. cbn. auto.
Qed.
Theorem C84_switch : forall c es k ev es', let s := run (app0 c) es in
  term = true -> keyEvent esc k = Some ev -> asks_switch ev = true -> isChangeEvent (runnerConfig term (ap_cfg s)) ev = true ->
  ap_keys s = [] -> runDone s = false -> ap_over s = false -> (forall e, In e es' -> e <> AExpire /\ about_signals e = false) ->
  ap_run (run s (AKey k :: es')) = ap_run s \/
  exists es1 es2, es' = es1 ++ es2 /\ ap_run (run s (AKey k :: es1)) = S (ap_run s) /\ Some (ap_cfg (run s (AKey k :: es1))) = applySwitch (ap_cfg s) ev.
Proof.
  intros c es k ev es' s Ht Hk Ask Ch He D O N. assert (I : inv s) by (apply inv_run, inv0). unfold runDone in D. apply orb_false_iff in D as [D La]. apply orb_false_iff in D as [Cx Cn].
  destruct (applySwitch (ap_cfg s) ev) as [c'|] eqn:AS; [|now destruct (change_applies term (ap_cfg s) ev Ask Ch)].
  assert (A0 : asked c' (ap_run s) (step s (AKey k))).
  { assert (I' : inv (step s (AKey k))) by (apply inv_step; exact I). revert I'. unfold aStep. rewrite O, Ht. intros I'. refine (conj I' (conj _ (conj _ (conj _ (conj _ _))))); auto. exists ev. cbn [ap_cfg set_hand]. repeat split; auto. right. split; [exact Cn|]. unfold ProcessKey. rewrite Hk, He. cbn. eauto. }
  change (run s (AKey k :: es')) with (run (step s (AKey k)) es').
  assert (G : forall l pre t, es' = pre ++ l -> run (step s (AKey k)) pre = t -> asked c' (ap_run s) t -> ap_run (run t l) = ap_run s \/ exists es1 es2, es' = es1 ++ es2 /\ ap_run (run (step s (AKey k)) es1) = S (ap_run s) /\ Some (ap_cfg (run (step s (AKey k)) es1)) = Some c').
  { induction l as [|e l IH]; intros pre t E Et At; [left; apply At|]. assert (Ne : e <> AExpire /\ about_signals e = false) by (apply N; rewrite E; apply in_or_app; right; now left).
    assert (Ep : run (step s (AKey k)) (pre ++ [e]) = step t e) by (rewrite run_app, Et; reflexivity).
    destruct (asked_step c' (ap_run s) t e (proj1 Ne) (proj2 Ne) At) as [A1|(B1 & B2 & B3)].
    - apply (IH (pre ++ [e]) (step t e)); auto. now rewrite <- app_assoc.
    - right. exists (pre ++ [e]), l. split; [now rewrite <- app_assoc|]. rewrite Ep. split; [exact B1|now rewrite B2]. }
  apply (G es' [] (step s (AKey k))); auto.
Qed.
End Life.

(** ** What goes wrong *)
(** For every goal, scale and pattern, every timeout: after one switch the program keeps running through any number of
    signals, as long as nobody presses a key and the timeout does not pass. *)
Theorem C82_after_switch_refuted : forall esc timeout c, special esc -> exists es, let s := aRun true esc timeout (app0 c) es in
  ap_run s = 1 /\ forall es', (forall e, In e es' -> (forall k, e <> AKey k) /\ e <> AExpire) -> ap_over (aRun true esc timeout s (es' ++ [ASignal; ASigStep; AReturn])) = false.
Proof.
  intros esc timeout c He. set (k := if (mc_scale c =? Tiny)%Z then rune "2"%char else rune "1"%char). set (ev := if (mc_scale c =? Tiny)%Z then ScaleSmall else ScaleTiny).
  assert (K : keyEvent esc k = Some ev). { rewrite key_esc; [|exact He|unfold k; destruct (_ =? _)%Z; vm_compute; discriminate]. unfold k, ev. destruct (_ =? _)%Z; reflexivity. }
  assert (CH : isChangeEvent (runnerConfig true c) ev = true). { unfold ev. destruct (mc_scale c =? Tiny)%Z eqn:Q; cbn; [apply Z.eqb_eq in Q; rewrite Q; reflexivity|now rewrite Q]. }
  assert (AS : exists c', applySwitch c ev = Some c'). { destruct (applySwitch c ev) eqn:Q; [eauto|]. exfalso. apply (change_applies true c ev); auto. unfold ev. destruct (_ =? _)%Z; reflexivity. } destruct AS as [c' AS].
  exists [ASigStep; AKey k; AHand true; AHand true; AReturn].
  assert (E : aRun true esc timeout (app0 c) [ASigStep; AKey k; AHand true; AHand true; AReturn] = mkApp c' 1 false false [] runner0 HTop SWait false false).
  { unfold aRun. cbn [fold_left]. set (s1 := aStep true esc timeout (app0 c) ASigStep). assert (E1 : s1 = mkApp c 0 false false [] runner0 HTop SWait false false) by reflexivity. rewrite E1.
    assert (PK : ProcessKey esc [] k = [ev]) by (unfold ProcessKey; rewrite K; reflexivity).
    assert (E2 : aStep true esc timeout (mkApp c 0 false false [] runner0 HTop SWait false false) (AKey k) = mkApp c 0 false false [ev] runner0 HTop SWait false false) by (unfold aStep; cbn [ap_over ap_keys]; rewrite PK; reflexivity). rewrite E2.
    assert (HE : handleEvent (runnerConfig true c) runner0 ev = mkRS false [ev] true []).
    { assert (Q : handleEvent (runnerConfig true c) runner0 ev = if isChangeEvent (runnerConfig true c) ev then mkRS false [ev] true [] else runner0) by (unfold ev; destruct (_ =? _)%Z; reflexivity). now rewrite Q, CH. }
    assert (E3 : aStep true esc timeout (aStep true esc timeout (mkApp c 0 false false [ev] runner0 HTop SWait false false) (AHand true)) (AHand true) = mkApp c 0 false false [] (mkRS false [ev] true []) HTop SWait false false).
    { change (aStep true esc timeout (mkApp c 0 false false [ev] runner0 HTop SWait false false) (AHand true)) with (mkApp c 0 false false [ev] runner0 HInner SWait false false). unfold aStep. cbn [ap_over ap_hand ap_keys ap_cfg ap_ru]. rewrite HE. reflexivity. }
    rewrite E3. unfold aStep, runDone, runResult. cbn [ap_over ap_ctx ap_ru ru_cancelled ap_late orb ru_switch ap_cfg]. rewrite AS. reflexivity. }
  rewrite E. split; [reflexivity|]. intros es' H. apply untouched_run.
  - intros e He'. apply in_app_or in He' as [Q|[<-|[<-|[<-|[]]]]]; [now apply H| | |]; split; intros; discriminate.
  - repeat split; discriminate.
Qed.
(** Even in the first run a switch key handled at the same moment wins over the signal. *)
Theorem C82_race_refuted : exists es, let s := aRun true (-1) 0 (app0 DefaultMainConfig) es in In ASignal es /\ ap_sig s = SDone /\ ap_run s = 1 /\ ap_over s = false /\ runDone s = false.
Proof. exists [ASigStep; AKey (rune "2"%char); AHand true; ASignal; ASigStep; AHand true; AReturn]. cbv zeta. split; [cbn; tauto|]. vm_compute. auto. Qed.
(** A quit key pressed right after a switch key is forgotten. *)
Theorem C83_after_switch_refuted : exists es, let s := aRun true (-1) 0 (app0 DefaultMainConfig) es in
  In (AKey (rune "q"%char)) es /\ keyEvent (-1) (rune "q"%char) = Some EventQuit /\ ap_run s = 1 /\ ap_keys s = [] /\ runDone s = false /\ ap_over s = false.
Proof. exists [AKey (rune "2"%char); AKey (rune "q"%char); AHand true; AHand true; AHand true; AReturn]. cbv zeta. split; [cbn; tauto|]. vm_compute. repeat split. Qed.
(** A Reset that does not return (C49) makes the hypotheses of [C83_busy_refuted] true. *)
Example C83_busy_example : let s := aRun true (-1) 0 (app0 DefaultMainConfig) [AKey (rune "r"%char); AHand true; AHand true] in
  ap_hand s = HBusy /\ runDone s = false /\ ap_over s = false /\ ru_calls (ap_ru s) = [CallReset].
Proof. vm_compute. auto. Qed.
Example C83_quit_example : let s := aRun true (-1) 0 (app0 DefaultMainConfig) [AKey (rune "p"%char); AHand true; AHand true] in
  keyEvent (-1) (rune "q"%char) = Some EventQuit /\ ap_keys s = [] /\ ru_cancelled (ap_ru s) = false /\ ap_hand s = HBusy.
Proof. vm_compute. auto. Qed.
(** A switch overtaken by the timeout is lost: the program ends. *)
Theorem C84_timeout_refuted : exists es, let s := aRun true (-1) 1 (app0 DefaultMainConfig) es in
  In (AKey (rune "2"%char)) es /\ keyEvent (-1) (rune "2"%char) = Some ScaleSmall /\ ap_run s = 0 /\ ap_over s = true.
Proof. exists [AKey (rune "2"%char); AExpire; AReturn]. cbv zeta. split; [cbn; tauto|]. vm_compute. repeat split. Qed.
(** Three keys, two restarts: the second key asks for the scale the program has. *)
Example C84_example : let s := aRun true (-1) 0 (app0 DefaultMainConfig) [AKey (rune "2"%char); AHand true; AHand true; AReturn; AKey (rune "2"%char); AHand true; AHand true; AReturn; AKey (rune "l"%char); AHand true; AHand true; AReturn] in
  ap_run s = 2 /\ mc_scale (ap_cfg s) = Small /\ mc_goal (ap_cfg s) = DistributeLoad /\ ap_over s = false.
Proof. vm_compute. auto. Qed.
Example C84_switch_example : let s := app0 DefaultMainConfig in
  asks_switch ScaleSmall = true /\ isChangeEvent (runnerConfig true (ap_cfg s)) ScaleSmall = true /\ ap_keys s = [] /\ runDone s = false /\ ap_over s = false.
Proof. vm_compute. auto. Qed.
Example C82_example : no_switch_key (-1) ([ASigStep; AKey (rune "p"%char)] ++ [AHand true] ++ [AHand true]) /\
  ap_over (aRun true (-1) 0 (app0 DefaultMainConfig) [ASigStep; AKey (rune "p"%char); AHand true; AHand true]) = false.
Proof. split; [|reflexivity]. intros k ev [E|[E|[E|[E|[]]]]]; try discriminate. injection E as <-. vm_compute. intros Q. injection Q as <-. reflexivity. Qed.

(** ** C85: the flags *)
(** The program runs with the scale named and the given timing exactly for a known scale name and a positive interval; an
    unknown name is reported. *)
Theorem C85_flags : forall name interval timeout,
  (forall c i t, startProgram name false interval timeout = Running c i t <->
     (0 < interval)%Z /\ snd (ParseScale name) = true /\ i = interval /\ t = timeout /\ c = mkMC MinimizeAPICalls (fst (ParseScale name)) Unset) /\
  (startProgram name false interval timeout = UnknownScale <-> ~ In name ["tiny"; "small"; "medium"; "large"; "huge"]%string) /\
  startProgram name true interval timeout = Listed.
Proof.
  intros name interval timeout. assert (PS : snd (ParseScale name) = false <-> ~ In name ["tiny"; "small"; "medium"; "large"; "huge"]%string).
  { unfold ParseScale. destruct (String.eqb_spec name "tiny"); [subst; cbn; intuition congruence|]. destruct (String.eqb_spec name "small"); [subst; cbn; intuition congruence|].
    destruct (String.eqb_spec name "medium"); [subst; cbn; intuition congruence|]. destruct (String.eqb_spec name "large"); [subst; cbn; intuition congruence|]. destruct (String.eqb_spec name "huge"); [subst; cbn; intuition congruence|]. cbn. intuition congruence. }
  unfold startProgram. destruct (ParseScale name) as [sc ok]. cbn [fst snd] in *. split; [|split; [|reflexivity]].
  - intros c i t. destruct ok; [|split; [discriminate|intros (_ & Q & _); discriminate]]. cbn. destruct (Z.leb_spec interval 0); split; intros Q; try discriminate; try (destruct Q; lia).
    + injection Q as <- <- <-. auto.
    + destruct Q as (_ & _ & -> & -> & ->). reflexivity.
  - rewrite <- PS. destruct ok; [|tauto]. destruct (interval <=? 0)%Z; split; discriminate.
Qed.
(** A zero or negative interval crashes the program. *)
Theorem C85_interval_refuted : forall name interval timeout, (interval <= 0)%Z -> snd (ParseScale name) = true -> startProgram name false interval timeout = Crashed.
Proof. intros name interval timeout H K. unfold startProgram. destruct (ParseScale name) as [sc ok]. cbn in K. subst. destruct (Z.leb_spec interval 0); [reflexivity|lia]. Qed.
(** A timeout that is not positive never ends a run. *)
Theorem C85_no_timeout : forall term esc timeout c es, (timeout <= 0)%Z -> ap_late (aRun term esc timeout (app0 c) es) = false.
Proof.
  intros term esc timeout c es H. induction es as [|e es IH] using rev_ind; [reflexivity|]. rewrite run_app. set (s := aRun term esc timeout (app0 c) es) in *. change (ap_late (aStep term esc timeout s e) = false).
  unfold aStep. destruct (ap_over s); [exact IH|]. destruct e as [| |k| |b| |].
  - destruct (ap_sig s); exact IH.
  - destruct (ap_sig s); try exact IH. destruct (ap_sigq s); [|exact IH]. destruct (Nat.eqb _ _); exact IH.
  - destruct term; exact IH.
  - destruct (Z.ltb_spec 0 timeout); [lia|exact IH].
  - destruct (ap_hand s); try exact IH. destruct b; [|exact IH]. destruct (ap_keys s); exact IH.
  - destruct (ap_hand s); exact IH.
  - destruct (runDone s); [|exact IH]. destruct (applySwitch _ _); [reflexivity|exact IH].
Qed.
Example C85_example : startProgram "small" false 100000000 300000000000 = Running (mkMC MinimizeAPICalls Small Unset) 100000000 300000000000 /\ startProgram "small" false 0 0 = Crashed.
Proof. split; reflexivity. Qed.
Print Assumptions C82_first_run. Print Assumptions C82_later_runs. Print Assumptions C82_after_switch_refuted. Print Assumptions C82_race_refuted.
Print Assumptions C83_quit_final. Print Assumptions C83_quit_prompt. Print Assumptions C83_busy_refuted. Print Assumptions C83_after_switch_refuted.
Print Assumptions C84_restarts. Print Assumptions C84_fresh. Print Assumptions C84_switch. Print Assumptions C84_timeout_refuted.
Print Assumptions C85_flags. Print Assumptions C85_interval_refuted. Print Assumptions C85_no_timeout.
