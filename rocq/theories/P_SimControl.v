(** Properties C49 and C50: resetting, pausing and resuming a simulation. *)
From Coq Require Import ZArith List Bool String Arith Lia.
From Verif Require Import M_SimControl S_SimControl.
Import ListNotations.
Open Scope nat_scope.
Open Scope list_scope.

(** ** C49 *)
Lemma rRun_app s a b : rRun s (a ++ b) = rRun (rRun s a) b.
Proof. unfold rRun. apply fold_left_app. Qed.

Definition sendf (w : WState) : bool := match w with WSend => true | _ => false end.
Lemma setW_send l : forall i, nth_error l i = Some WSend ->
  S (List.length (filter sendf (setW i WPoll l))) = List.length (filter sendf l).
Proof.
  induction l as [|a r IH]; intros [|i] H; cbn in *; try discriminate.
  - injection H as ->. reflexivity.
  - destruct a; cbn; rewrite <- (IH i H); reflexivity.
Qed.
Lemma sending_eq s : sending s = List.length (filter sendf (r_work s)).
Proof. reflexivity. Qed.

(** The stuck configuration. *)
Definition stuck (s : RS) : Prop := r_reset s = RRecv /\ r_queue s = 0 /\ sending s = 0.
Lemma nosend_nth l : List.length (filter sendf l) = 0 -> forall i w, nth_error l i = Some w -> w = WPoll.
Proof.
  induction l as [|a r IH]; intros H [|i] w E; cbn in *; try discriminate.
  - injection E as <-. destruct a; [reflexivity|discriminate].
  - destruct a; [|discriminate]. eapply IH; eassumption.
Qed.
Lemma stuck_step s e : stuck s -> stuck (rStep s e).
Proof.
  intros (R & Q & W). destruct s as [q p r w]. cbn in R, Q. rewrite sending_eq in W. cbn in W. subst r q.
  destruct e; cbn.
  - repeat split; cbn; auto.
  - destruct p; repeat split; cbn; auto.
  - destruct p; repeat split; cbn; auto.
  - destruct p as [| |[|n]|n]; repeat split; cbn; auto.
  - destruct (nth_error w i) as [x|] eqn:E; [|repeat split; cbn; auto].
    rewrite (nosend_nth w W i x E). cbn. repeat split; cbn; auto.
Qed.
Lemma stuck_run es : forall s, stuck s -> stuck (rRun s es).
Proof. induction es as [|e r IH]; intros s H; cbn; auto. apply IH. now apply stuck_step. Qed.

(** The number of Reset's own steps that are left at most. *)
Definition left_to_do (s : RS) : nat :=
  match r_reset s with
  | RIdle => 0
  | RSim => 2 * (r_queue s + sending s) + 4
  | RCheck => 2 * (r_queue s + sending s) + 3
  | RRecv => 2 * (r_queue s + sending s) + 2
  | RRest => 1
  | RDone => 0
  end.
Definition safe (s : RS) : Prop := r_reset s <> RIdle /\ (r_reset s = RRecv -> r_queue s > 0).
Lemma step_safe s e : safe s -> (e = EProcTake -> r_reset s <> RRecv) -> safe (rStep s e).
Proof.
  intros [A B] H. destruct s as [q p r w]. cbn in A, B, H. unfold safe.
  destruct e; cbn.
  - destruct r; cbn; try congruence; try (split; congruence).
    + destruct (bmLockedByProc _); cbn; split; congruence.
    + destruct q; cbn; split; try congruence; lia.
    + specialize (B eq_refl). destruct q; [lia|]. cbn. split; congruence.
  - specialize (H eq_refl). destruct q, p; cbn; split; auto; intros E; congruence.
  - destruct p; cbn; auto.
  - destruct p as [| |[|n]|n]; cbn; auto. destruct (bmLockedByReset _); cbn; auto.
  - destruct (nth_error w i) as [[|]|]; cbn; auto.
    + destruct r; cbn; auto; congruence.
    + split; auto. intros E. specialize (B E). match goal with |- context [if ?c then _ else _] => destruct c end; lia.
Qed.
Lemma step_left s e : safe s ->
  left_to_do (rStep s e) <= left_to_do s - (match e with EReset => if bmLockedByProc s then 0 else 1 | _ => 0 end).
Proof.
  intros [A B]. destruct s as [q p r w]. cbn in A, B.
  destruct e; unfold left_to_do; cbn [rStep r_reset r_queue r_proc r_work].
  - destruct r; cbn [r_reset r_queue]; try congruence.
    + destruct (bmLockedByProc _); cbn [r_reset r_queue]; unfold sending; cbn [r_work]; lia.
    + destruct (bmLockedByProc _), q; cbn [r_reset r_queue Nat.ltb Nat.leb]; unfold sending; cbn [r_work]; lia.
    + specialize (B eq_refl). destruct q; [lia|]. cbn [r_reset r_queue].
      destruct (bmLockedByProc _); unfold sending; cbn [r_work]; lia.
    + destruct (bmLockedByProc _); lia.
    + lia.
  - destruct q, p; cbn [r_reset r_queue]; unfold sending; cbn [r_work]; destruct r; lia.
  - destruct p; cbn [r_reset r_queue]; unfold sending; cbn [r_work]; destruct r; lia.
  - destruct p as [| |[|n]|n]; cbn [r_reset r_queue]; try (unfold sending; cbn [r_work]; destruct r; lia).
    destruct (bmLockedByReset _); cbn [r_reset r_queue]; unfold sending; cbn [r_work]; destruct r; lia.
  - destruct (nth_error w i) as [[|]|] eqn:E; cbn [r_reset r_queue]; try (unfold sending; cbn [r_work]; destruct r; lia).
    + destruct r; cbn [simLocked r_reset]; try congruence; unfold sending; cbn [r_reset r_queue r_work]; lia.
    + pose proof (setW_send w i E) as Hs.
      assert (X : (if b && (q <? 100) then S q else q) + sending (mkRSt (if b && (q <? 100) then S q else q) p r (setW i WPoll w)) <= q + sending (mkRSt q p r w))
        by (rewrite !sending_eq; cbn [r_work]; rewrite <- Hs; destruct (b && (q <? 100))%bool; lia).
      destruct r; lia.
Qed.
Lemma left_zero s : safe s -> left_to_do s = 0 -> r_reset s = RDone.
Proof. intros [A _] H. unfold left_to_do in H. destruct (r_reset s); try lia; congruence. Qed.
Lemma run_left es : forall s, safe s -> no_theft s es -> safe (rRun s es) /\ left_to_do (rRun s es) <= left_to_do s - reset_turns s es.
Proof.
  induction es as [|e r IH]; intros s S H; cbn [rRun fold_left reset_turns].
  - split; auto. cbn. lia.
  - destruct H as [H1 H2]. pose proof (step_safe s e S H1) as S'. destruct (IH _ S' H2) as [I J]. split; auto.
    pose proof (step_left s e S). unfold rRun in J. lia.
Qed.

(** REFUTED: a Reset that hangs.  One workload submits a batch, Reset sees the queue non-empty, the processor takes the
    batch: Reset waits for a batch that nobody can submit, because all workloads wait for the mutex Reset holds. *)
Definition theft : list REv := [EWork 0 true; EWork 0 true; EReset; EReset; EReset; EProcTake].
Theorem C49_reset_hangs_refuted : forall n, n > 0 ->
  exists es, resetting (rRun (running n) es) /\
    forall more, r_reset (rRun (running n) (es ++ more)) <> RDone.
Proof.
  intros n Hn. exists theft.
  assert (S : stuck (rRun (running n) theft)).
  { destruct n as [|n]; [lia|]. cbn. split; [reflexivity|]. split; [reflexivity|]. rewrite sending_eq; cbn.
    clear Hn. induction n; cbn; auto. }
  split.
  - destruct S as [E _]. split; rewrite E; discriminate.
  - intros more. rewrite rRun_app. destruct (stuck_run more _ S) as [E _]. rewrite E. discriminate.
Qed.

Lemma free_turns n : forall s, bmLockedByProc s = false -> no_theft s (repeat EReset n) /\ reset_turns s (repeat EReset n) = n.
Proof.
  induction n as [|n IH]; intros s H; [cbn; auto|].
  assert (H' : bmLockedByProc (rStep s EReset) = false).
  { destruct s as [q p r w]. unfold bmLockedByProc in *. cbn in H. destruct r; cbn; auto.
    - unfold bmLockedByProc; cbn. rewrite H. cbn. exact H.
    - destruct q; cbn; exact H. }
  destruct (IH _ H') as [A B]. cbn [repeat no_theft reset_turns]. rewrite H, B. repeat split; auto. discriminate.
Qed.
Lemma safe_finishes s : safe s -> exists es, r_reset (rRun s es) = RDone.
Proof.
  intros S.
  assert (F : exists pre, safe (rRun s pre) /\ bmLockedByProc (rRun s pre) = false).
  { destruct (bmLockedByProc s) eqn:E.
    - exists [EProcNext]. cbn [rRun fold_left]. split; [apply step_safe; auto; discriminate|].
      destruct s as [q p r w]. unfold bmLockedByProc in *. cbn in E. destruct p; try discriminate. reflexivity.
    - exists []. split; auto. }
  destruct F as (pre & S' & L). exists (pre ++ repeat EReset (left_to_do (rRun s pre))). rewrite rRun_app.
  destruct (free_turns (left_to_do (rRun s pre)) _ L) as [A B].
  destruct (run_left _ _ S' A) as [C D]. apply left_zero; [exact C|]. rewrite B in D. lia.
Qed.
Lemma find_send l : List.length (filter sendf l) > 0 -> exists i, nth_error l i = Some WSend.
Proof.
  induction l as [|a r IH]; cbn; [lia|]. destruct a; cbn; intros H.
  - destruct (IH H) as [i E]. now exists (S i).
  - now exists 0.
Qed.
(** Reset hangs exactly when it is at the receive, the queue is empty and no workload has passed its pause check. *)
Theorem C49_reset_hangs_iff : forall s,
  hangs s <-> r_reset s = RRecv /\ r_queue s = 0 /\ sending s = 0.
Proof.
  intros s. split.
  - intros [[R1 R2] H].
    assert (N : safe s -> False) by (intros S; destruct (safe_finishes s S) as [es E]; exact (H es E)).
    destruct (r_reset s) eqn:E; try (exfalso; apply N; split; [congruence|rewrite E; congruence]).
    split; auto. destruct (r_queue s) as [|q] eqn:Q; [|exfalso; apply N; split; [congruence|rewrite Q; lia]].
    split; auto. destruct (sending s) as [|n] eqn:W; auto. exfalso.
    rewrite sending_eq in W. destruct (find_send (r_work s)) as [i Hi]; [lia|].
    assert (S : safe (rStep s (EWork i true))).
    { destruct s as [q p r w]. cbn in E, Q, Hi. subst. unfold safe. cbn. rewrite Hi. cbn. split; [discriminate|lia]. }
    destruct (safe_finishes _ S) as [es F]. exact (H (EWork i true :: es) F).
  - intros K. split; [destruct K as [E _]; split; rewrite E; discriminate|].
    intros es. destruct (stuck_run es s K) as [E _]. rewrite E. discriminate.
Qed.
(** While it hangs the simulation's mutex is never released, no batch enters the queue, and no sent batch is recorded:
    the display, the workloads and the processor all stop. *)
Theorem C49_hang_blocks_all : forall s es, hangs s -> bmLockedByProc s = false ->
  simLocked (rRun s es) = true /\ r_queue (rRun s es) = 0 /\ bmLockedByProc (rRun s es) = false.
Proof.
  intros s es H L. apply C49_reset_hangs_iff in H. destruct (stuck_run es s H) as (A & B & _).
  unfold simLocked at 1. rewrite A. split; [reflexivity|]. split; [exact B|]. clear A B.
  revert s H L. induction es as [|e r IH]; intros s H L; [exact L|]. cbn [rRun fold_left]. apply IH; [now apply stuck_step|].
  destruct H as (R & Q & W). destruct s as [q p rr w]. unfold bmLockedByProc in *. cbn in R, Q, L. subst. destruct e; cbn.
  - exact L.
  - destruct p; exact L.
  - destruct p; cbn; auto.
  - destruct p as [| |[|n]|n]; cbn; auto.
  - destruct (nth_error w i) as [[|]|]; cbn; auto.
Qed.
(** Reset completes as soon as it has been given a bounded number of turns, in every schedule in which the processor
    takes no batch between the check and the receive. *)
Theorem C49_no_theft_completes : forall s es,
  r_reset s = RSim -> no_theft s es ->
  reset_turns s es >= 2 * (r_queue s + sending s) + 4 -> r_reset (rRun s es) = RDone.
Proof.
  intros s es R T H.
  assert (S : safe s) by (split; rewrite R; discriminate).
  destruct (run_left es s S T) as [A B]. apply left_zero; [exact A|].
  assert (left_to_do s = 2 * (r_queue s + sending s) + 4) by (unfold left_to_do; now rewrite R). lia.
Qed.
(** Example: a schedule with the processor taking batches outside the window, workloads sending during the reset. *)
Example C49_reset_example :
  let s := rRun (running 3) [EWork 0 true; EWork 0 true; EWork 1 true; EWork 2 true; EWork 2 true; EReset] in
  let es := [EReset; EProcTake; EReset; EWork 1 true; EReset; EProcTake; EReset; EReset; EReset; EReset; EReset; EReset; EReset; EReset] in
  r_reset s = RSim /\ no_theft s es /\ reset_turns s es >= 2 * (r_queue s + sending s) + 4 /\ sending s = 1 /\ r_queue s = 2 /\ r_reset (rRun s es) = RDone.
Proof. vm_compute. repeat split; try discriminate; repeat constructor. Qed.
(** Example: the hang, with two workloads. *)
Example C49_hang_example : hangs (rRun (running 2) theft) /\ bmLockedByProc (rRun (running 2) theft) = false.
Proof. split; [apply C49_reset_hangs_iff; cbn; auto|reflexivity]. Qed.

(** ** Every fair schedule *)
Lemma step_left_any s e : r_reset s <> RIdle -> r_reset (rStep s e) <> RIdle /\
  left_to_do (rStep s e) <= left_to_do s /\
  (e = EReset -> bmLockedByProc s = false -> left_to_do (rStep s e) < left_to_do s \/ r_reset s = RDone \/ (r_reset s = RRecv /\ r_queue s = 0)).
Proof.
  intros A. destruct s as [q p r w]. cbn in A.
  destruct e; unfold left_to_do; cbn [rStep r_reset r_queue r_proc r_work].
  - destruct r; cbn [r_reset r_queue]; try congruence.
    + destruct (bmLockedByProc _); cbn [r_reset r_queue]; unfold sending; cbn [r_work]; repeat split; try congruence; lia.
    + destruct q; cbn [r_reset r_queue Nat.ltb Nat.leb]; unfold sending; cbn [r_work]; repeat split; try congruence; lia.
    + destruct q; cbn [r_reset r_queue]; unfold sending; cbn [r_work]; repeat split; try congruence; try lia. auto.
    + repeat split; try congruence; lia.
    + repeat split; auto; congruence.
  - split; [|split; [|discriminate]]; destruct q, p; cbn [r_reset r_queue]; auto; unfold sending; cbn [r_work]; destruct r; lia.
  - split; [|split; [|discriminate]]; destruct p; cbn [r_reset r_queue]; auto; unfold sending; cbn [r_work]; destruct r; lia.
  - split; [|split; [|discriminate]]; destruct p as [| |[|n]|n]; try destruct (bmLockedByReset _); cbn [r_reset r_queue]; auto;
      unfold sending; cbn [r_work]; destruct r; lia.
  - split; [|split; [|discriminate]]; destruct (nth_error w i) as [[|]|] eqn:E; try destruct (simLocked _) eqn:L; cbn [r_reset r_queue]; auto;
      try (unfold sending; cbn [r_work]; destruct r; cbn in L; try congruence; lia).
    pose proof (setW_send w i E) as Hs.
    assert (X : (if b && (q <? 100) then S q else q) + sending (mkRSt (if b && (q <? 100) then S q else q) p r (setW i WPoll w)) <= q + sending (mkRSt q p r w))
      by (rewrite !sending_eq; cbn [r_work]; rewrite <- Hs; destruct (b && (q <? 100))%bool; lia).
    destruct r; lia.
Qed.
Lemma run_left_any es : forall s, r_reset s <> RIdle -> r_reset (rRun s es) <> RIdle /\ left_to_do (rRun s es) <= left_to_do s.
Proof.
  induction es as [|e es IH]; intros s H; [cbn; auto|]. destruct (step_left_any s e H) as (A & B & _). destruct (IH _ A) as [C D].
  split; [exact C|]. cbn [rRun fold_left]. unfold rRun in D. lia.
Qed.
(** A round in which the measure does not fall: Reset is at the receive all the time. *)
Lemma recv_stays e s : r_reset s = RRecv -> left_to_do (rStep s e) = left_to_do s -> r_reset (rStep s e) = RRecv.
Proof.
  intros R L. destruct s as [q p r w]. cbn in R. subst r. destruct e; cbn [rStep r_reset r_queue r_proc r_work] in *.
  - destruct q; [reflexivity|]. unfold left_to_do, sending in L. cbn [r_reset r_queue r_work] in L. lia.
  - now destruct q, p.
  - now destruct p.
  - destruct p as [| |[|n]|n]; try destruct (bmLockedByReset _); reflexivity.
  - destruct (nth_error w i) as [[|]|]; reflexivity.
Qed.
Lemma recv_stays_run es : forall s, r_reset s = RRecv -> left_to_do (rRun s es) = left_to_do s -> r_reset (rRun s es) = RRecv.
Proof.
  induction es as [|e es IH]; intros s R L; [exact R|]. cbn [rRun fold_left] in *.
  assert (N : r_reset s <> RIdle) by congruence. destruct (step_left_any s e N) as (A & B & _).
  destruct (run_left_any es _ A) as [_ C]. unfold rRun in C. apply IH; [apply recv_stays; auto; lia|unfold rRun; lia].
Qed.
(** While Reset is at the receive nobody passes the pause check, and whoever had passed it and gets a turn has sent. *)
Lemma setW_nth l : forall i j w, nth_error (setW i w l) j = if (i =? j)%nat then match nth_error l j with Some _ => Some w | None => None end else nth_error l j.
Proof.
  induction l as [|a r IH]; intros [|i] [|j] w; cbn; auto. now destruct (i =? j).
Qed.
Lemma recv_poll e s i : r_reset s = RRecv -> nth_error (r_work s) i <> Some WSend -> nth_error (r_work (rStep s e)) i <> Some WSend.
Proof.
  intros R H. destruct s as [q p r w]. cbn in R, H. subst r. destruct e as [| | | |j b]; cbn [rStep r_reset r_queue r_proc r_work].
  - destruct q; exact H.
  - destruct q, p; exact H.
  - destruct p; exact H.
  - destruct p as [| |[|n]|n]; try destruct (bmLockedByReset _); exact H.
  - destruct (nth_error w j) as [[|]|] eqn:E; cbn [simLocked r_reset r_work]; try exact H.
    rewrite setW_nth. destruct (Nat.eqb_spec j i) as [->|]; [|exact H]. rewrite E. discriminate.
Qed.
Lemma recv_turn s i b : r_reset s = RRecv -> nth_error (r_work (rStep s (EWork i b))) i <> Some WSend.
Proof.
  intros R. destruct s as [q p r w]. cbn in R. subst r. cbn [rStep r_reset r_queue r_proc r_work].
  destruct (nth_error w i) as [[|]|] eqn:E; cbn [simLocked r_reset r_work]; try (rewrite E; discriminate).
  rewrite setW_nth, Nat.eqb_refl, E. discriminate.
Qed.
Lemma recv_poll_run es i : forall s, r_reset s = RRecv -> left_to_do (rRun s es) = left_to_do s ->
  nth_error (r_work s) i <> Some WSend \/ (exists b, In (EWork i b) es) -> nth_error (r_work (rRun s es)) i <> Some WSend.
Proof.
  induction es as [|e es IH]; intros s R L H; [destruct H as [H|[b []]]; exact H|]. cbn [rRun fold_left] in *.
  assert (N : r_reset s <> RIdle) by congruence. destruct (step_left_any s e N) as (A & B & _).
  destruct (run_left_any es _ A) as [_ C]. unfold rRun in C.
  apply IH; [apply recv_stays; auto; lia|unfold rRun; lia|].
  destruct H as [H|[b [->|H]]]; [left; now apply recv_poll|left; now apply recv_turn|right; eauto].
Qed.
Lemma work_len e s : List.length (r_work (rStep s e)) = List.length (r_work s).
Proof.
  assert (W : forall l i w, List.length (setW i w l) = List.length l) by (induction l as [|a r IH]; intros [|i] w; cbn; auto).
  destruct s as [q p r w]. destruct e as [| | | |j b]; cbn [rStep r_reset r_queue r_proc r_work].
  - destruct r; cbn [r_work]; auto; [destruct (bmLockedByProc _)|destruct q]; reflexivity.
  - now destruct q, p.
  - now destruct p.
  - destruct p as [| |[|n]|n]; try destruct (bmLockedByReset _); reflexivity.
  - destruct (nth_error w j) as [[|]|]; try destruct (simLocked _); cbn [r_work]; auto.
Qed.
Lemma work_len_run es : forall s, List.length (r_work (rRun s es)) = List.length (r_work s).
Proof. induction es as [|e es IH]; intros s; [reflexivity|]. cbn [rRun fold_left]. etransitivity; [apply IH|apply work_len]. Qed.
Lemma no_send l : (forall i, nth_error l i <> Some WSend) -> List.length (filter sendf l) = 0.
Proof.
  induction l as [|a r IH]; intros H; [reflexivity|]. cbn. destruct a; cbn; [|exfalso; now apply (H 0)]. apply IH. intros i. exact (H (S i)).
Qed.
(** Where a free turn of Reset changes nothing. *)
Lemma turn_blocked es : forall s, r_reset s <> RIdle -> 1 <= reset_turns s es -> left_to_do (rRun s es) = left_to_do s ->
  r_reset (rRun s es) = RDone \/ exists a b, es = a ++ b /\ r_reset (rRun s a) = RRecv /\ r_queue (rRun s a) = 0 /\ left_to_do (rRun s a) = left_to_do s.
Proof.
  induction es as [|e es IH]; intros s H T L; [cbn in T; lia|]. cbn [rRun fold_left reset_turns] in *.
  destruct (step_left_any s e H) as (A & B & C). destruct (run_left_any es _ A) as [_ D]. unfold rRun in D.
  assert (Q : (e = EReset /\ bmLockedByProc s = false) \/ 1 <= reset_turns (rStep s e) es).
  { destruct e; auto. destruct (bmLockedByProc s); auto. }
  destruct Q as [[-> F]|Q].
  - destruct (C eq_refl F) as [X|[X|[X Y]]]; [lia| |].
    + left. clear -X. assert (G : forall es s, r_reset s = RDone -> r_reset (rRun s es) = RDone).
      { induction es0 as [|e es0 IH]; intros t E; [exact E|]. cbn [rRun fold_left]. apply IH. destruct t as [q p r w]. cbn in E. subst r.
        destruct e; cbn [rStep r_reset r_queue r_proc r_work]; auto; [now destruct q, p|now destruct p|destruct p as [| |[|n]|n]; try destruct (bmLockedByReset _); reflexivity|].
        destruct (nth_error w i) as [[|]|]; try destruct (simLocked _); reflexivity. }
      apply (G (EReset :: es)). exact X.
    + right. exists [], (EReset :: es). auto.
  - destruct (IH _ A Q) as [X|(a & b & -> & X & Y & Z)]; [unfold rRun; lia|auto|].
    right. exists (e :: a), b. split; [reflexivity|]. cbn [rRun fold_left]. unfold rRun in *. repeat split; auto. lia.
Qed.
Definition waiting (s : RS) : bool := match r_reset s with RRecv => (sending s =? 0)%nat | _ => false end.
Definition mu (s : RS) : nat := 2 * left_to_do s + (if waiting s then 0 else 1).
Lemma round_step s r : r_reset s <> RIdle -> fair_round s r -> r_reset s <> RDone -> ~ stuck s ->
  r_reset (rRun s r) = RDone \/ stuck (rRun s r) \/ mu (rRun s r) < mu s.
Proof.
  intros H [T W] ND NS. destruct (run_left_any r s H) as [H' L].
  destruct (Nat.eq_dec (left_to_do (rRun s r)) (left_to_do s)) as [E|E].
  2:{ right. right. unfold mu. destruct (waiting s), (waiting (rRun s r)); lia. }
  destruct (turn_blocked r s H T E) as [D|(a & b & -> & R & Q & LA)]; [auto|].
  rewrite rRun_app in *. set (m := rRun s a) in *.
  assert (RE : r_reset (rRun m b) = RRecv) by (apply recv_stays_run; auto; lia).
  (* at the start of the round Reset was already at the receive, or its arrival would have lowered the measure *)
  assert (RS0 : r_reset s = RRecv).
  { assert (G : forall a s, r_reset s <> RIdle -> r_reset (rRun s a) = RRecv -> left_to_do (rRun s a) = left_to_do s -> r_reset s = RRecv).
    { clear. induction a as [|e a IH]; intros s H R L; [exact R|]. cbn [rRun fold_left] in *.
      destruct (step_left_any s e H) as (A & B & _). destruct (run_left_any a _ A) as [_ C]. unfold rRun in C.
      assert (X : r_reset (rStep s e) = RRecv) by (apply IH; auto; unfold rRun; lia).
      assert (EQ : left_to_do (rStep s e) = left_to_do s) by lia. clear -X EQ H.
      destruct s as [q p r w]. destruct e; cbn [rStep r_reset r_queue r_proc r_work] in *.
      - destruct r; cbn [r_reset] in *; try discriminate; auto.
        + destruct (bmLockedByProc _); discriminate.
        + destruct q; cbn in X; [discriminate|]. unfold left_to_do, sending in EQ. cbn [r_reset r_queue r_work Nat.ltb Nat.leb] in EQ. lia.
      - destruct q, p; exact X.
      - destruct p; exact X.
      - destruct p as [| |[|n]|n]; try destruct (bmLockedByReset _); exact X.
      - destruct (nth_error w i) as [[|]|]; try destruct (simLocked _); exact X. }
    exact (G a s H R LA). }
  assert (SE : sending (rRun m b) = 0).
  { rewrite sending_eq. apply no_send. intros i.
    destruct (Nat.lt_ge_cases i (List.length (r_work s))) as [I|I].
    - destruct (W i I) as [x X]. replace (rRun m b) with (rRun s (a ++ b)) by apply rRun_app. apply recv_poll_run; [exact RS0|rewrite rRun_app; exact E|right; eauto].
    - replace (nth_error (r_work (rRun m b)) i) with (@None WState); [discriminate|]. symmetry. apply nth_error_None.
      unfold m. rewrite work_len_run, work_len_run. exact I. }
  destruct (r_queue (rRun m b)) as [|q] eqn:QE; [right; left; repeat split; auto|].
  right. right. unfold mu. rewrite E. unfold waiting. rewrite RE, SE, RS0. cbn [Nat.eqb].
  destruct (sending s =? 0) eqn:Z; [|lia]. exfalso. apply Nat.eqb_eq in Z.
  (* nobody could send from the start of the round: an empty queue stays empty *)
  assert (SM : sending m = 0).
  { rewrite sending_eq. apply no_send. intros i. unfold m. apply recv_poll_run; auto. left. intros C. rewrite sending_eq in Z.
    pose proof (nosend_nth _ Z i _ C). discriminate. }
  assert (ST : stuck m) by (repeat split; auto). pose proof (stuck_run b m ST) as (_ & Q0 & _). congruence.
Qed.
Lemma rounds_run rounds : forall s, r_reset s <> RIdle -> fair s rounds -> mu s <= List.length rounds ->
  r_reset (rRun s (List.concat rounds)) = RDone \/ stuck (rRun s (List.concat rounds)).
Proof.
  assert (DK : forall es s, r_reset s = RDone -> r_reset (rRun s es) = RDone).
  { induction es as [|e es IH]; intros t E; [exact E|]. cbn [rRun fold_left]. apply IH. destruct t as [q p r w]. cbn in E. subst r.
    destruct e; cbn [rStep r_reset r_queue r_proc r_work]; auto; [now destruct q, p|now destruct p|destruct p as [| |[|n]|n]; try destruct (bmLockedByReset _); reflexivity|].
    destruct (nth_error w i) as [[|]|]; try destruct (simLocked _); reflexivity. }
  induction rounds as [|r rounds IH]; intros s H F L.
  - cbn [List.length] in L. cbn [List.concat rRun fold_left]. unfold mu in L. destruct (waiting s) eqn:W; [|lia]. unfold waiting in W.
    unfold left_to_do in L. destruct (r_reset s); try discriminate. lia.
  - cbn [List.concat]. rewrite rRun_app. destruct F as [F1 F2]. cbn [List.length] in L.
    destruct (Nat.eq_dec (left_to_do s) 0) as [Z|Z].
    { left. rewrite <- rRun_app. apply DK. unfold left_to_do in Z. destruct (r_reset s); try lia; congruence. }
    assert (ND : r_reset s <> RDone) by (intros C; unfold left_to_do in Z; rewrite C in Z; lia).
    assert (DS : stuck s \/ ~ stuck s).
    { unfold stuck. destruct (r_reset s), (Nat.eq_dec (r_queue s) 0), (Nat.eq_dec (sending s) 0); try (left; repeat split; congruence); right; intros (A & B & C); congruence. }
    destruct DS as [S|NS]; [right; apply stuck_run, stuck_run, S|].
    destruct (round_step s r H F1 ND NS) as [D|[S|M]]; [left; now apply DK|right; now apply stuck_run|].
    apply IH; [apply run_left_any, H|exact F2|lia].
Qed.
(** In every schedule in which everybody keeps getting turns, Reset returns after a bounded number of rounds or hangs. *)
Theorem C49_fair : forall s rounds, r_reset s = RSim -> fair s rounds -> 4 * (r_queue s + sending s) + 9 <= List.length rounds ->
  r_reset (rRun s (List.concat rounds)) = RDone \/ hangs (rRun s (List.concat rounds)).
Proof.
  intros s rounds R F L. destruct (rounds_run rounds s) as [D|S]; auto; [congruence| |right; now apply C49_reset_hangs_iff].
  unfold mu, waiting, left_to_do. rewrite R. lia.
Qed.
Definition turn : list REv := [EReset; EWork 0 true; EWork 1 true].
Lemma turn_fair n : forall s, r_proc s = PWait -> List.length (r_work s) = 2 -> fair s (repeat turn n).
Proof.
  induction n as [|n IH]; intros s P L; [exact I|]. cbn [repeat fair].
  assert (K : forall e s, match e with EReset | EWork _ _ => r_proc (rStep s e) = r_proc s | _ => True end).
  { intros e t. destruct e; cbn [rStep]; auto.
    - destruct (r_reset t); cbn; auto; [destruct (bmLockedByProc t)|destruct (r_queue t)]; reflexivity.
    - destruct (nth_error (r_work t) i) as [[|]|]; try destruct (simLocked t); reflexivity. }
  split; [split|].
  - cbn [turn reset_turns]. unfold bmLockedByProc at 1. rewrite P. lia.
  - intros i. rewrite L. destruct i as [|[|i]]; intros Hi; [exists true; cbn; auto|exists true; cbn; auto|lia].
  - apply IH; [|now rewrite work_len_run]. unfold turn, rRun. cbn [fold_left].
    rewrite (K (EWork 1 true)), (K (EWork 0 true)), (K EReset). exact P.
Qed.
Example C49_fair_example :
  let s := rRun (running 2) [EWork 0 true; EWork 0 true; EWork 1 true; EReset] in
  r_reset s = RSim /\ r_queue s = 1 /\ sending s = 1 /\ fair s (repeat turn 17) /\ List.length (repeat turn 17) = 4 * (r_queue s + sending s) + 9 /\
  r_reset (rRun s (List.concat (repeat turn 17))) = RDone.
Proof. cbn zeta. repeat (split; [now try apply turn_fair|]). vm_compute. reflexivity. Qed.

(** ** C50 *)
Section C50.
Context {T : Type}.
Variable measure : list (string * T) -> T.
Variable zero : T.
Notation cS := (cStep measure).
Notation cR := (cRun measure).

Lemma cRun_app s a b : cR s (a ++ b) = cR (cR s a) b.
Proof. unfold cRun. apply fold_left_app. Qed.

(** The invariant of the disciplined histories. *)
Record inv (m : Mode) (s : Ctl T) : Prop := mk_inv {
  i_runs : forall k, In k (c_runs s) -> k < c_next s /\ (In k (c_cancelled s) \/ (m = Running /\ c_cur s = Some k));
  i_canc : forall k, In k (c_cancelled s) -> k < c_next s;
  i_cur : match c_cur s with Some k => k < c_next s | None => m = Unstarted end;
  i_parent : c_parent s = match m with Unstarted => false | _ => true end;
  i_paused : c_paused s = match m with Paused => true | _ => false end;
  i_pc : m = Paused -> match c_cur s with Some k => In k (c_cancelled s) | None => True end;
  i_rc : m = Running -> match c_cur s with Some k => ~ In k (c_cancelled s) | None => True end;
  i_un : m = Unstarted -> c_cur s = None /\ c_runs s = [] }.

Lemma in_remove_nth (l : list nat) : forall i k, In k (remove_nth i l) -> In k l.
Proof. induction l as [|a r IH]; intros [|i] k H; cbn in *; auto. destruct H; eauto. Qed.
Lemma disciplined_inv es m ph : disciplined es m -> inv m (cR (ctl0 zero ph) es).
Proof.
  induction 1; try rewrite cRun_app.
  - constructor; cbn; try tauto; try discriminate; auto.
  - destruct IHdisciplined as [A B C D E F G H'], (H' eq_refl) as [U V].
    set (s := cR (ctl0 zero ph) es) in *. clearbody s.
    unfold cR; cbn [fold_left cStep launch]. constructor; cbn; try discriminate; auto.
    + rewrite V. intros k [].
    + intros k Hk. specialize (B k Hk). lia.
    + intros _ Hk. specialize (B _ Hk). lia.
  - destruct IHdisciplined as [A B C D E F G H'].
    set (s := cR (ctl0 zero ph) es) in *. clearbody s.
    unfold cR; cbn [fold_left cStep]. constructor; cbn; try discriminate; auto.
    + intros k Hk. destruct (A k Hk) as [A1 [A2|[_ A2]]]; split; auto; left.
      * destruct (c_cur s); cbn; auto.
      * rewrite A2. now left.
    + intros k. destruct (c_cur s) eqn:E'; cbn; auto. intros [<-|Hk]; auto.
    + destruct (c_cur s); auto. discriminate.
    + destruct (c_cur s); cbn; auto.
  - destruct IHdisciplined as [A B C D E F G H'].
    set (s := cR (ctl0 zero ph) es) in *. clearbody s.
    unfold cR; cbn [fold_left cStep]. rewrite D. constructor; cbn; try discriminate; auto.
    + intros k Hk. destruct (A k Hk) as [A1 [A2|[A2 _]]]; [|discriminate]. split; auto.
    + intros k Hk. specialize (B k Hk). lia.
    + intros _ Hk. specialize (B _ Hk). lia.
  - destruct IHdisciplined as [A B C D E F G H'].
    set (s := cR (ctl0 zero ph) es) in *. clearbody s.
    unfold cR; cbn [fold_left cStep]. destruct (c_launched s) as [|n]; [now constructor|].
    destruct (c_cur s) as [k|] eqn:K; [|constructor; auto; now rewrite K].
    constructor; cbn; rewrite ?K; auto.
    + intros j [<-|Hj]; auto. split; auto. destruct m; auto. destruct (H' eq_refl); discriminate.
    + intros ->. destruct (H' eq_refl). discriminate.
  - destruct IHdisciplined as [A B C D E F G H'].
    set (s := cR (ctl0 zero ph) es) in *. clearbody s.
    unfold cR; cbn [fold_left cStep]. constructor; cbn; auto.
    + intros k Hk. apply A. eapply in_remove_nth; eassumption.
    + intros M. destruct (H' M) as [U V]. rewrite V. split; auto. now destruct i.
  - destruct IHdisciplined as [A B C D E F G H'].
    set (s := cR (ctl0 zero ph) es) in *. clearbody s.
    unfold cR; cbn [fold_left cStep]. constructor; cbn; auto.
Qed.

Lemma in_exb k (l : list nat) : existsb (Nat.eqb k) l = true <-> In k l.
Proof. rewrite existsb_exists. split; [intros (x & H & E); apply Nat.eqb_eq in E; now subst|intros H; exists k; split; auto; apply Nat.eqb_refl]. Qed.
Lemma live_nil (s : Ctl T) : (forall k, In k (c_runs s) -> In k (c_cancelled s)) -> live s = [].
Proof.
  unfold live. intros H. induction (c_runs s) as [|a r IH]; [reflexivity|]. cbn.
  assert (E : existsb (Nat.eqb a) (c_cancelled s) = true) by (apply in_exb, H; now left). rewrite E. cbn.
  apply IH. intros k Hk. apply H. now right.
Qed.

(** Paused, by a user who starts once and then alternates Pause and Resume: no run is active, at every moment until the
    Resume, whatever goroutines are scheduled late. *)
Theorem C50_pause_stops : forall es ph, disciplined es Paused -> live (cR (ctl0 zero ph) es) = [].
Proof.
  intros es ph H. pose proof (disciplined_inv es Paused ph H) as I. apply live_nil. intros k Hk.
  destruct (i_runs _ _ I k Hk) as [_ [C|[C _]]]; [exact C|discriminate].
Qed.

(** While running, every active run is under the current context. *)
Theorem C50_live_current : forall es ph k, disciplined es Running -> In k (live (cR (ctl0 zero ph) es)) ->
  c_cur (cR (ctl0 zero ph) es) = Some k.
Proof.
  intros es ph k H Hk. pose proof (disciplined_inv es Running ph H) as I. unfold live in Hk. apply filter_In in Hk.
  destruct Hk as [Hk E]. destruct (i_runs _ _ I k Hk) as [_ [C|[_ C]]]; auto.
  apply in_exb in C. rewrite C in E. discriminate.
Qed.

Definition quiet (e : CEv T) : Prop := match e with Begin | Change _ => True | _ => False end.
Lemma quiet_run ms : forall (s : Ctl T) k, Forall quiet ms -> c_cur s = Some k ->
  let s' := cR s ms in c_runs s' = repeat k (Nat.min (c_launched s) (begins ms)) ++ c_runs s /\ c_cancelled s' = c_cancelled s.
Proof.
  induction ms as [|e r IH]; intros s k Q K; cbn zeta.
  - cbn [begins filter List.length]. rewrite Nat.min_0_r. auto.
  - inversion Q as [|? ? Q1 Q2]; subst. cbn [cRun fold_left]. destruct e; cbn [quiet] in Q1; try contradiction; cbn [cStep].
    + change (begins (Begin :: r)) with (S (begins r)). rewrite K. destruct (c_launched s) as [|n] eqn:L.
      * destruct (IH s k Q2 K) as [X Y]. rewrite L in X. cbn [Nat.min] in *. auto.
      * destruct (IH (mkCtl (c_parent s) (Some k) (c_next s) (c_cancelled s) n (k :: c_runs s) (c_paused s) (c_pcoh s) (c_pphases s) (c_phases s)) k Q2 eq_refl) as [X Y].
        cbn [c_launched c_runs c_cancelled] in X, Y. unfold cRun in X, Y. rewrite X, Y. split; auto.
        cbn [Nat.min repeat app]. change (k :: c_runs s) with ([k] ++ c_runs s). rewrite app_assoc, <- repeat_cons. reflexivity.
    + change (begins (Change f :: r)) with (begins r). apply (IH (mkCtl _ _ _ _ _ _ _ _ _ _) k Q2 K).
Qed.
(** Resumed: the active runs are one for each goroutine that begins, the new one and all those launched earlier and not
    yet scheduled. *)
Theorem C50_resume_count : forall es ph ms, disciplined es Paused -> Forall quiet ms ->
  List.length (live (cR (ctl0 zero ph) (es ++ Resume :: ms))) = Nat.min (S (c_launched (cR (ctl0 zero ph) es))) (begins ms).
Proof.
  intros es ph ms H Q. pose proof (disciplined_inv es Paused ph H) as I.
  rewrite cRun_app. set (s := cR (ctl0 zero ph) es) in *. clearbody s. cbn [cRun fold_left]. cbn [cStep].
  rewrite (i_parent _ _ I). cbn [launch].
  destruct (quiet_run ms (launch s true false) (c_next s) Q eq_refl) as [X Y].
  unfold cRun, launch in X, Y. unfold launch, live. rewrite X, Y. cbn [c_runs c_cancelled c_launched].
  assert (E : existsb (Nat.eqb (c_next s)) (c_cancelled s) = false).
  { destruct (existsb _ _) eqn:E; auto. apply in_exb in E. pose proof (i_canc _ _ I _ E). lia. }
  assert (R : live s = []).
  { apply live_nil. intros k Hk. destruct (i_runs _ _ I k Hk) as [_ [C|[C _]]]; [exact C|discriminate]. }
  unfold live in R. rewrite filter_app, R, app_nil_r.
  generalize (Nat.min (S (c_launched s)) (begins ms)). intros n. induction n as [|n IH]; [reflexivity|]. cbn [repeat filter]. rewrite E. cbn [negb List.length]. now rewrite IH.
Qed.
(** Exactly one when every goroutine launched earlier has begun. *)
Theorem C50_resume_one : forall es ph ms, disciplined es Paused -> c_launched (cR (ctl0 zero ph) es) = 0 ->
  Forall quiet ms -> In Begin ms ->
  List.length (live (cR (ctl0 zero ph) (es ++ Resume :: ms))) = 1.
Proof.
  intros es ph ms H L Q B. rewrite C50_resume_count, L by auto.
  assert (X : 1 <= begins ms). { clear -B. unfold begins. induction ms as [|e r IH]; [contradiction|]. destruct B as [->|B]; [cbn; lia|]. specialize (IH B). destruct e; cbn; lia. }
  lia.
Qed.

(** While paused the coherence and the phases shown are those of the moment of the pause, whatever the runs, Reset and
    Disrupt do. *)
Lemma find_map (f : string -> T -> T) m id :
  find (map (fun p => (fst p, f (fst p) (snd p))) m) id = match find m id with Some v => Some (f id v) | None => None end.
Proof.
  induction m as [|[k v] r IH]; [reflexivity|]. cbn. destruct (String.eqb_spec k id); [now subst|exact IH].
Qed.
Theorem C50_paused_frozen : forall s es, no_toggle es ->
  let a := cR s [Pause] in let b := cR a es in
  shownCoherence measure b = measure (c_phases s) /\ (forall id, shownPhase b id = find (c_phases s) id).
Proof.
  intros s es H a. cbn zeta.
  assert (K : forall ns b, no_toggle ns -> c_paused b = true /\ c_pcoh b = measure (c_phases s) /\ c_pphases b = c_phases s /\
                (forall id, find (c_phases s) id = None -> find (c_phases b) id = None) ->
              let c := cR b ns in c_paused c = true /\ c_pcoh c = measure (c_phases s) /\ c_pphases c = c_phases s /\
                (forall id, find (c_phases s) id = None -> find (c_phases c) id = None)).
  { clear es H a. induction ns as [|e r IH]; intros b Q (A & B & C & D); [cbn zeta; unfold cRun; cbn [fold_left]; auto|].
    inversion Q as [|? ? [Q1 Q1'] Q2]; subst. cbn [cRun fold_left]. apply IH; [exact Q2|].
    destruct e; try congruence; cbn [cStep].
    - cbn. auto.
    - destruct (c_launched b), (c_cur b); cbn; auto.
    - cbn. auto.
    - cbn. repeat split; auto. intros id Hn. rewrite find_map, (D id Hn). reflexivity. }
  destruct (K es a H) as (A & B & C & D); [cbn; auto|].
  unfold shownCoherence, shownPhase. rewrite A, B, C. split; [reflexivity|].
  intros id. destruct (find (c_phases s) id) eqn:E; [reflexivity|]. now apply D.
Qed.
End C50.

(** Example of the hypotheses: a start, a pause, a goroutine of the first start scheduled only after the pause. *)
Definition sum_phases (l : list (string * nat)) : nat := fold_right (fun p x => snd p + x) 0 l.
Definition two : list (string * nat) := [("agent-0"%string, 3); ("agent-1"%string, 5)].
Example C50_pause_example : disciplined (T := nat) [Start; Pause; Begin; Change (fun _ x => S x)] Paused /\
  c_runs (cRun sum_phases (ctl0 0 two) [Start; Pause; Begin; Change (fun _ x => S x)]) = [0] /\
  live (cRun sum_phases (ctl0 0 two) [Start; Pause; Begin; Change (fun _ x => S x)]) = [].
Proof.
  split; [|split; reflexivity].
  apply (d_change [Start; Pause; Begin]), (d_begin [Start; Pause]), (d_pause [Start]), (d_start []), d_nil.
Qed.
Example C50_resume_example :
  let es := [Start; Begin; Change (fun _ x => S x); Pause] in
  disciplined (T := nat) es Paused /\ c_launched (cRun sum_phases (ctl0 0 two) es) = 0 /\
  live (cRun sum_phases (ctl0 0 two) (es ++ Resume :: [Begin; Change (fun _ x => S x)])) = [1].
Proof.
  cbn zeta. split; [|split; reflexivity].
  apply (d_pause [Start; Begin; Change _]), (d_change [Start; Begin]), (d_begin [Start]), (d_start []), d_nil.
Qed.
Example C50_frozen_example :
  let s := cRun sum_phases (ctl0 0 two) [Start; Begin] in
  let b := cRun sum_phases (cRun sum_phases s [Pause]) [Change (fun _ x => 2 * x)] in
  shownCoherence sum_phases b = 8 /\ sum_phases (c_phases b) = 16 /\ shownPhase b "agent-1" = Some 5.
Proof. cbn. auto. Qed.

(** REFUTED in general: three histories of the three calls. *)
(** Resume without a Pause (the space bar while running): a second run, and after Pause the first is still active. *)
Theorem C50_double_resume_refuted : exists es,
  es = [Start; Begin; Resume; Begin] /\
  List.length (live (cRun sum_phases (ctl0 0 two) es)) = 2 /\
  live (cRun sum_phases (ctl0 0 two) (es ++ [Pause])) = [0].
Proof. eexists. split; [reflexivity|]. split; reflexivity. Qed.
(** Pause before Start: paused, but the run of Start is active. *)
Theorem C50_pause_before_start_refuted : exists es,
  es = [Pause; Start; Begin] /\
  c_paused (cRun sum_phases (ctl0 0 two) es) = true /\ live (cRun sum_phases (ctl0 0 two) es) = [0].
Proof. eexists. split; [reflexivity|]. split; reflexivity. Qed.
(** A goroutine scheduled late reads the context of a later Resume: disciplined use, yet two runs after Resume. *)
Theorem C50_late_goroutine_refuted : exists es,
  disciplined (T := nat) es Running /\ c_launched (cRun sum_phases (ctl0 0 two) es) = 0 /\
  live (cRun sum_phases (ctl0 0 two) es) = [1; 1].
Proof.
  exists [Start; Pause; Resume; Begin; Begin]. split; [|split; reflexivity].
  apply (d_begin [Start; Pause; Resume; Begin]), (d_begin [Start; Pause; Resume]), (d_resume [Start; Pause]), (d_pause [Start]), (d_start []), d_nil.
Qed.
(** The number of active runs is not bounded: each further Resume adds one. *)
Theorem C50_runs_unbounded_refuted : forall n, exists es, List.length (live (cRun sum_phases (ctl0 0 two) es)) = n /\ ~ In Pause es.
Proof.
  assert (K : forall n, exists es, ~ In Pause es /\ (n <> 0 -> c_parent (cRun sum_phases (ctl0 0 two) es) = true) /\
  c_launched (cRun sum_phases (ctl0 0 two) es) = 0 /\ c_cancelled (cRun sum_phases (ctl0 0 two) es) = [] /\
  List.length (c_runs (cRun sum_phases (ctl0 0 two) es)) = n).
  { induction n as [|n (es & P & A & B & C & D)].
    - exists []. cbn. repeat split; auto; congruence.
    - exists (es ++ [if Nat.eqb n 0 then Start else Resume; Begin]).
      unfold cRun in *. rewrite fold_left_app. set (s := fold_left _ es _) in *. clearbody s.
      destruct (Nat.eqb_spec n 0) as [->|Hn].
      + cbn. rewrite B. cbn. rewrite C, D. repeat split; auto.
        intros X. apply in_app_or in X. destruct X as [X|[X|[X|[]]]]; auto; discriminate.
      + cbn. rewrite (A Hn). cbn. rewrite B. cbn. rewrite C, D. repeat split; auto.
        intros X. apply in_app_or in X. destruct X as [X|[X|[X|[]]]]; auto; discriminate. }
  intros n. destruct (K n) as (es & P & _ & _ & C & D). exists es. split; [|exact P].
  unfold live. rewrite C. cbn. rewrite <- D. clear. induction (c_runs _) as [|a r IH]; [reflexivity|]. cbn. now rewrite IH.
Qed.

Print Assumptions C49_reset_hangs_refuted.
Print Assumptions C49_reset_hangs_iff.
Print Assumptions C49_hang_blocks_all.
Print Assumptions C49_no_theft_completes.
Print Assumptions C49_fair.
Print Assumptions C50_resume_count.
Print Assumptions C50_pause_stops.
Print Assumptions C50_live_current.
Print Assumptions C50_resume_one.
Print Assumptions C50_paused_frozen.
Print Assumptions C50_double_resume_refuted.
Print Assumptions C50_pause_before_start_refuted.
Print Assumptions C50_late_goroutine_refuted.
Print Assumptions C50_runs_unbounded_refuted.
