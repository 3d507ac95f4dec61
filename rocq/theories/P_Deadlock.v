(** Property theorems C39 (monitor calls and deadlock). *)
From Coq Require Import List Bool Arith Lia.
From Verif Require Import M_RWMutex.
Import ListNotations.

(** Every goroutine has made all its calls. *)
Definition finished (s : LSys) : Prop := Forall (fun p => p = []) (ls_threads s).
(** No goroutine can move. *)
Definition stuck (s : LSys) : Prop := forall i, lockStep s i = None.
Definition writes (c : Call) : bool := match c with CRecord | CReset => true | _ => false end.
Definition nests (c : Call) : bool := match c with CPredict cv _ => negb cv | CStatistics _ _ => true | _ => false end.

(** ** Invariant: what each goroutine holds. *)
Inductive Held := HR (n : nat) | HW.
Inductive okProg (nest : bool) : Held -> list LockOp -> Prop :=
| ok_nil : okProg nest (HR 0) []
| ok_rlock n p : (nest = true \/ n = 0) -> okProg nest (HR (S n)) p -> okProg nest (HR n) (RLock :: p)
| ok_runlock n p : okProg nest (HR n) p -> okProg nest (HR (S n)) (RUnlock :: p)
| ok_lock p : okProg nest HW p -> okProg nest (HR 0) (Lock :: p)
| ok_unlock p : okProg nest (HR 0) p -> okProg nest HW (Unlock :: p).
Definition reads (h : Held) : nat := match h with HR n => n | HW => 0 end.
Definition isW (h : Held) : nat := match h with HR _ => 0 | HW => 1 end.
Fixpoint sum (f : Held -> nat) (l : list Held) : nat := match l with [] => 0 | h :: r => f h + sum f r end.
Record inv (nest : bool) (s : LSys) (hs : list Held) : Prop := {
  i_ok : Forall2 (okProg nest) hs (ls_threads s);
  i_r : rw_readers (ls_rw s) = sum reads hs;
  i_w : (if rw_writer (ls_rw s) then 1 else 0) = sum isW hs;
  i_x : rw_writer (ls_rw s) = true -> rw_readers (ls_rw s) = 0 /\ rw_pending (ls_rw s) = None;
  i_p : forall i, rw_pending (ls_rw s) = Some i -> exists p, nth_error (ls_threads s) i = Some (Lock :: p) }.

Lemma sum_app f l1 l2 : sum f (l1 ++ l2) = sum f l1 + sum f l2.
Proof. induction l1; cbn; lia. Qed.
Lemma upd_mid {A} (l1 l2 : list A) x y : upd (l1 ++ x :: l2) (List.length l1) y = l1 ++ y :: l2.
Proof.
  unfold upd. rewrite firstn_app, Nat.sub_diag, firstn_all, firstn_O, app_nil_r. f_equal. f_equal.
  replace (S (List.length l1)) with (List.length (l1 ++ [x])) by (rewrite app_length; cbn; lia).
  replace (l1 ++ x :: l2) with ((l1 ++ [x]) ++ l2) by (rewrite <- app_assoc; reflexivity).
  now rewrite skipn_app, skipn_all, Nat.sub_diag.
Qed.
Lemma split_at nest hs ts i p : Forall2 (okProg nest) hs ts -> nth_error ts i = Some p ->
  exists hs1 h hs2 ts1 ts2, hs = hs1 ++ h :: hs2 /\ ts = ts1 ++ p :: ts2 /\ List.length ts1 = i /\ okProg nest h p /\
    Forall2 (okProg nest) hs1 ts1 /\ Forall2 (okProg nest) hs2 ts2.
Proof.
  intros F E. apply nth_error_split in E. destruct E as (ts1 & ts2 & -> & L).
  apply Forall2_app_inv_r in F. destruct F as (hs1 & hs' & F1 & F2 & ->). inversion F2; subst.
  exists hs1, x, l, ts1, ts2. repeat (split; [auto; fail|]). auto.
Qed.
Lemma mid nest hs1 h hs2 ts1 p ts2 : okProg nest h p -> Forall2 (okProg nest) hs1 ts1 -> Forall2 (okProg nest) hs2 ts2 ->
  Forall2 (okProg nest) (hs1 ++ h :: hs2) (ts1 ++ p :: ts2).
Proof. intros. apply Forall2_app; auto. Qed.
Lemma pend_keep (ts1 ts2 : list (list LockOp)) p p' j : (forall q, p <> Lock :: q) ->
  (exists q, nth_error (ts1 ++ p :: ts2) j = Some (Lock :: q)) -> exists q, nth_error (ts1 ++ p' :: ts2) j = Some (Lock :: q).
Proof.
  intros NP (q & E). exists q. destruct (Nat.lt_trichotomy j (List.length ts1)) as [H|[H|H]].
  - rewrite nth_error_app1 in * by auto. auto.
  - subst j. rewrite nth_error_app2, Nat.sub_diag in E by lia. cbn in E. injection E as E. now apply NP in E.
  - rewrite nth_error_app2 in * by lia. destruct (j - List.length ts1) eqn:D; [lia|]. exact E.
Qed.

Lemma inv_step nest s hs i s' : inv nest s hs -> lockStep s i = Some s' -> exists hs', inv nest s' hs'.
Proof.
  intros [I1 I2 I3 I4 I5] E. unfold lockStep in E. cbv zeta in E.
  destruct (nth_error (ls_threads s) i) as [[|[| | |] p]|] eqn:N; try discriminate.
  - destruct (rw_pending (ls_rw s)) eqn:P; [discriminate|]. destruct (rw_writer (ls_rw s)) eqn:W; [discriminate|]. injection E as <-.
    destruct (split_at _ _ _ _ _ I1 N) as (hs1 & h & hs2 & ts1 & ts2 & -> & ET & L & O & F1 & F2).
    inversion O as [|n p' G O' | | |]; subst. exists (hs1 ++ HR (S n) :: hs2). rewrite ET, upd_mid. rewrite sum_app in I2, I3. cbn [sum reads isW] in *.
    constructor; cbn [ls_rw ls_threads rw_readers rw_writer rw_pending]; rewrite ?sum_app; cbn [sum reads isW]; try lia; try discriminate.
    apply mid; auto.
  - destruct (rw_readers (ls_rw s)) as [|m] eqn:R; [discriminate|]. injection E as <-.
    destruct (split_at _ _ _ _ _ I1 N) as (hs1 & h & hs2 & ts1 & ts2 & -> & ET & L & O & F1 & F2).
    inversion O as [| |n p' O' | |]; subst. exists (hs1 ++ HR n :: hs2). rewrite ET, upd_mid. rewrite sum_app in I2, I3. cbn [sum reads isW] in *.
    constructor; cbn [ls_rw ls_threads rw_readers rw_writer rw_pending]; rewrite ?sum_app; cbn [sum reads isW]; try lia.
    + apply mid; auto.
    + intros W. destruct (I4 W) as [? ?]. discriminate.
    + intros j PJ. specialize (I5 j PJ). rewrite ET in I5. eapply pend_keep; [|exact I5]. discriminate.
  - destruct (rw_pending (ls_rw s)) as [j|] eqn:P; destruct (rw_writer (ls_rw s)) eqn:W; try discriminate.
    + destruct (Nat.eqb_spec j i) as [->|]; [|discriminate]. destruct (Nat.eqb_spec (rw_readers (ls_rw s)) 0) as [R|]; [|discriminate].
      cbn [andb] in E. injection E as <-.
      destruct (split_at _ _ _ _ _ I1 N) as (hs1 & h & hs2 & ts1 & ts2 & -> & ET & L & O & F1 & F2).
      inversion O as [| | |p' O'|]; subst. exists (hs1 ++ HW :: hs2). rewrite ET, upd_mid. rewrite sum_app in I2, I3. cbn [sum reads isW] in *.
      constructor; cbn [ls_rw ls_threads rw_readers rw_writer rw_pending]; rewrite ?sum_app; cbn [sum reads isW]; try lia; try discriminate; auto.
      apply mid; auto.
    + injection E as <-. exists hs. constructor; cbn [ls_rw ls_threads rw_readers rw_writer rw_pending]; auto; try discriminate.
      intros j [= <-]. eauto.
  - destruct (rw_writer (ls_rw s)) eqn:W; [|discriminate]. injection E as <-.
    destruct (I4 eq_refl) as [R P].
    destruct (split_at _ _ _ _ _ I1 N) as (hs1 & h & hs2 & ts1 & ts2 & -> & ET & L & O & F1 & F2).
    inversion O as [| | | |p' O']; subst. exists (hs1 ++ HR 0 :: hs2). rewrite ET, upd_mid. rewrite sum_app in I2, I3. cbn [sum reads isW] in *.
    constructor; cbn [ls_rw ls_threads rw_readers rw_writer rw_pending]; rewrite ?sum_app; cbn [sum reads isW]; try lia; try discriminate.
    + apply mid; auto.
    + intros j PJ. congruence.
Qed.
Lemma inv_run nest l : forall s hs s', inv nest s hs -> lockRun s l = Some s' -> exists hs', inv nest s' hs'.
Proof.
  induction l as [|i l IH]; intros s hs s' I E; cbn [lockRun] in E; [injection E as <-; eauto|].
  destruct (lockStep s i) as [s1|] eqn:E1; [|discriminate]. destruct (inv_step _ _ _ _ _ I E1) as [hs1 I1]. eauto.
Qed.
Lemma inv_start nest progs : Forall (okProg nest (HR 0)) progs -> inv nest (lockStart progs) (repeat (HR 0) (List.length progs)).
Proof.
  intros F. assert (S0 : forall f n, f (HR 0) = 0 -> sum f (repeat (HR 0) n) = 0) by (intros f n Hf; induction n; cbn; lia).
  constructor; cbn [lockStart ls_rw ls_threads rw_readers rw_writer rw_pending]; try discriminate.
  - induction F; cbn; auto.
  - rewrite S0; auto. - rewrite S0; auto.
Qed.

(** Programs of goroutines. *)
Lemma ok_app nest p q : okProg nest (HR 0) q -> forall h, okProg nest h p -> okProg nest h (p ++ q).
Proof. intros Q h P. induction P; cbn [app]; auto; constructor; auto. Qed.
Lemma call_ok nest c : (nests c = true -> nest = true) -> okProg nest (HR 0) (callProg c).
Proof.
  intros H. destruct c as [| | | | | | | |[] []|[] []]; cbn [nests negb] in H; cbn; unfold readProg, writeProg; cbn;
  repeat (first [apply ok_nil | apply ok_runlock | apply ok_rlock; [auto|] | apply ok_lock | apply ok_unlock]).
Qed.
Lemma goroutine_ok nest cs : (forall c, In c cs -> nests c = true -> nest = true) -> okProg nest (HR 0) (goroutine cs).
Proof.
  induction cs as [|c cs IH]; intros H; cbn [goroutine flat_map]; [constructor|].
  apply ok_app; [apply IH; firstorder|apply call_ok; firstorder].
Qed.

(** ** Progress *)
Lemma progress_flat s hs : inv false s hs -> ~ finished s -> exists i s', lockStep s i = Some s'.
Proof.
  intros [I1 I2 I3 I4 I5] NF.
  (* someone holds the write lock: it can unlock *)
  destruct (rw_writer (ls_rw s)) eqn:W.
  { destruct (I4 eq_refl) as [R P].
    assert (G : forall hs ts, Forall2 (okProg false) hs ts -> 1 <= sum isW hs -> exists i p, nth_error ts i = Some (Unlock :: p)).
    { induction 1 as [|h t hs0 ts O F IH]; cbn [sum]; intros L; [lia|].
      destruct h as [n|]; [destruct (IH ltac:(cbn in L; lia)) as (i & p & E); exists (S i), p; exact E|].
      inversion O; subst. exists 0. eexists. reflexivity. }
    destruct (G _ _ I1 ltac:(lia)) as (i & p & E). exists i. unfold lockStep. cbv zeta. rewrite E, W. eauto. }
  (* someone holds the read lock: it can unlock *)
  destruct (rw_readers (ls_rw s)) as [|m] eqn:R.
  2:{ assert (G : forall hs ts, Forall2 (okProg false) hs ts -> 1 <= sum reads hs -> exists i p, nth_error ts i = Some (RUnlock :: p)).
    { induction 1 as [|h t hs0 ts O F IH]; cbn [sum]; intros L; [lia|].
      destruct h as [[|n]|].
      - destruct (IH ltac:(cbn in L; lia)) as (i & p & E); exists (S i), p; exact E.
      - inversion O as [|n0 p [D|D]|n0 p| |]; subst; try discriminate. exists 0, p. reflexivity.
      - destruct (IH ltac:(cbn in L; lia)) as (i & p & E); exists (S i), p; exact E. }
    destruct (G _ _ I1 ltac:(lia)) as (i & p & E). exists i. unfold lockStep. cbv zeta. rewrite E, R. eauto. }
  (* a waiting writer acquires the free lock *)
  destruct (rw_pending (ls_rw s)) as [j|] eqn:P.
  { destruct (I5 j eq_refl) as [p E]. exists j. unfold lockStep. cbv zeta. rewrite E, P, W, R, Nat.eqb_refl. cbn. eauto. }
  assert (G : forall hs ts, Forall2 (okProg false) hs ts -> sum isW hs = 0 -> sum reads hs = 0 -> ~ Forall (fun p => p = []) ts ->
    exists i o p, nth_error ts i = Some (o :: p) /\ (o = RLock \/ o = Lock)).
  { induction 1 as [|h t hs0 ts O F IH]; cbn [sum]; intros L1 L2 N; [exfalso; apply N; constructor|].
    destruct t as [|o p].
    - destruct IH as (i & o & p & E); try lia; [intros C; apply N; constructor; auto|]. exists (S i), o, p. exact E.
    - exists 0, o, p. split; auto. inversion O; subst; cbn in *; auto; lia. }
  destruct (G _ _ I1 ltac:(lia) ltac:(lia) NF) as (i & o & p & E & D). exists i. unfold lockStep. cbv zeta. rewrite E, P, W.
  destruct D as [-> | ->]; eauto.
Qed.
Definition noLock (p : list LockOp) : Prop := forall o, In o p -> o = RLock \/ o = RUnlock.
Lemma progress_readers s hs : inv true s hs -> Forall noLock (ls_threads s) -> ~ finished s -> exists i s', lockStep s i = Some s'.
Proof.
  intros [I1 I2 I3 I4 I5] NL NF.
  assert (W : rw_writer (ls_rw s) = false).
  { destruct (rw_writer (ls_rw s)) eqn:W; auto. exfalso.
    assert (G : forall hs ts, Forall2 (okProg true) hs ts -> Forall noLock ts -> sum isW hs = 0).
    { induction 1 as [|h t hs0 ts O F IH]; cbn [sum]; intros L; auto. inversion L; subst. rewrite IH by auto.
      destruct h; auto. inversion O; subst. destruct (H1 Unlock (or_introl eq_refl)); discriminate. }
    rewrite (G _ _ I1 NL) in I3. discriminate. }
  assert (P : rw_pending (ls_rw s) = None).
  { destruct (rw_pending (ls_rw s)) as [j|] eqn:P; auto. exfalso. destruct (I5 j eq_refl) as [p E]. apply nth_error_In in E.
    rewrite Forall_forall in NL. destruct (NL _ E Lock (or_introl eq_refl)); discriminate. }
  assert (G : forall hs ts, Forall2 (okProg true) hs ts -> Forall noLock ts -> ~ Forall (fun p => p = []) ts ->
    exists i o p, nth_error ts i = Some (o :: p) /\ (o = RLock \/ (o = RUnlock /\ 1 <= sum reads hs))).
  { induction 1 as [|h t hs0 ts O F IH]; intros L N; [exfalso; apply N; constructor|]. inversion L; subst. cbn [sum].
    destruct t as [|o p].
    - destruct IH as (i & o & p & E & D); auto. exists (S i), o, p. split; auto. destruct D as [D|[D D']]; auto. right. split; auto. lia.
    - exists 0, o, p. split; auto. destruct o; auto.
      + right. split; auto. inversion O; subst. cbn. lia.
      + destruct (H1 Lock (or_introl eq_refl)); discriminate.
      + destruct (H1 Unlock (or_introl eq_refl)); discriminate. }
  destruct (G _ _ I1 NL NF) as (i & o & p & E & D). exists i. unfold lockStep. cbv zeta. rewrite E, P, W.
  destruct D as [-> | [-> D]]; eauto. rewrite I2. destruct (sum reads hs); [lia|eauto].
Qed.
Lemma noLock_step s i s' : Forall noLock (ls_threads s) -> lockStep s i = Some s' -> Forall noLock (ls_threads s').
Proof.
  intros F E. unfold lockStep in E. cbv zeta in E. destruct (nth_error (ls_threads s) i) as [[|o p]|] eqn:N; try discriminate.
  assert (U : Forall noLock (upd (ls_threads s) i p)).
  { apply nth_error_split in N. destruct N as (l1 & l2 & E1 & L). rewrite E1 in F |- *. subst i. rewrite upd_mid.
    apply Forall_app in F. destruct F as [F1 F2]. inversion F2; subst. apply Forall_app. split; auto. constructor; auto. intros o' Ho. apply H1. now right. }
  destruct o; destruct (ls_rw s) as [r w pd]; cbn [rw_readers rw_writer rw_pending] in E.
  - destruct pd, w; try discriminate. now injection E as <-.
  - destruct r; try discriminate. now injection E as <-.
  - destruct pd, w; try discriminate; [|now injection E as <-]. destruct (_ && _)%bool; [|discriminate]. now injection E as <-.
  - destruct w; try discriminate. now injection E as <-.
Qed.

Lemma fin_dec s : finished s \/ ~ finished s.
Proof.
  unfold finished. induction (ls_threads s) as [|p r IH]; [left; constructor|].
  destruct p as [|o p]; [|right; intros F; inversion F; discriminate].
  destruct IH as [IH|IH]; [left; constructor; auto|right; intros F; inversion F; auto].
Qed.
(** Deadlock freedom when no goroutine calls a nesting method: whatever the schedule, either every goroutine has finished
    or one can move ... *)
Theorem C39_flat_progress : forall css l s, (forall cs c, In cs css -> In c cs -> nests c = false) ->
  lockRun (lockStart (map goroutine css)) l = Some s -> finished s \/ ~ stuck s.
Proof.
  intros css l s H R.
  assert (F : Forall (okProg false (HR 0)) (map goroutine css)).
  { rewrite Forall_map, Forall_forall. intros cs Hc. apply goroutine_ok. intros c Hi N. rewrite (H cs c Hc Hi) in N. discriminate. }
  destruct (inv_run _ _ _ _ _ (inv_start false _ F) R) as [hs I].
  pose proof (fin_dec s) as D.
  destruct D as [D|D]; auto. right. intros S. destruct (progress_flat s hs I D) as (i & s' & E). rewrite S in E. discriminate.
Qed.
(** ... and likewise when nobody writes, nesting or not ... *)
Theorem C39_readers_progress : forall css l s, (forall cs c, In cs css -> In c cs -> writes c = false) ->
  lockRun (lockStart (map goroutine css)) l = Some s -> finished s \/ ~ stuck s.
Proof.
  intros css l s H R.
  assert (F : Forall (okProg true (HR 0)) (map goroutine css)).
  { rewrite Forall_map, Forall_forall. intros cs Hc. apply goroutine_ok. auto. }
  destruct (inv_run _ _ _ _ _ (inv_start true _ F) R) as [hs I].
  assert (NL : Forall noLock (ls_threads s)).
  { assert (N0 : Forall noLock (ls_threads (lockStart (map goroutine css)))).
    { cbn [lockStart ls_threads]. rewrite Forall_map, Forall_forall. intros cs Hc o Ho. unfold goroutine in Ho. apply in_flat_map in Ho.
      destruct Ho as (c & Hi & Ho). specialize (H cs c Hc Hi). destruct c as [| | | | | | | |[] []|[] []]; try discriminate H; cbn in Ho; intuition. }
    revert N0 R. generalize (lockStart (map goroutine css)). induction l as [|i l IH]; intros s0 N0 R; cbn [lockRun] in R; [now injection R as <-|].
    destruct (lockStep s0 i) as [s1|] eqn:E; [|discriminate]. apply (IH s1); eauto using noLock_step. }
  pose proof (fin_dec s) as D.
  destruct D as [D|D]; auto. right. intros S. destruct (progress_readers s hs I NL D) as (i & s' & E). rewrite S in E. discriminate.
Qed.
(** ... and every schedule is finite: at most two steps per lock operation. *)
Fixpoint work (ts : list (list LockOp)) : nat := match ts with [] => 0 | p :: r => 2 * List.length p + work r end.
Lemma work_app a b : work (a ++ b) = work a + work b. Proof. induction a; cbn [app work]; lia. Qed.
Definition budgetOf (s : LSys) : nat := work (ls_threads s) + match rw_pending (ls_rw s) with None => 1 | Some _ => 0 end.
Lemma step_decreases s i s' : lockStep s i = Some s' -> budgetOf s' < budgetOf s.
Proof.
  intros E. unfold lockStep in E. cbv zeta in E. destruct (nth_error (ls_threads s) i) as [[|o p]|] eqn:N; try discriminate.
  assert (U : work (upd (ls_threads s) i p) + 2 = work (ls_threads s)).
  { apply nth_error_split in N. destruct N as (l1 & l2 & E1 & L). rewrite E1. subst i. rewrite upd_mid, !work_app. cbn [work List.length]. lia. }
  unfold budgetOf. destruct (ls_rw s) as [r w pd]; cbn [rw_readers rw_writer rw_pending] in *. destruct o.
  - destruct pd, w; try discriminate. injection E as <-. cbn [ls_rw ls_threads rw_pending]. lia.
  - destruct r; try discriminate. injection E as <-. cbn [ls_rw ls_threads rw_pending]. lia.
  - destruct pd, w; try discriminate; [destruct (_ && _)%bool; [|discriminate]|]; injection E as <-; cbn [ls_rw ls_threads rw_pending]; lia.
  - destruct w; try discriminate. injection E as <-. cbn [ls_rw ls_threads rw_pending]. lia.
Qed.
Theorem C39_schedules_finite : forall progs l s, lockRun (lockStart progs) l = Some s -> List.length l <= work progs + 1.
Proof.
  intros progs l s R.
  assert (G : forall l s0, lockRun s0 l = Some s -> List.length l + budgetOf s <= budgetOf s0).
  { clear. induction l as [|i l IH]; intros s0 R; cbn [lockRun] in R; [injection R as <-; cbn; lia|].
    destruct (lockStep s0 i) as [s1|] eqn:E; [|discriminate]. apply step_decreases in E. specialize (IH _ R). cbn [List.length]. lia. }
  specialize (G l _ R). unfold budgetOf in G at 2. cbn in G. lia.
Qed.
(** Mutual exclusion, for all methods and schedules: a writer excludes readers and other writers (stated through the
    programs: a goroutine whose next operation is Unlock holds the write lock, one whose next is RUnlock a read lock). *)
Theorem C39_exclusion : forall css l s i j p q, lockRun (lockStart (map goroutine css)) l = Some s ->
  nth_error (ls_threads s) i = Some (Unlock :: p) -> nth_error (ls_threads s) j = Some q -> i <> j ->
  (forall q', q <> Unlock :: q') /\ (forall q', q <> RUnlock :: q').
Proof.
  intros css l s i j p q R Ei Ej NE.
  assert (F : Forall (okProg true (HR 0)) (map goroutine css)).
  { rewrite Forall_map, Forall_forall. intros cs Hc. apply goroutine_ok. auto. }
  destruct (inv_run _ _ _ _ _ (inv_start true _ F) R) as [hs [I1 I2 I3 I4 I5]].
  destruct (split_at _ _ _ _ _ I1 Ei) as (hs1 & h & hs2 & ts1 & ts2 & -> & ET & L & O & F1 & F2). inversion O; subst h. subst p0.
  rewrite sum_app in I2, I3. cbn [sum isW reads] in *.
  assert (W : rw_writer (ls_rw s) = true) by (destruct (rw_writer (ls_rw s)); auto; lia). destruct (I4 W) as [RR _]. rewrite W in I3.
  assert (G : forall hs0 ts0 k, Forall2 (okProg true) hs0 ts0 -> sum isW hs0 = 0 -> sum reads hs0 = 0 -> nth_error ts0 k = Some q ->
     (forall q', q <> Unlock :: q') /\ (forall q', q <> RUnlock :: q')).
  { clear. intros hs0 ts0 k FF S1 S2 E. destruct (split_at _ _ _ _ _ FF E) as (a & h & b & c & d & -> & _ & _ & O & _).
    rewrite sum_app in S1, S2. cbn [sum] in *. split; intros q' ->; inversion O; subst; cbn in *; lia. }
  rewrite ET in Ej. destruct (Nat.lt_trichotomy j (List.length ts1)) as [H|[H|H]].
  - rewrite nth_error_app1 in Ej by auto. apply (G hs1 ts1 j); auto; lia.
  - lia.
  - rewrite nth_error_app2 in Ej by lia. destruct (j - List.length ts1) as [|k] eqn:D; [lia|]. apply (G hs2 ts2 k); auto; lia.
Qed.

(** REFUTED in general: one goroutine calling a nesting method, one calling Record or Reset, and any other goroutines: a
    schedule of two steps after which these two never finish, whatever happens later. *)
Definition wedged (s : LSys) : Prop := rw_pending (ls_rw s) = Some 1 /\ rw_writer (ls_rw s) = false /\
  exists n p q r, ls_threads s = (RLock :: p) :: (Lock :: q) :: r /\ rw_readers (ls_rw s) = S n /\ 
    exists hs, Forall2 (okProg true) hs r /\ n = sum reads hs.
Lemma wedged_step s i s' : wedged s -> lockStep s i = Some s' -> wedged s'.
Proof.
  intros (P & W & n & p & q & r & T & R & hs & F & SM) E. unfold lockStep in E. cbv zeta in E. rewrite T, P, W, R in E.
  destruct i as [|[|i]]; cbn [nth_error] in E; try discriminate.
  destruct (nth_error r i) as [[|o t]|] eqn:N; try discriminate.
  destruct (split_at _ _ _ _ _ F N) as (hs1 & h & hs2 & ts1 & ts2 & -> & ET & L & O & F1 & F2).
  destruct o; try discriminate.
  - injection E as <-. inversion O; subst h. subst p0.
    split; [reflexivity|]. split; [reflexivity|].
    rewrite sum_app in SM. cbn [sum reads] in SM.
    exists (sum reads (hs1 ++ HR n0 :: hs2)), p, q, (ts1 ++ t :: ts2). cbn [ls_threads ls_rw rw_readers].
    split; [subst i; rewrite ET; exact (upd_mid (((RLock :: p) :: (Lock :: q) :: ts1)) ts2 (RUnlock :: t) t)|].
    split; [rewrite sum_app; cbn [sum reads]; lia|].
    exists (hs1 ++ HR n0 :: hs2). split; auto. apply mid; auto.
Qed.
Theorem C39_deadlock_refuted : forall c w rest0 rest1 others, nests c = true -> writes w = true ->
  exists s, lockRun (lockStart (map goroutine ((c :: rest0) :: (w :: rest1) :: others))) [0; 1] = Some s /\
    forall l s', lockRun s l = Some s' -> lockStep s' 0 = None /\ lockStep s' 1 = None /\ ~ finished s'.
Proof.
  intros c w rest0 rest1 others NC WW.
  assert (PC : exists p, goroutine (c :: rest0) = RLock :: RLock :: p).
  { destruct c as [| | | | | | | |[] []|[] []]; try discriminate NC; eexists; reflexivity. }
  assert (PW : exists q, goroutine (w :: rest1) = Lock :: q) by (destruct w; try discriminate WW; eexists; reflexivity).
  destruct PC as [p PC]. destruct PW as [q PW].
  exists (mkLS (mkRW 1 false (Some 1)) ((RLock :: p) :: (Lock :: q) :: map goroutine others)).
  split; [cbn [map]; rewrite PC, PW; reflexivity|].
  assert (W0 : wedged (mkLS (mkRW 1 false (Some 1)) ((RLock :: p) :: (Lock :: q) :: map goroutine others))).
  { split; [reflexivity|]. split; [reflexivity|]. exists 0, p, q, (map goroutine others). split; [reflexivity|]. split; [reflexivity|].
    assert (F : Forall (okProg true (HR 0)) (map goroutine others)) by (rewrite Forall_map, Forall_forall; intros cs _; apply goroutine_ok; auto).
    destruct (inv_start true _ F) as [I1 I2 _ _ _]. exists (repeat (HR 0) (List.length (map goroutine others))). split; auto. }
  intros l. revert W0. generalize (mkLS (mkRW 1 false (Some 1)) ((RLock :: p) :: (Lock :: q) :: map goroutine others)).
  induction l as [|i l IH]; intros s0 W0 s' R; cbn [lockRun] in R.
  - injection R as <-. destruct W0 as (P & W & n & p' & q' & r & T & RD & _).
    split; [unfold lockStep; cbv zeta; rewrite T; cbn [nth_error]; now rewrite P|].
    split; [unfold lockStep; cbv zeta; rewrite T; cbn [nth_error]; rewrite P, W, RD; reflexivity|].
    intros Fi. unfold finished in Fi. rewrite T in Fi. inversion Fi. discriminate.
  - destruct (lockStep s0 i) as [s1|] eqn:E; [|discriminate]. apply (IH s1); eauto using wedged_step.
Qed.
(** In particular a reader that asks for Statistics while a measurement is recorded. *)
Example C39_deadlock_example : exists s, lockRun (lockStart (map goroutine [[CStatistics false true]; [CRecord]])) [0; 1] = Some s /\ stuck s /\ ~ finished s.
Proof.
  eexists. split; [reflexivity|]. split.
  - intros [|[|i]]; try reflexivity. unfold lockStep. cbn. now destruct i.
  - intros F. inversion F. discriminate.
Qed.
(** The positive theorems are not vacuous: a schedule of two recorders and a reader that completes. *)
Example C39_flat_example : exists s, lockRun (lockStart (map goroutine [[CRecord]; [CRecord]; [CIsConverged]])) [2; 0; 2; 0; 0; 1; 1; 1] = Some s /\ finished s.
Proof. eexists. split; [reflexivity|]. repeat constructor. Qed.
Example C39_readers_example : exists s, lockRun (lockStart (map goroutine [[CPredict false true]])) [0; 0; 0; 0; 0; 0] = Some s /\ finished s.
Proof. eexists. split; [reflexivity|]. repeat constructor. Qed.
Example C39_exclusion_example : exists s p q, lockRun (lockStart (map goroutine [[CRecord]; [CIsConverged]])) [0; 0] = Some s /\
  nth_error (ls_threads s) 0 = Some (Unlock :: p) /\ nth_error (ls_threads s) 1 = Some (RLock :: q).
Proof. eexists _, _, _. split; [reflexivity|]. split; reflexivity. Qed.

Print Assumptions C39_flat_progress.
Print Assumptions C39_readers_progress.
Print Assumptions C39_schedules_finite.
Print Assumptions C39_exclusion.
Print Assumptions C39_deadlock_refuted.
