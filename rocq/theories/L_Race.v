(** Lock discipline implies the happens-before order: lemmas about executions in general. *)
From Coq Require Import List Arith Lia Bool.
From Verif Require Import M_Race S_Race.
Import ListNotations.

Lemma nth_split {A} (l : list A) i x : nth_error l i = Some x -> exists r, l = firstn i l ++ x :: r.
Proof.
  revert i. induction l as [|y l IH]; intros [|i] H; simpl in *; try discriminate.
  - injection H as ->. now exists l.
  - destruct (IH i H) as [r Hr]. exists r. now rewrite <- Hr.
Qed.
Lemma firstn_S {A} (l : list A) i x : nth_error l i = Some x -> firstn (S i) l = firstn i l ++ [x].
Proof.
  revert i. induction l as [|y l IH]; intros [|i] H; simpl in *; try discriminate.
  - now injection H as ->.
  - now rewrite <- (IH i H).
Qed.
Lemma heldAt_S ex i e : nth_error ex i = Some e -> heldAt ex (S i) = after (heldAt ex i) e.
Proof. intros H. unfold heldAt. now rewrite (firstn_S ex i e H), fold_left_app. Qed.
Lemma done_app t a b : done t (a ++ b) = done t a ++ done t b.
Proof. unfold done. now rewrite filter_app, map_app. Qed.
Lemma done_cons t u o r : done t ((u, o) :: r) = (if tid_eq u t then [o] else []) ++ done t r.
Proof. unfold done. simpl. destruct (tid_eq u t); reflexivity. Qed.
Lemma in_done t o ex : In o (done t ex) -> exists i, i < List.length ex /\ nth_error ex i = Some (t, o).
Proof.
  intros H. unfold done in H. apply in_map_iff in H. destruct H as [[u o'] [H1 H2]]. simpl in H1. subst o'.
  apply filter_In in H2. destruct H2 as [H2 H3]. simpl in H3. destruct (tid_eq u t) as [->|]; [|discriminate].
  destruct (In_nth_error _ _ H2) as [i Hi]. exists i. split; [|exact Hi].
  apply nth_error_Some. congruence.
Qed.
Lemma nth_firstn {A} (l : list A) i j : j < i -> nth_error (firstn i l) j = nth_error l j.
Proof. revert i j. induction l as [|x l IH]; intros [|i] [|j] H; simpl; try lia; try reflexivity. apply IH. lia. Qed.
(** What a goroutine did before one of its steps, as a part of its program. *)
Lemma step_prog prog ex i t o : possible prog ex -> nth_error ex i = Some (t, o) ->
  exists rest, prog t = done t (firstn i ex) ++ o :: rest.
Proof.
  intros P H. destruct (p_prog _ _ P t) as [rest R]. destruct (nth_split _ _ _ H) as [r Er].
  exists (done t r ++ rest). rewrite R. rewrite Er at 1. rewrite done_app, done_cons.
  destruct (tid_eq t t) as [_|C]; [|congruence]. rewrite <- app_assoc. reflexivity.
Qed.
(** An operation that precedes in the program precedes in the execution. *)
Lemma earlier prog ex i t o p : possible prog ex -> nth_error ex i = Some (t, o) ->
  (forall a b, prog t = a ++ o :: b -> In p a) -> exists j, j < i /\ nth_error ex j = Some (t, p).
Proof.
  intros P H Q. destruct (step_prog _ _ _ _ _ P H) as [rest R]. specialize (Q _ _ R).
  apply in_done in Q. destruct Q as [j [Hj Hn]].
  assert (i < List.length ex) by (apply nth_error_Some; congruence).
  rewrite firstn_length_le in Hj by lia. exists j. split; [exact Hj|]. now rewrite nth_firstn in Hn.
Qed.
Lemma in_before prog ex i j t o p : possible prog ex -> i < j -> nth_error ex i = Some (t, p) -> nth_error ex j = Some (t, o) ->
  exists a b, prog t = a ++ o :: b /\ In p a.
Proof.
  intros P L Hi Hj. destruct (step_prog _ _ _ _ _ P Hj) as [rest R]. exists (done t (firstn j ex)), rest. split; [exact R|].
  unfold done. apply in_map_iff. exists (t, p). split; [reflexivity|]. apply filter_In. split.
  - apply nth_error_In with i. now rewrite nth_firstn.
  - simpl. destruct (tid_eq t t); congruence.
Qed.
Lemma before_lt ex i j : before ex i j -> i < j.
Proof. induction 1; lia. Qed.

(** Exclusion. *)
Definition excl (h : Held) : Prop := forall m t, wr h m = Some t -> forall u, rds h m u = 0.
Lemma excl_at prog ex : possible prog ex -> forall i, i <= List.length ex -> excl (heldAt ex i).
Proof.
  intros P. induction i as [|i IH]; intros L.
  - intros m t H. discriminate.
  - destruct (nth_error ex i) as [[t o]|] eqn:E; [|apply nth_error_None in E; lia].
    rewrite (heldAt_S _ _ _ E). specialize (IH ltac:(lia)). pose proof (p_lock _ _ P _ _ _ E) as A.
    intros m w Hw u. destruct o as [l|l| |x|x|x|x|k|k|k]; simpl in *; try (eapply IH; eassumption).
    + destruct (mut_eq m x) as [->|N]; [|eapply IH; eassumption]. congruence.
    + destruct (mut_eq m x) as [->|N]; [|eapply IH; eassumption].
      specialize (IH x w Hw t). rewrite IH in A. lia.
    + destruct (mut_eq m x) as [->|N]; [apply A|eapply IH; eassumption].
    + destruct (mut_eq m x) as [->|N]; [discriminate|eapply IH; eassumption].
Qed.

(** A writer keeps the lock until it unlocks; and the same for readers; and the same backwards. *)
Lemma writer_keeps prog ex m t i : possible prog ex -> wr (heldAt ex i) m = Some t -> forall d, i + d <= List.length ex ->
  wr (heldAt ex (i + d)) m = Some t \/ exists k, i <= k < i + d /\ nth_error ex k = Some (t, Ul m).
Proof.
  intros P H. induction d as [|d IH]; intros L.
  - left. now rewrite Nat.add_0_r.
  - destruct (IH ltac:(lia)) as [W|[k [K1 K2]]]; [|right; exists k; split; [lia|exact K2]].
    replace (i + S d) with (S (i + d)) in * by lia.
    destruct (nth_error ex (i + d)) as [[u o]|] eqn:E; [|apply nth_error_None in E; lia].
    pose proof (p_lock _ _ P _ _ _ E) as A. rewrite (heldAt_S _ _ _ E).
    destruct o as [l|l| |x|x|x|x|k|k|k]; simpl in *; auto.
    + destruct (mut_eq m x) as [->|N]; [|now left]. destruct A as [A _]. congruence.
    + destruct (mut_eq m x) as [->|N]; [|now left]. right. exists (i + d). split; [lia|]. rewrite E. congruence.
Qed.
Lemma reader_keeps prog ex m t i : possible prog ex -> 0 < rds (heldAt ex i) m t -> forall d, i + d <= List.length ex ->
  0 < rds (heldAt ex (i + d)) m t \/ exists k, i <= k < i + d /\ nth_error ex k = Some (t, RUl m).
Proof.
  intros P H. induction d as [|d IH]; intros L.
  - left. now rewrite Nat.add_0_r.
  - destruct (IH ltac:(lia)) as [W|[k [K1 K2]]]; [|right; exists k; split; [lia|exact K2]].
    replace (i + S d) with (S (i + d)) in * by lia.
    destruct (nth_error ex (i + d)) as [[u o]|] eqn:E; [|apply nth_error_None in E; lia].
    rewrite (heldAt_S _ _ _ E).
    destruct o as [l|l| |x|x|x|x|k|k|k]; simpl in *; auto.
    + left. destruct (mut_eq m x) as [->|N]; [|exact W]. destruct (tid_eq t u); [lia|exact W].
    + destruct (mut_eq m x) as [->|N]; [|now left]. destruct (tid_eq t u) as [->|N]; [|now left].
      right. exists (i + d). split; [lia|exact E].
Qed.
Lemma writer_got ex m t i : forall d, i + d <= List.length ex -> wr (heldAt ex (i + d)) m = Some t ->
  wr (heldAt ex i) m = Some t \/ exists k, i <= k < i + d /\ nth_error ex k = Some (t, Lk m).
Proof.
  induction d as [|d IH]; intros L H.
  - left. now rewrite Nat.add_0_r in H.
  - replace (i + S d) with (S (i + d)) in * by lia.
    destruct (nth_error ex (i + d)) as [[u o]|] eqn:E; [|apply nth_error_None in E; lia].
    rewrite (heldAt_S _ _ _ E) in H.
    assert (C : wr (heldAt ex (i + d)) m = Some t -> wr (heldAt ex i) m = Some t \/ exists k, i <= k < S (i + d) /\ nth_error ex k = Some (t, Lk m)).
    { intros W. destruct (IH ltac:(lia) W) as [W'|[k [K1 K2]]]; [now left|right; exists k; split; [lia|exact K2]]. }
    destruct o as [l|l| |x|x|x|x|k|k|k]; simpl in H; auto.
    + destruct (mut_eq m x) as [->|N]; [|auto]. injection H as ->. right. exists (i + d). split; [lia|exact E].
    + destruct (mut_eq m x) as [->|N]; [discriminate|auto].
Qed.
Lemma reader_got ex m t i : forall d, i + d <= List.length ex -> 0 < rds (heldAt ex (i + d)) m t ->
  0 < rds (heldAt ex i) m t \/ exists k, i <= k < i + d /\ nth_error ex k = Some (t, RLk m).
Proof.
  induction d as [|d IH]; intros L H.
  - left. now rewrite Nat.add_0_r in H.
  - replace (i + S d) with (S (i + d)) in * by lia.
    destruct (nth_error ex (i + d)) as [[u o]|] eqn:E; [|apply nth_error_None in E; lia].
    rewrite (heldAt_S _ _ _ E) in H.
    assert (C : 0 < rds (heldAt ex (i + d)) m t -> 0 < rds (heldAt ex i) m t \/ exists k, i <= k < S (i + d) /\ nth_error ex k = Some (t, RLk m)).
    { intros W. destruct (IH ltac:(lia) W) as [W'|[k [K1 K2]]]; [now left|right; exists k; split; [lia|exact K2]]. }
    destruct o as [l|l| |x|x|x|x|k|k|k]; simpl in H; auto.
    + destruct (mut_eq m x) as [->|N]; [|auto]. destruct (tid_eq t u) as [->|N]; [|auto].
      right. exists (i + d). split; [lia|exact E].
    + destruct (mut_eq m x) as [->|N]; [|auto]. destruct (tid_eq t u) as [->|N]; [|auto]. apply C. lia.
Qed.

(** Two accesses under the same lock, one of them as writer, are ordered. *)
Definition holds (h : Held) (m : Mut) (t : Tid) : Prop := wr h m = Some t \/ 0 < rds h m t.
Lemma lock_before prog ex m i j t u a b l l' : possible prog ex -> i < j -> t <> u ->
  nth_error ex i = Some (t, a) -> nth_error ex j = Some (u, b) -> access a l -> access b l' ->
  (wr (heldAt ex i) m = Some t /\ holds (heldAt ex j) m u) \/ (holds (heldAt ex i) m t /\ wr (heldAt ex j) m = Some u) ->
  before ex i j.
Proof.
  intros P L NE Ei Ej Aa Ab H.
  assert (Lj : j < List.length ex) by (apply nth_error_Some; congruence).
  assert (EX := excl_at _ _ P i ltac:(lia)).
  (* the later goroutine took the lock in between *)
  assert (G : exists k o, i < k < j /\ nth_error ex k = Some (u, o) /\ (o = Lk m \/ (o = RLk m /\ wr (heldAt ex i) m = Some t))).
  { assert (GW : wr (heldAt ex j) m = Some u -> exists k, i <= k < j /\ nth_error ex k = Some (u, Lk m)).
    { intros W. replace j with (i + (j - i)) in W by lia.
      destruct (writer_got ex m u i (j - i) ltac:(lia) W) as [W'|[k [K1 K2]]].
      - exfalso. destruct H as [[H1 _]|[[H1|H1] _]]; [congruence|congruence|].
        rewrite (EX m u W' t) in H1. lia.
      - exists k. split; [lia|exact K2]. }
    assert (NI : forall k o, i <= k -> nth_error ex k = Some (u, o) -> i < k).
    { intros k o Hk Hn. destruct (Nat.eq_dec i k) as [->|]; [|lia]. congruence. }
    destruct H as [[H1 [H2|H2]]|[H1 H2]].
    - destruct (GW H2) as [k [K1 K2]]. exists k, (Lk m). repeat split; auto; try lia. eapply NI; [lia|exact K2].
    - replace j with (i + (j - i)) in H2 by lia.
      destruct (reader_got ex m u i (j - i) ltac:(lia) H2) as [W'|[k [K1 K2]]].
      + exfalso. rewrite (EX m t H1 u) in W'. lia.
      + exists k, (RLk m). repeat split; auto; try lia. eapply NI; [lia|exact K2].
    - destruct (GW H2) as [k [K1 K2]]. exists k, (Lk m). repeat split; auto; try lia. eapply NI; [lia|exact K2]. }
  destruct G as [k [o [K1 [K2 K3]]]].
  pose proof (p_lock _ _ P _ _ _ K2) as A.
  assert (NA : forall r x, nth_error ex r = Some (t, x) -> i <= r -> x = Ul m \/ x = RUl m -> i < r).
  { intros r x Hr Lr Hx. destruct (Nat.eq_dec i r) as [->|]; [|lia]. rewrite Ei in Hr. injection Hr as ->.
    destruct Aa as [->| ->], Hx; discriminate. }
  (* the earlier one gave it up before that *)
  assert (R : exists r, i < r < k /\ (nth_error ex r = Some (t, Ul m) \/ (nth_error ex r = Some (t, RUl m) /\ o = Lk m))).
  { assert (WK : wr (heldAt ex i) m = Some t -> exists r, i < r < k /\ nth_error ex r = Some (t, Ul m)).
    { intros W. destruct (writer_keeps _ _ m t i P W (k - i) ltac:(lia)) as [W'|[r [R1 R2]]].
      - exfalso. replace (i + (k - i)) with k in W' by lia. destruct K3 as [->|[-> _]]; simpl in A; [destruct A|]; congruence.
      - exists r. split; [|exact R2]. split; [eapply NA; eauto; lia|lia]. }
    destruct K3 as [->|[-> K3]].
    - assert (Hh : holds (heldAt ex i) m t) by (destruct H as [[H1 _]|[H1 _]]; [now left|exact H1]).
      destruct Hh as [W|W].
      + destruct (WK W) as [r [R1 R2]]. exists r. auto.
      + destruct (reader_keeps _ _ m t i P W (k - i) ltac:(lia)) as [W'|[r [R1 R2]]].
        * exfalso. replace (i + (k - i)) with k in W' by lia. destruct A as [_ A]. rewrite A in W'. lia.
        * exists r. split; [|right; auto]. split; [eapply NA; eauto; lia|lia].
    - destruct (WK K3) as [r [R1 R2]]. exists r. auto. }
  destruct R as [r [R1 R2]].
  apply b_trans with r; [destruct R2 as [R2|[R2 _]]; eapply b_prog; eauto; lia|].
  apply b_trans with k; [|eapply b_prog; eauto; lia].
  destruct R2 as [R2|[R2 ->]].
  - eapply b_unlock; [lia|exact R2|exact K2|]. destruct K3 as [->|[-> _]]; auto.
  - eapply b_runlock; [lia|exact R2|exact K2].
Qed.

(** Locks held by a goroutine according to its own program. *)
Definition key_eq (a b : Mut * bool) : {a = b} + {a <> b}.
Proof. decide equality; [apply Bool.bool_dec|apply mut_eq]. Defined.
Fixpoint rm (x : Mut * bool) (l : list (Mut * bool)) : list (Mut * bool) :=
  match l with [] => [] | y :: r => if key_eq x y then r else y :: rm x r end.
Definition own1 (h : list (Mut * bool)) (o : Op) : list (Mut * bool) :=
  match o with Lk m => (m, true) :: h | Ul m => rm (m, true) h | RLk m => (m, false) :: h | RUl m => rm (m, false) h | _ => h end.
Definition own (h : list (Mut * bool)) (os : list Op) : list (Mut * bool) := fold_left own1 os h.
Definition cnt := count_occ key_eq.
Lemma cnt_rm x y l : cnt (rm x l) y = if key_eq x y then pred (cnt l y) else cnt l y.
Proof.
  unfold cnt. induction l as [|z l IH]; simpl.
  - now destruct (key_eq x y).
  - destruct (key_eq x z) as [->|N].
    + destruct (key_eq z y) as [->|N']; simpl; reflexivity.
    + simpl. rewrite IH. destruct (key_eq z y) as [->|N'].
      * destruct (key_eq x y); [congruence|reflexivity].
      * reflexivity.
Qed.
Lemma own_held prog ex : possible prog ex -> forall i, i <= List.length ex -> forall t m,
  cnt (own [] (done t (firstn i ex))) (m, true) = (if tid_eq (match wr (heldAt ex i) m with Some u => u | None => t end) t then
      match wr (heldAt ex i) m with Some _ => 1 | None => 0 end else 0)
  /\ cnt (own [] (done t (firstn i ex))) (m, false) = rds (heldAt ex i) m t.
Proof.
  intros P. induction i as [|i IH]; intros L t m.
  - simpl. destruct (tid_eq t t); auto.
  - destruct (nth_error ex i) as [[u o]|] eqn:E; [|apply nth_error_None in E; lia].
    rewrite (heldAt_S _ _ _ E), (firstn_S _ _ _ E), done_app, done_cons. change (done t []) with (@nil Op). rewrite app_nil_r.
    specialize (IH ltac:(lia) t m). destruct IH as [I1 I2]. pose proof (p_lock _ _ P _ _ _ E) as A.
    set (h := heldAt ex i) in *. set (ow := own [] (done t (firstn i ex))) in *.
    assert (EW : cnt (own [] (done t (firstn i ex) ++ (if tid_eq u t then [o] else []))) =
                 cnt (if tid_eq u t then own1 ow o else ow)).
    { unfold own at 1. rewrite fold_left_app. fold (own [] (done t (firstn i ex))). fold ow. destruct (tid_eq u t); reflexivity. }
    rewrite EW. clear EW. clearbody ow h.
    destruct (tid_eq u t) as [->|NE]; destruct o as [l|l| |x|x|x|x|k|k|k]; cbn [own1 after snd fst wr rds setR setW allowed] in *; try (split; assumption).
    + (* RLk, own *) unfold cnt in *. cbn [count_occ].
      destruct (mut_eq m x) as [->|N].
      * destruct (key_eq (x, false) (x, true)); [congruence|]. destruct (key_eq (x, false) (x, false)); [|congruence].
        destruct (tid_eq t t); [|congruence]. split; [exact I1|congruence].
      * destruct (key_eq (x, false) (m, true)); [congruence|]. destruct (key_eq (x, false) (m, false)); [congruence|]. auto.
    + (* RUl, own *) rewrite !cnt_rm. destruct (mut_eq m x) as [->|N].
      * destruct (key_eq (x, false) (x, true)); [congruence|]. destruct (key_eq (x, false) (x, false)); [|congruence].
        destruct (tid_eq t t); [|congruence]. split; [exact I1|congruence].
      * destruct (key_eq (x, false) (m, true)); [congruence|]. destruct (key_eq (x, false) (m, false)); [congruence|]. auto.
    + (* Lk, own *) unfold cnt in *. cbn [count_occ]. destruct (mut_eq m x) as [->|N].
      * destruct (key_eq (x, true) (x, true)); [|congruence]. destruct (key_eq (x, true) (x, false)); [congruence|].
        destruct (tid_eq t t); [|congruence]. destruct A as [A _]. rewrite A in I1. split; [rewrite I1; now destruct (tid_eq t t)|exact I2].
      * destruct (key_eq (x, true) (m, true)); [congruence|]. destruct (key_eq (x, true) (m, false)); [congruence|]. auto.
    + (* Ul, own *) rewrite !cnt_rm. destruct (mut_eq m x) as [->|N].
      * destruct (key_eq (x, true) (x, true)); [|congruence]. destruct (key_eq (x, true) (x, false)); [congruence|].
        rewrite A in I1. destruct (tid_eq t t); [|congruence]. rewrite I1. auto.
      * destruct (key_eq (x, true) (m, true)); [congruence|]. destruct (key_eq (x, true) (m, false)); [congruence|]. auto.
    + destruct (mut_eq m x) as [->|N]; [|auto]. destruct (tid_eq t u); [congruence|]. auto.
    + destruct (mut_eq m x) as [->|N]; [|auto]. destruct (tid_eq t u); [congruence|]. auto.
    + destruct (mut_eq m x) as [->|N]; [|auto]. destruct A as [A _]. rewrite A in I1.
      destruct (tid_eq u t); [congruence|]. split; [|exact I2]. rewrite I1. now destruct (tid_eq t t).
    + destruct (mut_eq m x) as [->|N]; [|auto]. rewrite A in I1. destruct (tid_eq u t); [congruence|].
      split; [|exact I2]. rewrite I1. now destruct (tid_eq t t).
Qed.

(** A discipline: each location is guarded by a lock, or never written, or left to an argument of its own. *)
Inductive Class := Guard (m : Mut) | Const | Own.
Section Discipline.
Variable class : Loc -> Class.
Definition okOp (h : list (Mut * bool)) (o : Op) : Prop :=
  match o with
  | Rd l => match class l with Guard m => In (m, true) h \/ In (m, false) h | _ => True end
  | Wr l => match class l with Guard m => In (m, true) h | Const => False | Own => True end
  | _ => True
  end.
Fixpoint chk (h : list (Mut * bool)) (os : list Op) : Prop :=
  match os with [] => True | o :: r => okOp h o /\ chk (own1 h o) r end.
Lemma chk_app h a b : chk h (a ++ b) <-> chk h a /\ chk (own h a) b.
Proof.
  revert h. induction a as [|o a IH]; intros h; simpl; [tauto|]. rewrite IH. unfold own. simpl. tauto.
Qed.
Lemma own_app h a b : own h (a ++ b) = own (own h a) b.
Proof. apply fold_left_app. Qed.

Theorem drf_at prog ex l : possible prog ex -> (forall t, chk [] (prog t)) ->
  (forall i j t u a b, class l = Own -> i < j -> t <> u -> nth_error ex i = Some (t, a) -> nth_error ex j = Some (u, b) ->
     access a l -> access b l -> before ex i j) ->
  ~ race ex l.
Proof.
  intros P C O (i & j & t & u & a & b & L & Ei & Ej & NE & Aa & Ab & W & NB). apply NB.
  assert (K : forall k v o, nth_error ex k = Some (v, o) -> okOp (own [] (done v (firstn k ex))) o).
  { intros k v o H. destruct (step_prog _ _ _ _ _ P H) as [rest R]. specialize (C v). rewrite R in C. apply chk_app in C. apply C. }
  assert (Li : forall k x, nth_error ex k = Some x -> k <= List.length ex).
  { intros k x H. assert (k < List.length ex) by (apply nth_error_Some; congruence). lia. }
  assert (HW : forall k v m, k <= List.length ex -> In (m, true) (own [] (done v (firstn k ex))) -> wr (heldAt ex k) m = Some v).
  { intros k v m Lk Hin. destruct (own_held _ _ P k Lk v m) as [I1 _]. apply (count_occ_In key_eq) in Hin. unfold cnt in I1. rewrite I1 in Hin.
    destruct (wr (heldAt ex k) m) as [w|]; [|destruct (tid_eq v v); lia]. destruct (tid_eq w v) as [->|]; [reflexivity|lia]. }
  assert (HR : forall k v m, k <= List.length ex -> In (m, false) (own [] (done v (firstn k ex))) -> 0 < rds (heldAt ex k) m v).
  { intros k v m Lk Hin. destruct (own_held _ _ P k Lk v m) as [_ I2]. apply (count_occ_In key_eq) in Hin. unfold cnt in I2. lia. }
  pose proof (K _ _ _ Ei) as Ki. pose proof (K _ _ _ Ej) as Kj. pose proof (Li _ _ Ei) as Li1. pose proof (Li _ _ Ej) as Lj1.
  destruct (class l) as [m| |] eqn:CL.
  - assert (HH : forall k v o, k <= List.length ex -> access o l -> okOp (own [] (done v (firstn k ex))) o -> holds (heldAt ex k) m v).
    { intros k v o Lk Ao Ok. destruct Ao as [->| ->]; simpl in Ok; rewrite CL in Ok.
      - destruct Ok as [Ok|Ok]; [left; apply HW; auto|right; apply HR; auto].
      - left. apply HW; auto. }
    eapply (lock_before _ _ m); eauto.
    destruct W as [->| ->].
    + left. split; [|apply (HH j u b Lj1 Ab Kj)]. apply HW; [exact Li1|]. cbn in Ki. rewrite CL in Ki. exact Ki.
    + right. split; [apply (HH i t a Li1 Aa Ki)|]. apply HW; [exact Lj1|]. cbn in Kj. rewrite CL in Kj. exact Kj.
  - exfalso. destruct W as [->| ->]; [simpl in Ki; now rewrite CL in Ki|simpl in Kj; now rewrite CL in Kj].
  - eapply O; eauto.
Qed.
Theorem drf prog ex : possible prog ex -> (forall t, chk [] (prog t)) ->
  (forall l i j t u a b, class l = Own -> i < j -> t <> u -> nth_error ex i = Some (t, a) -> nth_error ex j = Some (u, b) ->
     access a l -> access b l -> before ex i j) ->
  forall l, ~ race ex l.
Proof. intros P C O l. apply (drf_at prog ex l P C). intros. eapply O; eauto. Qed.
End Discipline.
