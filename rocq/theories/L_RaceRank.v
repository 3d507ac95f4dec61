(** Locks taken in an order never stop a program; goroutines that release nothing are not ordered before others. *)
From Coq Require Import List Arith Lia Bool Classical.
From Verif Require Import M_Race S_Race L_Race.
Import ListNotations.

Definition started (ex : Exec) (u : Tid) : Prop := match u with App _ => True | Sync k => exists i v, nth_error ex i = Some (v, Go k) end.
Lemma acted_started prog ex u : possible prog ex -> done u ex <> [] -> started ex u.
Proof.
  intros P D. destruct u as [i|k]; simpl; [exact I|]. unfold done in D.
  destruct (filter (fun e => if tid_eq (fst e) (Sync k) then true else false) ex) as [|[v o] r] eqn:E; [now destruct D|].
  assert (In (v, o) ex /\ v = Sync k) as [I ->].
  { assert (Q : In (v, o) (filter (fun e => if tid_eq (fst e) (Sync k) then true else false) ex)) by (rewrite E; now left).
    apply filter_In in Q. destruct Q as [Q1 Q2]. simpl in Q2. destruct (tid_eq v (Sync k)); [auto|discriminate]. }
  apply In_nth_error in I. destruct I as [j J]. destruct (p_go _ _ P _ _ _ J) as (x & w & _ & X). eauto.
Qed.
Section Rank.
Variable rank : Mut -> nat.
Variable top : nat.
Hypothesis rank_top : forall m, rank m < top.
Definition rankedOp (h : list (Mut * bool)) (o : Op) : Prop :=
  match o with
  | Lk m | RLk m => Forall (fun k => rank (fst k) < rank m) h
  | Ul m => exists r, h = (m, true) :: r
  | RUl m => exists r, h = (m, false) :: r
  | _ => True
  end.
Fixpoint ranked (h : list (Mut * bool)) (os : list Op) : Prop :=
  match os with [] => True | o :: r => rankedOp h o /\ ranked (own1 h o) r end.
Lemma ranked_app h a b : ranked h (a ++ b) <-> ranked h a /\ ranked (own h a) b.
Proof. revert h. induction a as [|o a IH]; intros h; simpl; [tauto|]. rewrite IH. unfold own. simpl. tauto. Qed.
Lemma ranked_progress prog ex waiting t o rest :
  possible prog ex -> (forall u, ranked [] (prog u) /\ own [] (prog u) = []) ->
  (forall u m, waiting u = Some m -> started ex u /\ exists r, prog u = done u ex ++ Lk m :: r) ->
  started ex t -> prog t = done t ex ++ o :: rest ->
  exists u o' r, started ex u /\ prog u = done u ex ++ o' :: r /\ canStep (heldAt ex (List.length ex)) waiting u o'.
Proof.
  intros P G W ST T. set (h := heldAt ex (List.length ex)).
  assert (OW : forall u m, cnt (own [] (done u ex)) (m, true) = (if tid_eq (match wr h m with Some w => w | None => u end) u then
      match wr h m with Some _ => 1 | None => 0 end else 0) /\ cnt (own [] (done u ex)) (m, false) = rds h m u).
  { intros u m. pose proof (own_held _ _ P _ (le_n _) u m) as Q. rewrite firstn_all in Q. exact Q. }
  set (PR := exists u o' r, started ex u /\ prog u = done u ex ++ o' :: r /\ canStep h waiting u o').
  assert (UN : forall u o' r, started ex u -> prog u = done u ex ++ o' :: r -> (forall m, o' <> Lk m /\ o' <> RLk m) -> PR).
  { intros u o' r S R N. exists u, o', r. split; [exact S|]. split; [exact R|]. split; [|intros m ->; destruct (N m); congruence].
    destruct (G u) as (F & _). rewrite R in F. apply ranked_app in F. destruct F as [_ [F _]].
    destruct o' as [l|l| |m|m|m|m|k|k|k]; simpl; auto; try (destruct (N m); congruence); destruct F as [z F].
    - destruct (OW u m) as [_ Q]. rewrite F in Q. unfold cnt in Q. cbn [count_occ] in Q. destruct (key_eq (m, false) (m, false)); [lia|congruence].
    - destruct (OW u m) as [Q _]. rewrite F in Q. unfold cnt in Q. cbn [count_occ] in Q. destruct (key_eq (m, true) (m, true)); [|congruence].
      destruct (wr h m) as [v|]; [|destruct (tid_eq u u); discriminate]. destruct (tid_eq v u) as [->|]; [reflexivity|discriminate]. }
  (* wanting a lock: it is free, or held *)
  assert (WA : forall m, (forall v, holds h m v -> PR) -> forall u o' r, started ex u -> prog u = done u ex ++ o' :: r -> o' = Lk m \/ o' = RLk m -> PR).
  { intros m HO.
    assert (LO : forall u r, started ex u -> prog u = done u ex ++ Lk m :: r -> PR).
    { intros u r S R. destruct (wr h m) as [v|] eqn:Ew; [apply (HO v); now left|].
      destruct (classic (exists v, 0 < rds h m v)) as [[v Hv]|NV]; [apply (HO v); now right|].
      exists u, (Lk m), r. split; [exact S|]. split; [exact R|]. split; [|intros; discriminate]. simpl. split; [exact Ew|].
      intros v. destruct (rds h m v) eqn:E; [reflexivity|]. exfalso. apply NV. exists v. lia. }
    intros u o' r S R [->| ->]; [eapply LO; eauto|].
    destruct (wr h m) as [v|] eqn:Ew; [apply (HO v); now left|].
    destruct (classic (exists v, waiting v = Some m)) as [[v Hv]|NW]; [destruct (W v m Hv) as [S' [r' R']]; eapply LO; eauto|].
    exists u, (RLk m), r. split; [exact S|]. split; [exact R|]. split; [exact Ew|]. intros m' E v Hv. injection E as <-. apply NW. now exists v. }
  (* whoever holds a lock goes on, or wants a later one *)
  assert (HO : forall k m, top <= rank m + k -> forall v, holds h m v -> PR).
  { induction k as [|k IH]; intros m L v Hh; [pose proof (rank_top m); lia|].
    assert (M : In (m, true) (own [] (done v ex)) \/ In (m, false) (own [] (done v ex))).
    { destruct (OW v m) as [Q1 Q2]. destruct Hh as [Hh|Hh].
      - left. apply (count_occ_In key_eq). fold cnt. unfold cnt in *. rewrite Q1, Hh. destruct (tid_eq v v); [lia|congruence].
      - right. apply (count_occ_In key_eq). unfold cnt in *. rewrite Q2. exact Hh. }
    assert (S : started ex v) by (apply (acted_started prog); [exact P|]; intros E; rewrite E in M; destruct M as [[]|[]]).
    destruct (p_prog _ _ P v) as [r R]. destruct (G v) as (F & O). rewrite R in F, O.
    destruct r as [|o' r]; [rewrite app_nil_r in O; rewrite O in M; destruct M as [[]|[]]|].
    apply ranked_app in F. destruct F as [_ [F _]].
    destruct (classic (exists m', o' = Lk m' \/ o' = RLk m')) as [[m' E]|N].
    - apply (WA m') with (u := v) (o' := o') (r := r); auto. apply IH.
      assert (F' : Forall (fun x => rank (fst x) < rank m') (own [] (done v ex))) by (destruct E as [->| ->]; exact F).
      rewrite Forall_forall in F'. destruct M as [M|M]; apply F' in M; simpl in M; lia.
    - apply (UN v o' r S R). intros m'. split; intros ->; apply N; exists m'; auto. }
  change PR. destruct (classic (exists m, o = Lk m \/ o = RLk m)) as [[m E]|N].
  - apply (WA m) with (u := t) (o' := o) (r := rest); auto. apply (HO top). lia.
  - apply (UN t o rest ST T). intros m. split; intros ->; apply N; exists m; auto.
Qed.
End Rank.

(** A goroutine that releases nothing orders nothing before the steps of the others. *)
Definition quietOp (o : Op) : bool := match o with Ul _ | RUl _ | Go _ | Send _ => false | _ => true end.
Lemma unordered ex t i j : (forall k o, i <= k -> k < j -> nth_error ex k = Some (t, o) -> quietOp o = true) ->
  forall x y, before ex x y -> i <= x -> y <= j -> (exists a, nth_error ex x = Some (t, a)) -> exists b, nth_error ex y = Some (t, b).
Proof.
  intros Q x y B. induction B as [x y v a b L Ei Ej|x y v u m o L Ei Ej D|x y v u m L Ei Ej|x y v k o L Ei Ej|x y v u k L Ei Ej|x y z B1 IH1 B2 IH2];
    intros X Y [c C]; try (rewrite C in Ei; injection Ei as <- ->; apply Q in C; [discriminate|exact X|lia]).
  - rewrite C in Ei. injection Ei as <- ->. eauto.
  - apply before_lt in B2 as L2. apply before_lt in B1 as L1. apply IH2; [lia|exact Y|]. apply IH1; [exact X|lia|eauto].
Qed.
Lemma race_by ex l i j t u a b : i < j -> nth_error ex i = Some (t, a) -> nth_error ex j = Some (u, b) -> t <> u ->
  access a l -> access b l -> a = Wr l \/ b = Wr l ->
  (forall k o, i <= k -> k < j -> nth_error ex k = Some (t, o) -> quietOp o = true) -> race ex l.
Proof.
  intros L Ei Ej N A B W Q. exists i, j, t, u, a, b. repeat (split; [assumption|]). intros H.
  destruct (unordered ex t i j Q i j H (le_n _) (le_n _) (ex_intro _ a Ei)) as [c C]. congruence.
Qed.
Ltac next i H := destruct i as [|i]; cbn [nth_error] in H.
Ltac walk i H tac := repeat (lazymatch type of H with nth_error (_ :: _) _ = _ => next i H; [tac H|] end); try (destruct i; discriminate H).
Ltac lockstep H := injection H as <- <-; first [vm_compute; auto; fail | vm_compute; split; [reflexivity|intros [[|[|u]]|[|[|u]]]; reflexivity]].
Ltac absent H := discriminate H.

