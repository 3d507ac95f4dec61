(** Property theorems C35 (worker pool). *)
From Coq Require Import ZArith List Bool Lia Permutation.
From Verif Require Import M_Workers.
Import ListNotations.
Open Scope Z_scope.

(** The jobs submitted in a schedule, in order; the jobs being run by workers. *)
Fixpoint submitted (l : list WAct) : list nat :=
  match l with [] => [] | WSubmit j :: r => j :: submitted r | _ :: r => submitted r end.
Fixpoint inHand (l : list Worker) : list nat :=
  match l with [] => [] | Busy j :: r => j :: inHand r | _ :: r => inHand r end.
(** The steps the pool takes without a caller. *)
Definition internal (a : WAct) : bool := match a with WTake _ | WFinish _ | WQuit _ => true | _ => false end.

Lemma hand_set ws : forall i w w0, nth_error ws i = Some w0 ->
  Permutation (match w0 with Busy j => [j] | _ => [] end ++ inHand (setw ws i w)) (match w with Busy j => [j] | _ => [] end ++ inHand ws).
Proof.
  induction ws as [|x ws IH]; intros [|i] w w0 H; try discriminate H; cbn [nth_error setw] in *.
  - injection H as ->. destruct w0, w; cbn [inHand app]; auto using Permutation_refl. apply perm_swap.
  - specialize (IH i w w0 H). destruct x; cbn [inHand]; auto.
    eapply Permutation_trans; [apply Permutation_sym, Permutation_middle|]. eapply Permutation_trans; [|apply Permutation_middle].
    now constructor.
Qed.
Lemma setw_length ws : forall i w, List.length (setw ws i w) = List.length ws.
Proof. induction ws as [|x ws IH]; intros [|i] w; cbn [setw List.length]; auto. Qed.

Lemma step_conserve p a p' : wStep p a = WOK p' ->
  Permutation (submitted [a] ++ wp_queue p ++ inHand (wp_workers p) ++ wp_done p) (wp_queue p' ++ inHand (wp_workers p') ++ wp_done p').
Proof.
  destruct a as [j|i|i|i|]; cbn [wStep submitted app]; intros H.
  - destruct (_ <? _)%nat; [|discriminate]. injection H as <-. cbn [wp_queue wp_workers wp_done]. rewrite <- app_assoc. cbn [app]. apply Permutation_middle.
  - destruct (nth_error (wp_workers p) i) as [[|k|]|] eqn:E; try discriminate. destruct (wp_queue p) as [|j q]; [discriminate|]. injection H as <-.
    cbn [wp_queue wp_workers wp_done app]. pose proof (hand_set _ i (Busy j) _ E) as P. cbn [app] in P.
    eapply Permutation_trans; [|apply Permutation_app_head, Permutation_app_tail, Permutation_sym, P]. cbn [app].
    apply Permutation_middle.
  - destruct (nth_error (wp_workers p) i) as [[|k|]|] eqn:E; try discriminate. injection H as <-.
    cbn [wp_queue wp_workers wp_done]. apply Permutation_app_head. pose proof (hand_set _ i Idle _ E) as P. cbn [app] in P.
    eapply Permutation_trans; [apply Permutation_app_tail, Permutation_sym, P|]. apply Permutation_middle.
  - destruct (nth_error (wp_workers p) i) as [[|k|]|] eqn:E; try discriminate. destruct (wp_quit p); [|discriminate]. injection H as <-.
    cbn [wp_queue wp_workers wp_done]. apply Permutation_app_head, Permutation_app_tail. pose proof (hand_set _ i Gone _ E) as P. cbn [app] in P.
    now apply Permutation_sym.
  - destruct (wp_quit p); [discriminate|]. injection H as <-. apply Permutation_refl.
Qed.
Lemma submitted_cons a l : submitted (a :: l) = submitted [a] ++ submitted l.
Proof. destruct a; reflexivity. Qed.
Lemma run_conserve l : forall p p', wRun p l = WOK p' ->
  Permutation (submitted l ++ wp_queue p ++ inHand (wp_workers p) ++ wp_done p) (wp_queue p' ++ inHand (wp_workers p') ++ wp_done p').
Proof.
  induction l as [|a l IH]; intros p p' H; cbn [wRun] in H.
  - injection H as <-. apply Permutation_refl.
  - destruct (wStep p a) as [| |p1] eqn:E; try discriminate. rewrite submitted_cons.
    eapply Permutation_trans; [|exact (IH _ _ H)]. rewrite <- app_assoc.
    eapply Permutation_trans; [apply Permutation_app_swap_app|]. apply Permutation_app_head. now apply step_conserve.
Qed.
Lemma idle_hand n : inHand (repeat Idle n) = [].
Proof. induction n; auto. Qed.

(** Nothing is lost, invented or run twice: at every moment the submitted functions are exactly those waiting, running
    and finished, each with its multiplicity. *)
Theorem C35_conservation : forall w p0 l p, NewWorkerPool w = Some p0 -> wRun p0 l = WOK p ->
  Permutation (submitted l) (wp_queue p ++ inHand (wp_workers p) ++ wp_done p).
Proof.
  intros w p0 l p H R. unfold NewWorkerPool in H. destruct (_ <? 0); [discriminate|]. injection H as <-.
  apply run_conserve in R. cbn [wp_queue wp_workers wp_done] in R. rewrite idle_hand in R. cbn [app] in R. now rewrite app_nil_r in R.
Qed.
Theorem C35_at_most_once : forall w p0 l p, NewWorkerPool w = Some p0 -> wRun p0 l = WOK p -> NoDup (submitted l) ->
  NoDup (wp_done p) /\ forall j, In j (wp_done p) -> In j (submitted l).
Proof.
  intros w p0 l p H R ND. pose proof (C35_conservation w p0 l p H R) as P.
  assert (N2 := Permutation_NoDup P ND). rewrite app_assoc in N2, P. split.
  - clear - N2. induction (wp_queue p ++ inHand (wp_workers p)) as [|x q IH]; auto. inversion N2; auto.
  - intros j Hj. eapply Permutation_in; [apply Permutation_sym, P|]. apply in_or_app. auto.
Qed.

(** As long as Stop has not been called, a pool with workers finishes everything: it can only come to rest when every
    submitted function has been executed exactly once, and it comes to rest after at most 2 steps per waiting job and
    one per running job. *)
Lemma quit_back l : forall p p', wRun p l = WOK p' -> wp_quit p' = false -> wp_quit p = false /\ ~ In WStop l.
Proof.
  induction l as [|a l IH]; intros p p' R Q; cbn [wRun] in R; [injection R as <-; auto|].
  destruct (wStep p a) as [| |p1] eqn:E; try discriminate. destruct (IH _ _ R Q) as [Q1 N1].
  destruct a as [j|i|i|i|]; cbn [wStep] in E.
  - destruct (_ <? _)%nat; [|discriminate]. injection E as <-. split; auto. cbn; intuition discriminate.
  - destruct (nth_error (wp_workers p) i) as [[|k|]|]; try discriminate. destruct (wp_queue p); [discriminate|]. injection E as <-. split; auto. cbn; intuition discriminate.
  - destruct (nth_error (wp_workers p) i) as [[|k|]|]; try discriminate. injection E as <-. split; auto. cbn; intuition discriminate.
  - destruct (nth_error (wp_workers p) i) as [[|k|]|]; try discriminate. destruct (wp_quit p); [|discriminate]. injection E as <-. discriminate Q1.
  - destruct (wp_quit p); [discriminate|]. injection E as <-. discriminate Q1.
Qed.
Lemma stays w p0 l p : NewWorkerPool w = Some p0 -> wRun p0 l = WOK p -> wp_quit p = false ->
  List.length (wp_workers p) = Z.to_nat w /\ ~ In Gone (wp_workers p).
Proof.
  intros H R Q.
  assert (G : forall l p1, wRun p1 l = WOK p -> ~ In Gone (wp_workers p1) ->
    List.length (wp_workers p) = List.length (wp_workers p1) /\ ~ In Gone (wp_workers p)).
  { clear l R. induction l as [|a l IH]; intros p1 R N; cbn [wRun] in R; [injection R as <-; auto|].
    destruct (wStep p1 a) as [| |p2] eqn:E; try discriminate. destruct (quit_back _ _ _ R Q) as [Q2 _].
    assert (S : List.length (wp_workers p2) = List.length (wp_workers p1) /\ ~ In Gone (wp_workers p2)).
    { assert (NG : forall ws i w', w' <> Gone -> ~ In Gone ws -> ~ In Gone (setw ws i w')).
      { clear. induction ws as [|x ws IHw]; intros [|i] w' W N0; cbn [setw]; auto; cbn in *; intuition eauto. }
      destruct a as [j|i|i|i|]; cbn [wStep] in E.
      - destruct (_ <? _)%nat; [|discriminate]. injection E as <-. auto.
      - destruct (nth_error (wp_workers p1) i) as [[|k|]|]; try discriminate. destruct (wp_queue p1); [discriminate|]. injection E as <-.
        cbn [wp_workers]. rewrite setw_length. split; auto. apply NG; auto. discriminate.
      - destruct (nth_error (wp_workers p1) i) as [[|k|]|]; try discriminate. injection E as <-.
        cbn [wp_workers]. rewrite setw_length. split; auto. apply NG; auto. discriminate.
      - destruct (nth_error (wp_workers p1) i) as [[|k|]|]; try discriminate. destruct (wp_quit p1) eqn:Q1; [|discriminate]. injection E as <-. discriminate Q2.
      - destruct (wp_quit p1); [discriminate|]. injection E as <-. discriminate Q2. }
    destruct S as [S1 S2]. rewrite <- S1. apply IH; auto. }
  unfold NewWorkerPool in H. destruct (_ <? 0); [discriminate|]. injection H as <-.
  destruct (G l _ R) as [A B].
  - cbn [wp_workers]. intros I. apply repeat_spec in I. discriminate.
  - split; auto. rewrite A. cbn [wp_workers]. apply repeat_length.
Qed.
Theorem C35_rest_means_done : forall w p0 l p, NewWorkerPool w = Some p0 -> 0 < w -> wRun p0 l = WOK p -> wp_quit p = false ->
  (forall a, internal a = true -> wStep p a = WBlocked) -> Permutation (submitted l) (wp_done p).
Proof.
  intros w p0 l p H W R Q B. pose proof (C35_conservation w p0 l p H R) as P. destruct (stays w p0 l p H R Q) as [L NG].
  assert (ID : forall i x, nth_error (wp_workers p) i = Some x -> x = Idle).
  { intros i x Hx. destruct x as [|j|]; auto.
    - specialize (B (WFinish i) eq_refl). cbn [wStep] in B. rewrite Hx in B. discriminate.
    - exfalso. apply NG. eapply nth_error_In; eauto. }
  assert (HN : inHand (wp_workers p) = []).
  { clear - ID. induction (wp_workers p) as [|x ws IH]; auto. rewrite (ID 0%nat x eq_refl). cbn [inHand]. apply IH. intros i y Hy. exact (ID (S i) y Hy). }
  assert (QN : wp_queue p = []).
  { destruct (wp_queue p) as [|j q] eqn:EQ; auto. exfalso.
    destruct (nth_error (wp_workers p) 0) as [x|] eqn:E0.
    - specialize (B (WTake 0) eq_refl). cbn [wStep] in B. rewrite E0, EQ, (ID _ _ E0) in B. discriminate.
    - apply nth_error_None in E0. lia. }
  rewrite HN, QN in P. exact P.
Qed.
Theorem C35_comes_to_rest : forall l p p', wp_quit p = false -> forallb internal l = true -> wRun p l = WOK p' ->
  (List.length l + 2 * List.length (wp_queue p') + List.length (inHand (wp_workers p')) = 2 * List.length (wp_queue p) + List.length (inHand (wp_workers p)))%nat.
Proof.
  induction l as [|a l IH]; intros p p' Q I R; cbn [wRun] in R; [injection R as <-; reflexivity|].
  cbn [forallb] in I. apply andb_prop in I. destruct I as [Ia I].
  destruct (wStep p a) as [| |p1] eqn:E; try discriminate. cbn [List.length].
  assert (S : wp_quit p1 = false /\ (1 + 2 * List.length (wp_queue p1) + List.length (inHand (wp_workers p1)) = 2 * List.length (wp_queue p) + List.length (inHand (wp_workers p)))%nat).
  { destruct a as [j|i|i|i|]; try discriminate Ia; cbn [wStep] in E.
    - destruct (nth_error (wp_workers p) i) as [[|k|]|] eqn:EN; try discriminate. destruct (wp_queue p) as [|j q]; [discriminate|]. injection E as <-.
      pose proof (Permutation_length (hand_set _ i (Busy j) _ EN)) as PL. cbn [app List.length] in PL. cbn [wp_quit wp_queue wp_workers List.length]. split; auto. lia.
    - destruct (nth_error (wp_workers p) i) as [[|k|]|] eqn:EN; try discriminate. injection E as <-.
      pose proof (Permutation_length (hand_set _ i Idle _ EN)) as PL. cbn [app List.length] in PL. cbn [wp_quit wp_queue wp_workers]. split; auto. lia.
    - rewrite Q in E. destruct (nth_error (wp_workers p) i) as [[|k|]|]; discriminate. }
  destruct S as [Q1 S]. specialize (IH p1 p' Q1 I R). lia.
Qed.

(** Stop never blocks; the first call succeeds, any later one panics. *)
Theorem C35_stop : forall w p0 l p, NewWorkerPool w = Some p0 -> wRun p0 l = WOK p ->
  (In WStop l -> wStep p WStop = WPanic) /\ (~ In WStop l -> exists p', wStep p WStop = WOK p' /\ wp_quit p' = true).
Proof.
  intros w p0 l p H R. cbn [wStep].
  assert (G : forall l p1, wRun p1 l = WOK p -> wp_quit p = (wp_quit p1 || existsb (fun a => match a with WStop => true | _ => false end) l)%bool).
  { clear l R. induction l as [|a l IH]; intros p1 R; cbn [wRun] in R; [injection R as <-; cbn; now rewrite orb_false_r|].
    destruct (wStep p1 a) as [| |p2] eqn:E; try discriminate. rewrite (IH _ R). cbn [existsb].
    destruct a as [j|i|i|i|]; cbn [wStep] in E; cbn [orb].
    - destruct (_ <? _)%nat; [|discriminate]. now injection E as <-.
    - destruct (nth_error (wp_workers p1) i) as [[|k|]|]; try discriminate. destruct (wp_queue p1); [discriminate|]. now injection E as <-.
    - destruct (nth_error (wp_workers p1) i) as [[|k|]|]; try discriminate. now injection E as <-.
    - destruct (nth_error (wp_workers p1) i) as [[|k|]|]; try discriminate. destruct (wp_quit p1) eqn:Q1; [|discriminate]. now injection E as <-.
    - destruct (wp_quit p1); [discriminate|]. injection E as <-. reflexivity. }
  unfold NewWorkerPool in H. destruct (_ <? 0); [discriminate|]. injection H as <-. specialize (G l _ R). cbn [wp_quit orb] in G. rewrite G. split; intros HS.
  - assert (X : existsb (fun a => match a with WStop => true | _ => false end) l = true) by (apply existsb_exists; exists WStop; auto). now rewrite X.
  - destruct (existsb _ l) eqn:X; [|eexists; split; reflexivity]. apply existsb_exists in X. destruct X as (a & I & E). destruct a; try discriminate. contradiction.
Qed.

(** REFUTED: "every function submitted before Stop is executed": with any number of workers the function can be left in the
    queue for good - every worker has returned, nothing can run it any more. *)
Lemma quit_all n : forall q c done k, (k <= n)%nat ->
  wRun (mkPool c q (repeat Gone k ++ repeat Idle (n - k)) true done) (map WQuit (seq k (n - k))) = WOK (mkPool c q (repeat Gone n) true done).
Proof.
  intros q c done k. remember (n - k)%nat as m eqn:M. revert k M. induction m as [|m IH]; intros k M K.
  - cbn [seq map wRun repeat]. rewrite app_nil_r. replace k with n by lia. reflexivity.
  - cbn [seq map wRun wStep wp_workers wp_quit repeat wp_queue wp_cap wp_done].
    assert (NE : nth_error (repeat Gone k ++ Idle :: repeat Idle m) k = Some Idle).
    { rewrite nth_error_app2 by (rewrite repeat_length; lia). now rewrite repeat_length, Nat.sub_diag. }
    rewrite NE.
    assert (ST : setw (repeat Gone k ++ Idle :: repeat Idle m) k Gone = repeat Gone (S k) ++ repeat Idle m).
    { clear. induction k as [|k IH]; cbn; auto. now rewrite IH. }
    rewrite ST. apply IH; lia.
Qed.
Theorem C35_job_lost_refuted : forall w, 0 < w -> exists p0 l p, NewWorkerPool w = Some p0 /\
  wRun p0 ([WSubmit 7; WStop] ++ l) = WOK p /\ wp_done p = [] /\
  forall a, internal a = true -> wStep p a = WBlocked.
Proof.
  intros w W. unfold NewWorkerPool. destruct (Z.ltb_spec (w * 2) 0); [lia|].
  eexists _, (map WQuit (seq 0 (Z.to_nat w))), (mkPool (Z.to_nat (w * 2)) [7%nat] (repeat Gone (Z.to_nat w)) true []).
  split; [reflexivity|]. split; [|split; [reflexivity|]].
  - cbn [app wRun wStep wp_queue wp_cap wp_quit wp_workers wp_done List.length].
    destruct (Nat.ltb_spec 0 (Z.to_nat (w * 2))); [|lia]. cbn [app wRun wStep wp_queue wp_cap wp_quit wp_workers wp_done].
    pose proof (quit_all (Z.to_nat w) [7%nat] (Z.to_nat (w * 2)) [] 0 ltac:(lia)) as Q. rewrite Nat.sub_0_r in Q. exact Q.
  - assert (G : forall i x, nth_error (repeat Gone (Z.to_nat w)) i = Some x -> x = Gone).
    { intros i x E. apply nth_error_In in E. now apply repeat_spec in E. }
    intros [j|i|i|i|] I; try discriminate I; cbn [wStep wp_workers wp_queue wp_quit];
    destruct (nth_error (repeat Gone (Z.to_nat w)) i) as [x|] eqn:E; auto; rewrite (G _ _ E); reflexivity.
Qed.
(** REFUTED: with 0 workers every Submit blocks for ever, and a negative count panics. *)
Theorem C35_no_workers_refuted : exists p0, NewWorkerPool 0 = Some p0 /\ forall j, wStep p0 (WSubmit j) = WBlocked.
Proof. eexists. split; reflexivity. Qed.
Theorem C35_negative_refuted : forall w, w < 0 -> NewWorkerPool w = None.
Proof. intros w H. unfold NewWorkerPool. destruct (Z.ltb_spec (w * 2) 0); [reflexivity|lia]. Qed.

(** A pool of one worker runs two jobs and comes to rest. *)
Example C35_example : exists p0 p, NewWorkerPool 1 = Some p0 /\
  wRun p0 [WSubmit 3; WSubmit 4; WTake 0; WFinish 0; WTake 0; WFinish 0] = WOK p /\ wp_quit p = false /\ wp_done p = [4; 3]%nat /\
  (forall a, internal a = true -> wStep p a = WBlocked).
Proof.
  eexists _, _. split; [reflexivity|]. split; [reflexivity|]. split; [reflexivity|]. split; [reflexivity|].
  intros [j|[|[|i]]|[|[|i]]|[|[|i]]|] I; try discriminate I; reflexivity.
Qed.

Print Assumptions C35_conservation.
Print Assumptions C35_at_most_once.
Print Assumptions C35_rest_means_done.
Print Assumptions C35_comes_to_rest.
Print Assumptions C35_stop.
Print Assumptions C35_job_lost_refuted.
