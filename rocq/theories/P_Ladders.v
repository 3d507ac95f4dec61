(** C26 (neighbours asked for by the automatic configuration) and C75 (the table of reasons): cases that wrong
    programs had left open. *)
From Coq Require Import ZArith List Bool String Lia.
From Verif Require Import Num M_GoalConfig M_ReqPattern M_Controller M_Menu M_SwarmConfig.
Import ListNotations.
Open Scope Z_scope.

(** ** C26 *)
(** The neighbours that the automatic configuration asks for, by the size of the swarm: all others below ten
    agents, otherwise at least two, from twenty to ninety-nine agents at least three; never more than twenty and
    never more than there are others; the bounds meet only below ten agents. *)
Theorem C26_autoscale_neighbours : forall {T} {N : Num T} n, 1 <= n -> let c := AutoScaleConfig n in
  sc_minn c = (if n <? 10 then n - 1 else if (20 <=? n) && (n <? 100) then 3 else 2) /\
  sc_minn c <= sc_maxn c <= 20 /\ sc_maxn c <= n - 1 /\
  (sc_maxn c = n - 1 <-> n <= 11) /\ (sc_maxn c = sc_minn c <-> n < 10).
Proof.
  intros T N n Hn c. subst c. unfold AutoScaleConfig. cbv zeta. cbn [sc_minn sc_maxn]. unfold autoScaleBase.
  assert (Q5 : 5 * (Z.quot n 5) <= n < 5 * (Z.quot n 5) + 5) by (pose proof (Z.quot_rem' n 5); pose proof (Z.rem_bound_pos n 5); lia).
  assert (Q10 : 10 * (Z.quot n 10) <= n < 10 * (Z.quot n 10) + 10) by (pose proof (Z.quot_rem' n 10); pose proof (Z.rem_bound_pos n 10); lia).
  assert (Q100 : 100 * (Z.quot n 100) <= n < 100 * (Z.quot n 100) + 100) by (pose proof (Z.quot_rem' n 100); pose proof (Z.rem_bound_pos n 100); lia).
  unfold minInt.
  destruct (Z.ltb_spec n 10); [|destruct (Z.ltb_spec n 20); [|destruct (Z.ltb_spec n 100); [|destruct (Z.ltb_spec n 1000)]]];
    cbv zeta; cbn [sc_minn sc_maxn SmallSwarmConfig MediumSwarmConfig DefaultConfig];
    repeat match goal with |- context [Z.leb ?a ?b] => destruct (Z.leb_spec a b) end; cbn [andb];
    repeat match goal with |- context [Z.ltb ?a ?b] => destruct (Z.ltb_spec a b) end; lia.
Qed.
Print Assumptions C26_autoscale_neighbours.
(** A larger swarm is not asked for more neighbours: nine agents need eight each, ten agents two. *)
Theorem C26_autoscale_monotone_refuted : forall {T} {N : Num T}, sc_minn (AutoScaleConfig 9) = 8 /\ sc_minn (AutoScaleConfig 10) = 2 /\
  sc_maxn (AutoScaleConfig 19) = 10 /\ sc_maxn (AutoScaleConfig 20) = 4.
Proof. intros. repeat split. Qed.
Print Assumptions C26_autoscale_monotone_refuted.

(** ** C75 *)
(** Specification: a finite map holds at most one text per key, and looking up means finding that one. *)
Definition holds (g : Goal) (p : Z) (good : bool) (t : string) : Prop := In (g, p, good, t) reasons.
Lemma goalEqb_iff g h : goalEqb g h = true <-> g = h.
Proof. destruct g, h; split; intros; try reflexivity; discriminate. Qed.
Definition keyEqb (a b : Goal * Z * bool) : bool := goalEqb (fst (fst a)) (fst (fst b)) && (snd (fst a) =? snd (fst b)) && Bool.eqb (snd a) (snd b).
Lemma keyEqb_iff a b : keyEqb a b = true <-> a = b.
Proof.
  destruct a as [[g p] x], b as [[h q] y]. unfold keyEqb. cbn [fst snd]. rewrite !andb_true_iff, goalEqb_iff, Z.eqb_eq, eqb_true_iff.
  split; [intros [[-> ->] ->]; reflexivity|intros Q; injection Q as -> -> ->; auto].
Qed.
Fixpoint distinct (l : list (Goal * Z * bool)) : bool := match l with [] => true | k :: r => negb (existsb (keyEqb k) r) && distinct r end.
Lemma distinct_NoDup l : distinct l = true -> NoDup l.
Proof.
  induction l as [|k r IH]; cbn; intros H; constructor; apply andb_true_iff in H as [A B]; [|now apply IH].
  intros I. apply negb_true_iff in A. assert (existsb (keyEqb k) r = true) by (apply existsb_exists; exists k; split; [exact I|now apply keyEqb_iff]). congruence.
Qed.
Lemma keys_once : NoDup (map fst reasons).
Proof. apply distinct_NoDup. vm_compute. reflexivity. Qed.
(** No reason is entered twice, so the lookup gives the entry of the table whatever its order; the table has an entry
    against every pattern of every goal, and one for it with four exceptions. *)
Theorem C75_reasons_map : (forall g p good t, lookupReason g p good = Some t <-> holds g p good t) /\
  (forall g p, g <> OtherGoal -> 1 <= p <= 5 -> exists t, holds g p false t) /\
  (forall g p, g <> OtherGoal -> 1 <= p <= 5 ->
     ((exists t, holds g p true t) <-> ~ (g = MinimizeAPICalls /\ (p = Mixed \/ p = Sparse)) /\ ~ (g = DistributeLoad /\ (p = HighFrequency \/ p = Burst)))) /\
  (forall p good t, ~ holds OtherGoal p good t).
Proof.
  assert (L : forall g p good t, lookupReason g p good = Some t <-> holds g p good t).
  { intros g p good t. unfold lookupReason, holds. split.
    - destruct (find _ reasons) as [[[[h q] b] s]|] eqn:E; [|discriminate]. intros Q. cbn in Q. injection Q as ->. apply find_some in E as [I E].
      cbn [fst snd] in E. rewrite !andb_true_iff, goalEqb_iff, Z.eqb_eq, eqb_true_iff in E. destruct E as [[-> ->] ->]. exact I.
    - intros I. destruct (find _ reasons) as [[[[h q] b] s]|] eqn:E.
      + apply find_some in E as [I' E]. cbn [fst snd] in E. rewrite !andb_true_iff, goalEqb_iff, Z.eqb_eq, eqb_true_iff in E. destruct E as [[-> ->] ->].
        cbn [snd]. f_equal. pose proof keys_once as K. revert I I' K. generalize reasons. intros l I I' K.
        induction l as [|[k u] l IH]; [destruct I|]. cbn [map fst] in K. inversion K as [|? ? NI ND]; subst.
        destruct I as [I|I], I' as [I'|I'].
        * congruence.
        * exfalso. apply NI. injection I as -> _. change (g, p, good) with (fst (g, p, good, s)). now apply in_map.
        * exfalso. apply NI. injection I' as -> _. change (g, p, good) with (fst (g, p, good, t)). now apply in_map.
        * now apply IH.
      + exfalso. apply (find_none _ _ E) in I. cbn [fst snd] in I. rewrite Z.eqb_refl, eqb_reflx, (proj2 (goalEqb_iff g g) eq_refl) in I. discriminate. }
  split; [exact L|].
  assert (D : forall p, 1 <= p <= 5 -> p = 1 \/ p = 2 \/ p = 3 \/ p = 4 \/ p = 5) by (intros; lia).
  assert (LE : forall g p good, (exists t, holds g p good t) <-> lookupReason g p good <> None).
  { intros g p good. split; [intros [t H]; apply L in H; congruence|]. intros H. destruct (lookupReason g p good) as [t|] eqn:E; [|contradiction]. exists t. now apply L. }
  split; [|split].
  - intros g p Ng Hp. apply LE. destruct (D p Hp) as [->|[->|[->|[->| ->]]]]; destruct g; try (now contradiction Ng); vm_compute; discriminate.
  - intros g p Ng Hp. rewrite LE. destruct (D p Hp) as [->|[->|[->|[->| ->]]]]; destruct g; try (now contradiction Ng); vm_compute; intuition congruence.
  - intros p good t H. unfold holds in H. assert (A : forallb (fun x => negb (goalEqb (fst (fst (fst x))) OtherGoal)) reasons = true) by reflexivity.
    rewrite forallb_forall in A. apply A in H. discriminate.
Qed.
Print Assumptions C75_reasons_map.
(** For four pairs the table gives the same reason for the pattern and against it; for all others the two differ. *)
Theorem C75_same_reason_refuted : forall g p, 1 <= p <= 5 ->
  (getPatternReason g p true = getPatternReason g p false <->
   In (g, p) [(ReachConsensus, Mixed); (MinimizeLatency, Sparse); (SaveEnergy, HighFrequency); (RecoverFromFailure, Mixed)]).
Proof.
  intros g p Hp. assert (D : p = 1 \/ p = 2 \/ p = 3 \/ p = 4 \/ p = 5) by lia.
  destruct D as [->|[->|[->|[->| ->]]]]; destruct g; vm_compute; intuition congruence.
Qed.
Print Assumptions C75_same_reason_refuted.
(** The hypotheses are met. *)
Example C75_reasons_applies : holds ReachConsensus HighFrequency true " (rapid consensus iterations)" /\ ReachConsensus <> OtherGoal /\ 1 <= HighFrequency <= 5.
Proof. split; [|split; [discriminate|unfold HighFrequency; lia]]. apply C75_reasons_map. reflexivity. Qed.
Example C26_autoscale_neighbours_applies : forall {T} {N : Num T}, 1 <= 50 /\ sc_minn (AutoScaleConfig 50) = 3 /\ sc_maxn (AutoScaleConfig 50) = 10.
Proof. intros. repeat split. lia. Qed.
