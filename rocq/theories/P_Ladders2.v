(** C26 (coupling of the automatic configuration), C45 (time factor of a scale), C48 (reset of a
    workload) and C51 (words for request patterns):
    cases that wrong programs had left open. *)
From Coq Require Import ZArith Reals List Bool String Lia Lra.
From Verif Require Import Num F64 RealNum M_GoalConfig M_ReqPattern M_Workload M_SwarmConfig M_Scale.
Import ListNotations.
Open Scope Z_scope.

(** ** C26 *)
(** The coupling that the automatic configuration sets, by the size of the swarm (exact reals). *)
Theorem C26_autoscale_coupling : forall n, 1 <= n -> sc_coup (@AutoScaleConfig R RNum n) =
  (if n <? 10 then 9 / 10 else if n <? 20 then 8 / 10 else if n <? 100 then 6 / 10 else if n <? 1000 then 70 / IZR n else 50 / IZR n)%R.
Proof.
  intros n Hn. assert (P : (0 < IZR n)%R) by (apply IZR_lt; lia). unfold AutoScaleConfig, autoScaleBase. cbv zeta. cbn [sc_coup].
  destruct (Z.ltb_spec n 10); [|destruct (Z.ltb_spec n 20); [|destruct (Z.ltb_spec n 100); [|destruct (Z.ltb_spec n 1000)]]];
    cbn [sc_coup SmallSwarmConfig MediumSwarmConfig DefaultConfig nlit nmul ndiv nofZ RNum];
    destruct (Z.ltb_spec 100 n); try lia; try reflexivity; try (field; lra).
  assert (n = 100) by lia. subst. lra.
Qed.
Print Assumptions C26_autoscale_coupling.
(** It does not fall with the size: one hundred agents are coupled more strongly than ninety-nine. *)
Theorem C26_coupling_falls_refuted : (sc_coup (@AutoScaleConfig R RNum 99) < sc_coup (@AutoScaleConfig R RNum 100))%R.
Proof. rewrite !C26_autoscale_coupling by lia. cbn [Z.ltb Z.compare Pos.compare Pos.compare_cont]. lra. Qed.
Print Assumptions C26_coupling_falls_refuted.

(** ** C45 *)
(** The time factor of a scale lies between 1 and 3; only tiny swarms have 1 and only huge ones 3; an unknown scale counts
    as medium (exact reals). *)
Theorem C45_time_factor : forall s, let f := @DefaultConvergenceTimeFactor R RNum s in
  (1 <= f <= 3)%R /\ (f = 1%R <-> s = Tiny) /\ (f = 3%R <-> s = Huge) /\
  (~ 0 <= s <= 4 -> f = @DefaultConvergenceTimeFactor R RNum Medium).
Proof.
  intros s. cbv zeta. unfold DefaultConvergenceTimeFactor, onScale, Tiny, Small, Medium, Large, Huge. cbn [nlit RNum].
  repeat match goal with |- context [s =? ?k] => destruct (Z.eqb_spec s k) end; cbn [Z.eqb Pos.eqb];
    (split; [lra|]); (split; [split; intros; [lra||lia|lra||lia]|]); (split; [split; intros; [lra||lia|lra||lia]|]); intros; try lra; lia.
Qed.
Print Assumptions C45_time_factor.

(** ** C48 *)
(** What the code can see of a workload (all but the ghost fields and the task in the generator's hand). *)
Definition seen (w : Workload) := (w_id w, w_name w, w_pattern w, w_pending w, (w_counter w, w_generated w, w_sent w), (w_burst w, w_burstEnd w)).
(** A workload that has been reset looks like a new one of the same name and pattern. *)
Theorem C48_reset_fresh : forall id i p g w0 w, NewWorkloadWithEmerge id i p g = Some w0 ->
  w_id w = id -> w_name w = w_name w0 -> w_pattern w = p -> seen (ResetWorkload w) = seen w0.
Proof.
  intros id i p g w0 w E HI HN HP. unfold NewWorkloadWithEmerge in E. destruct (_ <? _); [discriminate|].
  destruct (nth_error _ _) as [nm|]; [|discriminate]. injection E as <-. cbn in HN. unfold seen. cbn. congruence.
Qed.
Print Assumptions C48_reset_fresh.
Example C48_reset_applies : exists w0, NewWorkloadWithEmerge "a" 9 Burst SaveEnergy = Some w0 /\ w_name w0 = "HumiditySensor"%string.
Proof. eexists. split; reflexivity. Qed.

(** ** C51 *)
(** A pattern that is not set, or unknown, neither helps nor harms, whatever the goal and the size. *)
Theorem C51_unknown_pattern : forall {T} {N : Num T} g n p, ~ 1 <= p <= 5 -> GetCoherenceModifier g n p = nlit 10 10.
Proof.
  intros T N g n p H. unfold GetCoherenceModifier, baseModifier, HighFrequency, Sparse.
  rewrite (proj2 (Z.eqb_neq p 1)), (proj2 (Z.eqb_neq p 5)) by lia. rewrite !andb_false_r. cbv zeta. f_equal.
  unfold baseTenths, onPattern, HighFrequency, Burst, Steady, Mixed, Sparse.
  rewrite (proj2 (Z.eqb_neq p 1)), (proj2 (Z.eqb_neq p 2)), (proj2 (Z.eqb_neq p 3)), (proj2 (Z.eqb_neq p 4)), (proj2 (Z.eqb_neq p 5)) by lia.
  unfold onGoalInt. repeat match goal with |- context [if ?b then _ else _] => destruct b end; reflexivity.
Qed.
Print Assumptions C51_unknown_pattern.
(** The word for each goal (0 to 7) and pattern (high-frequency, burst, steady, mixed, sparse) in swarms of 51 to 999
    agents, where the size does not count. *)
Definition words : list (list string) :=
  [["optimal"; "optimal"; "good"; "excellent"; "poor"]; ["optimal"; "fair"; "optimal"; "good"; "poor"];
   ["good"; "poor"; "optimal"; "fair"; "poor"]; ["optimal"; "fair"; "excellent"; "fair"; "poor"];
   ["poor"; "excellent"; "fair"; "fair"; "optimal"]; ["good"; "fair"; "optimal"; "fair"; "poor"];
   ["excellent"; "good"; "good"; "optimal"; "poor"]; ["good"; "optimal"; "fair"; "excellent"; "poor"]]%string.
Theorem C51_words : forall tr g n p row word, 50 < n < 1000 -> 0 <= g <= 7 -> 1 <= p <= 5 ->
  nth_error words (Z.to_nat g) = Some row -> nth_error row (Z.to_nat (p - 1)) = Some word ->
  @GetQualifier F (FNum tr) g n p = word.
Proof.
  intros tr g n p row word Hn Hg Hp ER EW. unfold GetQualifier, GetCoherenceModifier.
  rewrite (proj2 (Z.leb_gt 1000 n)), (proj2 (Z.leb_gt n 50)) by lia. cbn [andb]. cbv zeta.
  assert (G : g = 0 \/ g = 1 \/ g = 2 \/ g = 3 \/ g = 4 \/ g = 5 \/ g = 6 \/ g = 7) by lia.
  assert (Q : p = 1 \/ p = 2 \/ p = 3 \/ p = 4 \/ p = 5) by lia.
  destruct G as [->|[->|[->|[->|[->|[->|[->| ->]]]]]]]; cbn in ER; injection ER as <-;
    destruct Q as [->|[->|[->|[->| ->]]]]; cbn in EW; injection EW as <-; vm_compute; reflexivity.
Qed.
Print Assumptions C51_words.
Example C51_words_applies : 50 < 200 < 1000 /\ nth_error words (Z.to_nat 4) = Some ["poor"; "excellent"; "fair"; "fair"; "optimal"]%string.
Proof. split; [lia|reflexivity]. Qed.
