(** Property theorems C45: the tables of scales, goals and traits. *)
From Coq Require Import ZArith List Bool String Lia.
From Flocq Require Import IEEE754.BinarySingleNaN.
From Verif Require Import Num F64 M_GoalConfig M_Limits M_Scale.
Import ListNotations.
Open Scope Z_scope.

(** The five declared scales. *)
Definition declared (s : Z) : Prop := 0 <= s <= 4.
Lemma declared_cases s : declared s -> s = 0 \/ s = 1 \/ s = 2 \/ s = 3 \/ s = 4.
Proof. unfold declared. lia. Qed.
Ltac five H := destruct (declared_cases _ H) as [->|[->|[->|[->| ->]]]].
Ltac count_cases n := unfold FromCount; repeat match goal with |- context [n <=? ?k] => destruct (Z.leb_spec n k) end.

(** A scale's default count is classified as that scale. *)
Theorem C45_round_trip : forall s, declared s -> FromCount (DefaultAgentCount s) = s.
Proof. intros s H. five H; reflexivity. Qed.

(** Any other integer used as a scale has a default count of another scale. *)
Theorem C45_round_trip_other : forall s, ~ declared s -> FromCount (DefaultAgentCount s) = Small.
Proof.
  intros s H. unfold DefaultAgentCount, onScale, Tiny, Small, Medium, Large, Huge, declared in *.
  repeat match goal with |- context [s =? ?k] => destruct (Z.eqb_spec s k); [lia|] end. reflexivity.
Qed.

(** More agents never give a smaller scale. *)
Theorem C45_from_count_monotone : forall m n, m <= n -> FromCount m <= FromCount n.
Proof. intros m n H. count_cases m; count_cases n; unfold Tiny, Small, Medium, Large, Huge; lia. Qed.

(** The classification is always a declared scale: the smallest one whose default swarm is big enough,
    or the largest when none is. *)
Theorem C45_from_count_fits : forall n, declared (FromCount n) /\
  (n <= 2000 -> n <= DefaultAgentCount (FromCount n) /\ forall s, declared s -> n <= DefaultAgentCount s -> FromCount n <= s) /\
  (2000 < n -> FromCount n = Huge /\ forall s, declared s -> DefaultAgentCount s < n).
Proof.
  intros n. split; [count_cases n; cbv; intuition discriminate|].
  split; intros H; (split; [|intros s D]).
  - count_cases n; cbn; lia.
  - five D; count_cases n; cbn; unfold Tiny, Small, Medium, Large, Huge; lia.
  - count_cases n; lia || reflexivity.
  - five D; cbn; lia.
Qed.

(** Larger scales: more agents, slower updates, longer convergence, lower target coherence. *)
Theorem C45_tables_monotone : forall tr s t, declared s -> declared t -> s < t ->
  DefaultAgentCount s < DefaultAgentCount t /\ DefaultUpdateIntervalMs s < DefaultUpdateIntervalMs t /\
  flt (@DefaultConvergenceTimeFactor F (FNum tr) s) (@DefaultConvergenceTimeFactor F (FNum tr) t) = true /\
  flt (@DefaultTargetCoherence F (FNum tr) t) (@DefaultTargetCoherence F (FNum tr) s) = true.
Proof.
  intros tr s t Hs Ht L. five Hs; five Ht; try lia; (split; [cbn; lia|]); (split; [cbn; lia|]); split; vm_compute; reflexivity.
Qed.

(** Both tables of update intervals agree on the declared scales, and only there. *)
Theorem C45_update_interval : forall s, UpdateInterval s = DefaultUpdateIntervalMs s <-> declared s.
Proof.
  intros s. split.
  - unfold UpdateInterval, DefaultUpdateIntervalMs, onScale, Tiny, Small, Medium, Large, Huge, declared.
    repeat match goal with |- context [s =? ?k] => destruct (Z.eqb_spec s k); [lia|] end. discriminate.
  - intros H. five H; reflexivity.
Qed.

(** Target coherences are valid for every integer used as a scale, and on the declared scales do not exceed
    even the recommended limit of the default swarm. *)
Theorem C45_target_valid : forall tr s, let c := @DefaultTargetCoherence F (FNum tr) s in
  flt (fofZ 0) c = true /\ fle c (fofZ 1) = true.
Proof.
  intros tr s. unfold DefaultTargetCoherence, onScale. repeat match goal with |- context [s =? ?k] => destruct (s =? k) end; split; vm_compute; reflexivity.
Qed.
Theorem C45_target_within_limit : forall tr s, declared s ->
  let c := @DefaultTargetCoherence F (FNum tr) s in let l := @GetCoherenceLimits F (FNum tr) (DefaultAgentCount s) in
  fle c (lim_rec l) = true /\ fle c (lim_prac l) = true /\ fle c (lim_theo l) = true.
Proof. intros tr s H. five H; cbv zeta; split; [|split| |split| |split| |split| |split]; vm_compute; reflexivity. Qed.

(** Names and keys. *)
Lemma strings_distinct {A} (f : A -> string) (l : list A) : (forall x, In x l) -> NoDup (map f l) -> forall x y, f x = f y -> x = y.
Proof.
  intros C. assert (G : forall l, NoDup (map f l) -> forall x y, In x l -> In y l -> f x = f y -> x = y).
  { clear. induction l as [|a l IH]; cbn; intros ND x y Hx Hy E; [contradiction|]. inversion ND as [|? ? N1 N2]; subst.
    destruct Hx as [->|Hx], Hy as [->|Hy]; auto.
    - exfalso. apply N1. rewrite E. now apply in_map.
    - exfalso. apply N1. rewrite <- E. now apply in_map. }
  intros ND x y. apply (G l ND); auto.
Qed.
Ltac nodup := repeat (apply NoDup_cons; [cbn; intuition discriminate|]); apply NoDup_nil.
Definition allGoals := [MinimizeAPICalls; DistributeLoad; ReachConsensus; MinimizeLatency; SaveEnergy; MaintainRhythm; RecoverFromFailure; AdaptToTraffic; OtherGoal].
Definition allTraits := [Stability; Speed; Efficiency; Throughput; Resilience; Precision; OtherTrait].
Theorem C45_goal_names : forall g h, GoalString g = GoalString h -> g = h.
Proof. apply (strings_distinct GoalString allGoals); [intros []; cbn; tauto|cbn [map allGoals GoalString]; nodup]. Qed.
Theorem C45_goal_keys : (forall g h, GoalShortKey g = GoalShortKey h -> g = h) /\ forall g, String.length (GoalShortKey g) = 1%nat.
Proof.
  split; [|intros []; reflexivity].
  apply (strings_distinct GoalShortKey allGoals); [intros []; cbn; tauto|cbn [map allGoals GoalShortKey]; nodup].
Qed.
Theorem C45_trait_names : forall t u, TraitString t = TraitString u -> t = u.
Proof. apply (strings_distinct TraitString allTraits); [intros []; cbn; tauto|cbn [map allTraits TraitString]; nodup]. Qed.
Theorem C45_scale_names : forall s t, declared s -> (ScaleString s = ScaleString t <-> s = t).
Proof.
  intros s t H. split; [|now intros ->].
  unfold ScaleString, onScale at 2, Tiny, Small, Medium, Large, Huge.
  repeat match goal with |- context [t =? ?k] => destruct (Z.eqb_spec t k) end; five H; cbn; intros E; try discriminate E; congruence.
Qed.

(** Every goal is recommended for some declared scale, and for every declared scale at least six goals are. *)
Theorem C45_recommended : (forall g, exists s, declared s /\ IsRecommendedForSize g (DefaultAgentCount s) = true) /\
  (forall g, IsRecommendedForSize g (DefaultAgentCount Medium) = true) /\
  (forall g l m n, l <= m <= n -> IsRecommendedForSize g l = true -> IsRecommendedForSize g n = true -> IsRecommendedForSize g m = true).
Proof.
  split; [|split].
  - intros g. exists Medium. split; [cbv; intuition discriminate|now destruct g].
  - now intros [].
  - intros g l m n H. destruct g; cbn; rewrite ?andb_true_iff, ?Z.leb_le; lia.
Qed.

(** The comment "Fully connected" of the tiny scale is false: its 20 agents may have 9 neighbours each. *)
Theorem C45_tiny_fully_connected_refuted : exists s, s = Tiny /\ ScaleMaxNeighbors s < DefaultAgentCount s - 1.
Proof. exists Tiny. split; [reflexivity|cbn; lia]. Qed.

(** Instances of the hypotheses. *)
Example C45_example : declared Large /\ declared Small /\ Small < Large /\ FromCount 999 = Large /\ FromCount (-5) = Tiny /\ ~ declared 7.
Proof. unfold declared, Large, Small. repeat split; lia. Qed.
Print Assumptions C45_round_trip.
Print Assumptions C45_round_trip_other.
Print Assumptions C45_from_count_monotone.
Print Assumptions C45_from_count_fits.
Print Assumptions C45_tables_monotone.
Print Assumptions C45_update_interval.
Print Assumptions C45_target_valid.
Print Assumptions C45_target_within_limit.
Print Assumptions C45_goal_names.
Print Assumptions C45_goal_keys.
Print Assumptions C45_trait_names.
Print Assumptions C45_scale_names.
Print Assumptions C45_recommended.
Print Assumptions C45_tiny_fully_connected_refuted.
