(** Property theorems C51: scoring of request patterns, on float64 values and with Go's comparisons. *)
From Coq Require Import ZArith List Bool String Lia.
From Flocq Require Import IEEE754.BinarySingleNaN.
From Verif Require Import Num F64 M_ReqPattern L_F64 L_Ford.
Import ListNotations.
Open Scope Z_scope.

Section P.
Variable tr : Trig.
Local Notation modifier := (@GetCoherenceModifier F (FNum tr)).

(** Every integer behaves like one of finitely many. *)
Lemma goal_rep g : exists g', In g' [0; 1; 2; 3; 4; 5; 6; 7; 8] /\ (g' <= 7 -> g = g') /\ (g' = 8 -> g < 0 \/ 7 < g) /\
  (forall n p, modifier g n p = modifier g' n p) /\ BestPatternForGoal g = BestPatternForGoal g'.
Proof.
  destruct (Z_le_dec 0 g) as [A|A]; [destruct (Z_le_dec g 7) as [B|B]|].
  - exists g. split; [cbn [In]; lia|]. repeat split; auto; lia.
  - exists 8. split; [cbn; tauto|]. split; [lia|]. split; [lia|].
    unfold GetCoherenceModifier, baseModifier, baseTenths, BestPatternForGoal, onGoalInt.
    repeat match goal with |- context [g =? ?k] => rewrite (proj2 (Z.eqb_neq g k)) by lia end. split; reflexivity.
  - exists 8. split; [cbn; tauto|]. split; [lia|]. split; [lia|].
    unfold GetCoherenceModifier, baseModifier, baseTenths, BestPatternForGoal, onGoalInt.
    repeat match goal with |- context [g =? ?k] => rewrite (proj2 (Z.eqb_neq g k)) by lia end. split; reflexivity.
Qed.
Lemma pat_rep p : exists p', In p' [0; 1; 2; 3; 4; 5; 6] /\ (p' <= 5 -> p = p') /\ (p' = 6 -> p < 0 \/ 5 < p) /\ (forall g n, modifier g n p = modifier g n p').
Proof.
  destruct (Z_le_dec 0 p) as [A|A]; [destruct (Z_le_dec p 5) as [B|B]|].
  - exists p. split; [cbn [In]; lia|]. repeat split; auto; lia.
  - exists 6. split; [cbn; tauto|]. split; [lia|]. split; [lia|]. intros g n.
    unfold GetCoherenceModifier, baseModifier, baseTenths, onPattern, Unset, HighFrequency, Burst, Steady, Mixed, Sparse.
    repeat match goal with |- context [p =? ?k] => rewrite (proj2 (Z.eqb_neq p k)) by lia end. reflexivity.
  - exists 6. split; [cbn; tauto|]. split; [lia|]. split; [lia|]. intros g n.
    unfold GetCoherenceModifier, baseModifier, baseTenths, onPattern, Unset, HighFrequency, Burst, Steady, Mixed, Sparse.
    repeat match goal with |- context [p =? ?k] => rewrite (proj2 (Z.eqb_neq p k)) by lia end. reflexivity.
Qed.
Lemma count_rep n : exists n', In n' [50; 51; 1000] /\ (n' = 50 <-> n <= 50) /\ (n' = 1000 <-> 1000 <= n) /\ (forall g p, modifier g n p = modifier g n' p).
Proof.
  unfold GetCoherenceModifier. destruct (Z.leb_spec n 50) as [A|A].
  - exists 50. split; [cbn; tauto|]. split; [lia|]. split; [lia|]. intros. rewrite (proj2 (Z.leb_gt 1000 n)) by lia. reflexivity.
  - destruct (Z.leb_spec 1000 n).
    + exists 1000. split; [cbn; tauto|]. split; [lia|]. split; [lia|]. reflexivity.
    + exists 51. split; [cbn; tauto|]. split; [lia|]. split; [lia|]. reflexivity.
Qed.

Definition goalsT := [0; 1; 2; 3; 4; 5; 6; 7; 8].
Definition patsT := [0; 1; 2; 3; 4; 5; 6].
Definition countsT := [50; 51; 1000].
Definition everywhere (f : Z -> Z -> Z -> bool) : bool :=
  forallb (fun g => forallb (fun n => forallb (fun p => f g n p) patsT) countsT) goalsT.
Lemma everywhere_spec f g n p : everywhere f = true -> In g goalsT -> In n countsT -> In p patsT -> f g n p = true.
Proof.
  unfold everywhere. intros H Hg Hn Hp. rewrite forallb_forall in H. specialize (H g Hg). rewrite forallb_forall in H.
  specialize (H n Hn). rewrite forallb_forall in H. exact (H p Hp).
Qed.

Definition low_case (g n p : Z) : bool := (p =? 5) && (n <=? 50) && ((g =? 1) || (g =? 2) || (g =? 3) || (g =? 6) || (g =? 7)).
Lemma range_table : everywhere (fun g n p =>
  fle (modifier g n p) (flit 13 10) && Bool.eqb (fle (flit 5 10) (modifier g n p)) (negb (low_case g n p)) && fle (flit 48 100) (modifier g n p)) = true.
Proof. vm_compute. reflexivity. Qed.

(** The score never exceeds 1.3 and is at least one half, except for the sparse pattern in swarms of at
    most 50 agents under five of the goals, where it is 0.48. *)
Theorem C51_range : forall g n p,
  fle (modifier g n p) (flit 13 10) = true /\ fle (modifier g n p) (flit 15 10) = true /\
  fle (flit 48 100) (modifier g n p) = true /\
  (fle (flit 5 10) (modifier g n p) = true <-> ~ (p = Sparse /\ n <= 50 /\ (g = 1 \/ g = 2 \/ g = 3 \/ g = 6 \/ g = 7))).
Proof.
  intros g n p. destruct (goal_rep g) as (g' & Ig & G1 & G2 & Eg & _), (count_rep n) as (n' & In' & N1 & N2 & En), (pat_rep p) as (p' & Ip & P1 & P2 & Ep).
  rewrite Eg, En, Ep. pose proof (everywhere_spec _ g' n' p' range_table Ig In' Ip) as H. cbv beta in H.
  apply andb_prop in H. destruct H as [H H3]. apply andb_prop in H. destruct H as [H1 H2]. apply Bool.eqb_prop in H2.
  split; [exact H1|]. split; [|split; [exact H3|]].
  - apply (L_Ford.fle_trans _ _ _ H1). vm_compute. reflexivity.
  - clear - H2 Ig In' Ip G1 G2 N1 N2 P1 P2. rewrite H2. clear H2. rewrite negb_true_iff. unfold low_case. unfold Sparse.
    assert (Q : (g' = 1 \/ g' = 2 \/ g' = 3 \/ g' = 6 \/ g' = 7) <-> (g = 1 \/ g = 2 \/ g = 3 \/ g = 6 \/ g = 7)) by (clear - Ig G1 G2; cbn [In] in Ig; lia).
    assert (Q2 : p' = 5 <-> p = 5) by (clear - Ip P1 P2; cbn [In] in Ip; lia). assert (Q3 : n' <= 50 <-> n <= 50) by (clear - In' N1 N2; cbn [In] in In'; lia).
    rewrite <- Q, <- Q2, <- Q3. rewrite <- not_true_iff_false, !andb_true_iff, !orb_true_iff, !Z.eqb_eq, Z.leb_le. clear. tauto.
Qed.

(** The documented lower bound is false. *)
Theorem C51_lower_bound_refuted : exists g n p, p = Sparse /\ 0 < n /\ 0 <= g <= 7 /\ flt (modifier g n p) (flit 5 10) = true.
Proof. exists 3, 20, Sparse. split; [reflexivity|]. split; [lia|]. split; [lia|]. vm_compute. reflexivity. Qed.

Definition notBest (g n : Z) : bool := ((g =? 0) || (g =? 3)) && (1000 <=? n) || (g =? 4) && (n <=? 50).
Lemma best_table : everywhere (fun g n p => notBest g n || fle (modifier g n p) (modifier g n (BestPatternForGoal g))) = true.
Proof. vm_compute. reflexivity. Qed.
Lemma worse_table : forallb (fun g => forallb (fun n => negb (notBest g n) || existsb (fun p => flt (modifier g n (BestPatternForGoal g)) (modifier g n p)) patsT) countsT) goalsT = true.
Proof. vm_compute. reflexivity. Qed.
Lemma fin_table : everywhere (fun g n p => is_finite (modifier g n p)) = true.
Proof. vm_compute. reflexivity. Qed.

(** The best pattern has the largest score exactly outside three cases: batching and latency from 1000
    agents on (its high-frequency pattern is then scaled down), and energy saving up to 50 agents. *)
Theorem C51_best_iff : forall g n,
  (forall p, fle (modifier g n p) (modifier g n (BestPatternForGoal g)) = true) <->
  ~ ((g = 0 \/ g = 3) /\ 1000 <= n \/ g = 4 /\ n <= 50).
Proof.
  intros g n. destruct (goal_rep g) as (g' & Ig & G1 & G2 & Eg & EB), (count_rep n) as (n' & In' & N1 & N2 & En).
  assert (Q : ~ ((g = 0 \/ g = 3) /\ 1000 <= n \/ g = 4 /\ n <= 50) <-> notBest g' n' = false).
  { assert (A0 : g' = 0 <-> g = 0) by (clear - Ig G1 G2; cbn [In] in Ig; lia). assert (A3 : g' = 3 <-> g = 3) by (clear - Ig G1 G2; cbn [In] in Ig; lia). assert (A4 : g' = 4 <-> g = 4) by (clear - Ig G1 G2; cbn [In] in Ig; lia).
    assert (B1 : 1000 <= n' <-> 1000 <= n) by (clear - In' N1 N2; cbn [In] in In'; lia). assert (B2 : n' <= 50 <-> n <= 50) by (clear - In' N1 N2; cbn [In] in In'; lia).
    rewrite <- A0, <- A3, <- A4, <- B1, <- B2. unfold notBest. rewrite <- not_true_iff_false, orb_true_iff, !andb_true_iff, orb_true_iff, !Z.eqb_eq, !Z.leb_le. clear. tauto. }
  rewrite Q, EB. split.
  - intros H. destruct (notBest g' n') eqn:E; [|reflexivity]. exfalso.
    pose proof worse_table as W. rewrite forallb_forall in W. specialize (W g' Ig). rewrite forallb_forall in W. specialize (W n' In'). rewrite E in W. cbn [negb orb] in W.
    apply existsb_exists in W. destruct W as (p & Ip & W). specialize (H p). rewrite !Eg, !En in H.
    pose proof (L_Ford.flt_fle_trans _ _ _ W H) as X. rewrite L_Ford.flt_irr in X. discriminate X.
  - intros E p. destruct (pat_rep p) as (p' & Ip & P1 & P2 & Ep). rewrite !Eg, !En, Ep.
    pose proof (everywhere_spec _ g' n' p' best_table Ig In' Ip) as H. cbv beta in H. rewrite E in H. exact H.
Qed.

(** What the best pattern scores: optimal, except in the three cases. *)
Lemma qual_table : forallb (fun g => forallb (fun n => Bool.eqb (String.eqb (@GetQualifier F (FNum tr) g n (BestPatternForGoal g)) "optimal") (negb (notBest g n) && (g <=? 7))) countsT) goalsT = true.
Proof. vm_compute. reflexivity. Qed.
Theorem C51_best_is_optimal : forall g n, 0 <= g <= 7 ->
  (@GetQualifier F (FNum tr) g n (BestPatternForGoal g) = "optimal"%string <-> ~ ((g = 0 \/ g = 3) /\ 1000 <= n \/ g = 4 /\ n <= 50)).
Proof.
  intros g n Hg. destruct (count_rep n) as (n' & In' & N1 & N2 & En).
  assert (EQ : @GetQualifier F (FNum tr) g n (BestPatternForGoal g) = @GetQualifier F (FNum tr) g n' (BestPatternForGoal g)) by (unfold GetQualifier; now rewrite En).
  rewrite EQ. pose proof qual_table as W. rewrite forallb_forall in W. assert (Ig : In g goalsT) by (cbn [In goalsT]; lia). specialize (W g Ig).
  rewrite forallb_forall in W. specialize (W n' In'). apply Bool.eqb_prop in W. rewrite (proj2 (Z.leb_le g 7)), andb_true_r in W by lia.
  rewrite <- String.eqb_eq, W, negb_true_iff. unfold notBest.
  assert (B1 : 1000 <= n' <-> 1000 <= n) by (clear - In' N1 N2; cbn [In] in In'; lia). assert (B2 : n' <= 50 <-> n <= 50) by (clear - In' N1 N2; cbn [In] in In'; lia).
  rewrite <- B1, <- B2, <- not_true_iff_false, orb_true_iff, !andb_true_iff, orb_true_iff, !Z.eqb_eq, !Z.leb_le. clear. tauto.
Qed.

(** A pattern is recommended exactly when its qualifier is "optimal" or "excellent". *)
Theorem C51_recommended_iff : forall g n p, @IsRecommended F (FNum tr) g n p = true <->
  @GetQualifier F (FNum tr) g n p = "optimal"%string \/ @GetQualifier F (FNum tr) g n p = "excellent"%string.
Proof.
  intros g n p. unfold IsRecommended, GetQualifier. change (@nle F (FNum tr)) with fle. change (@nlit F (FNum tr)) with flit. generalize (modifier g n p). intros m.
  destruct (fle (flit 13 10) m) eqn:A.
  - split; [intros _; now left|]. intros _. apply (L_Ford.fle_trans _ (flit 13 10)); [vm_compute; reflexivity|exact A].
  - destruct (fle (flit 12 10) m); [tauto|]. split; [discriminate|]. destruct (fle (flit 10 10) m), (fle (flit 8 10) m); intros [X|X]; discriminate X.
Qed.
End P.

(** Instances: a goal whose best pattern is right at every size, and one where it is not. *)
Example C51_example : forall tr, fle (@GetCoherenceModifier F (FNum tr) 7 5000 Mixed) (@GetCoherenceModifier F (FNum tr) 7 5000 (BestPatternForGoal 7)) = true /\
  flt (@GetCoherenceModifier F (FNum tr) 0 1000 (BestPatternForGoal 0)) (@GetCoherenceModifier F (FNum tr) 0 1000 Burst) = true.
Proof. intros tr. split; vm_compute; reflexivity. Qed.
Print Assumptions C51_range.
Print Assumptions C51_lower_bound_refuted.
Print Assumptions C51_best_iff.
Print Assumptions C51_best_is_optimal.
Print Assumptions C51_recommended_iff.
