(** C101: what the text of a validation error says. *)
From Coq Require Import ZArith List Bool String Ascii Permutation Lia DecimalString.
From Flocq Require Import Core.Core IEEE754.BinarySingleNaN.
From Verif Require Import Num F64 M_Core M_SwarmConfig M_Workload M_ValidationText S_Swarm.
Import ListNotations.
Open Scope string_scope.

(** ** Strings *)
Fixpoint has (c : ascii) (s : string) : bool :=
  match s with "" => false | String d r => Ascii.eqb c d || has c r end.
Lemma has_app c a b : has c (a ++ b) = (has c a || has c b)%bool.
Proof. induction a as [|d a I]; simpl; [reflexivity|]. now rewrite I, orb_assoc. Qed.
Lemma cut_unique c a b r r' : has c a = false -> has c b = false -> a ++ String c r = b ++ String c r' -> a = b /\ r = r'.
Proof.
  revert b. induction a as [|d a I]; intros [|e b] A B E; simpl in *.
  - injection E. auto.
  - injection E as -> _. now rewrite Ascii.eqb_refl in B.
  - injection E as <- _. now rewrite Ascii.eqb_refl in A.
  - injection E as <- E. apply orb_false_iff in A, B. destruct (I b) as [-> ->]; tauto.
Qed.
Lemma app_len a b : String.length (a ++ b) = (String.length a + String.length b)%nat.
Proof. induction a; simpl; auto. Qed.
Lemma end_unique s a b : a ++ s = b ++ s -> a = b.
Proof.
  revert b. induction a as [|d a I]; intros [|e b] E; auto.
  - apply (f_equal String.length) in E. simpl in E. rewrite app_len in E. lia.
  - apply (f_equal String.length) in E. simpl in E. rewrite app_len in E. lia.
  - simpl in E. injection E as -> E. f_equal. auto.
Qed.
Lemma front_unique s a b : s ++ a = s ++ b -> a = b.
Proof. induction s; simpl; [auto|]. intros E. injection E. auto. Qed.
Lemma app_nil_s a : a ++ "" = a.
Proof. induction a; simpl; congruence. Qed.
Lemma app_assoc_s a b c : (a ++ b) ++ c = a ++ b ++ c.
Proof. induction a; simpl; congruence. Qed.

(** ** The text names the fields *)
Definition plain (e : VErr) : Prop := has ";" (ve_field e) = false /\ has ";" (ve_value e) = false /\ has ";" (ve_msg e) = false /\ has " " (ve_field e) = false.
Lemma plain_text e : plain e -> has ";" (errText e) = false.
Proof. intros (A & B & C & _). unfold errText. rewrite !has_app, A, B, C. reflexivity. Qed.
Lemma text_field e e' : plain e -> plain e' -> errText e = errText e' -> ve_field e = ve_field e'.
Proof.
  intros (_ & _ & _ & A) (_ & _ & _ & B) E. unfold errText in E. apply front_unique in E. now apply (cut_unique " ") in E.
Qed.
Lemma joined_cons x y r : joined (x :: y :: r) = x ++ "; " ++ joined (y :: r).
Proof. reflexivity. Qed.
Lemma joined_semi x y r : has ";" (joined (x :: y :: r)) = true.
Proof. rewrite joined_cons, !has_app. simpl. apply orb_true_r. Qed.
Lemma joined_unique l l' : l <> [] -> l' <> [] -> Forall (fun x => has ";" x = false) l -> Forall (fun x => has ";" x = false) l' ->
  joined l = joined l' -> l = l'.
Proof.
  revert l'. induction l as [|x l I]; intros [|x' l'] NE NE' F F' E; try congruence.
  inversion F as [|? ? F1 F2]; inversion F' as [|? ? F1' F2']; subst. destruct l as [|y l], l' as [|y' l'].
  - now f_equal.
  - exfalso. assert (C : has ";" (joined [x]) = true) by (rewrite E; apply joined_semi). simpl in C. congruence.
  - exfalso. assert (C : has ";" (joined [x']) = true) by (rewrite <- E; apply joined_semi). simpl in C. congruence.
  - rewrite !joined_cons in E. simpl (_ ++ "; " ++ _) in E. apply (cut_unique ";") in E; auto. destruct E as [-> E].
    change (String " " (joined (y :: l)) = String " " (joined (y' :: l'))) in E. injection E as E. f_equal. apply I; auto; discriminate.
Qed.
Lemma texts_fields es es' : Forall plain es -> Forall plain es' -> map errText es = map errText es' -> map ve_field es = map ve_field es'.
Proof.
  revert es'. induction es as [|e es I]; intros [|e' es'] F F' E; try discriminate; auto. apply Forall_cons_iff in F, F'. pose proof (f_equal (hd "") E) as E1. pose proof (f_equal (@tl _) E) as E2.
  cbn [map hd tl] in E1, E2 |- *. f_equal; [apply text_field; tauto|apply I; tauto].
Qed.
Lemma plain_texts es : Forall plain es -> Forall (fun x => has ";" x = false) (map errText es).
Proof. intros F. induction F; simpl; constructor; auto using plain_text. Qed.

(** The text of a list of errors tells which fields are wrong, in which order. *)
Theorem C101_text_tells_fields : forall es es', Forall plain es -> Forall plain es' -> errsText es = errsText es' -> map ve_field es = map ve_field es'.
Proof.
  intros [|a [|b l]] [|a' [|b' l']] F F' E; cbn [errsText] in E; try reflexivity; try discriminate.
  - apply Forall_cons_iff in F, F'. simpl. f_equal. apply text_field; tauto.
  - apply front_unique, end_unique in E. apply joined_unique in E; auto using plain_texts; try discriminate. now apply texts_fields.
Qed.
(** Every error of the list is there in full. *)
Lemma in_joined x l : In x l -> exists a b, joined l = a ++ x ++ b.
Proof.
  induction l as [|y l I]; [intros []|]. destruct l as [|z l].
  - intros [->|[]]. exists "", "". change (x = x ++ ""). now rewrite app_nil_s.
  - intros [->|H].
    + exists "", ("; " ++ joined (z :: l)). reflexivity.
    + destruct (I H) as (a & b & E). rewrite joined_cons, E. exists (y ++ "; " ++ a), b. now rewrite !app_assoc_s.
Qed.
Theorem C101_text_has_all : forall es e, In e es -> exists a b, errsText es = a ++ errText e ++ b.
Proof.
  intros es e H. destruct (in_joined (errText e) (map errText es)) as (a & b & E); [now apply in_map|].
  destruct es as [|x [|y l]]; [destruct H| |].
  - exists a, b. exact E.
  - exists ("multiple validation errors: [" ++ a), (b ++ "]"). cbn [errsText]. rewrite E. now rewrite !app_assoc_s.
Qed.

(** ** The errors of a configuration *)
Section Errs.
Context {T : Type} {N : Num T}.
Variable showF : T -> string.
Variable showD : Z -> string.
Lemma field_entry b f v m : map ve_field (entry b f v m) = err b f.
Proof. destruct b; reflexivity. Qed.
Theorem C101_fields : forall o1 o2 o3 (c : SCfg T) n, range_order o1 -> range_order o2 -> range_order o3 ->
  Permutation (map ve_field (swarmErrs showF showD o1 o2 o3 c n)) (M_SwarmConfig.Validate c n) /\
  (swarmErrs showF showD o1 o2 o3 c n = [] <-> M_SwarmConfig.Validate c n = []).
Proof.
  intros o1 o2 o3 c n H1 H2 H3.
  assert (P : Permutation (map ve_field (swarmErrs showF showD o1 o2 o3 c n)) (M_SwarmConfig.Validate c n)).
  { unfold swarmErrs, M_SwarmConfig.Validate. rewrite !map_app. repeat apply Permutation_app.
    - unfold sizeErrs, validateSwarmSize. rewrite map_app, !field_entry. reflexivity.
    - rewrite <- (H1 (probErrs showF c)). unfold probErrs, probErr, validateProbabilities. rewrite !map_app, !field_entry. reflexivity.
    - unfold neighborErrs, validateNeighborConstraints. rewrite !map_app, !field_entry. destruct (_ && _)%bool; rewrite field_entry; reflexivity.
    - rewrite <- (H2 (positiveErrs showF showD c)). unfold positiveErrs, validatePositiveParameters. rewrite !map_app, !field_entry. reflexivity.
    - rewrite <- (H3 (concurrencyErrs c)). unfold concurrencyErrs, negErr, validateConcurrencyParameters. rewrite !map_app, !field_entry. reflexivity. }
  split; [exact P|]. split; intros E.
  - rewrite E in P. now apply Permutation_nil in P.
  - rewrite E in P. apply Permutation_sym, Permutation_nil in P. now apply map_eq_nil in P.
Qed.
Definition fieldName (f : StateField) : string := match f with FldFrequency => "Frequency" | FldCoherence => "Coherence" | FldPhase => "Phase" end.
Theorem C101_state_fields : forall s : State T, map ve_field (stateErrs showF showD s) = map fieldName (validateErrors s).
Proof.
  intros s. unfold stateErrs, validateErrors. rewrite !map_app, !field_entry. unfold err.
  destruct (st_freq s <=? 0)%Z, (nisnan (st_coh s)), (nisnan (st_phase s)), (nisinf (st_phase s)); try reflexivity;
    rewrite field_entry; unfold err; destruct (nlt (st_coh s) n0 || nlt n1 (st_coh s))%bool; reflexivity.
Qed.
End Errs.

(** Printed numbers have no semicolon. *)
Lemma uint_semi d : has ";" (NilEmpty.string_of_uint d) = false.
Proof. induction d; simpl; auto. Qed.
Lemma dec_semi z : has ";" (dec z) = false.
Proof.
  unfold dec, NilZero.string_of_int, NilZero.string_of_uint. destruct (Z.to_int z) as [d|d]; destruct d; simpl; rewrite ?uint_semi; reflexivity.
Qed.
Section Readable.
Context {T : Type} {N : Num T}.
Variable showF : T -> string.
Variable showD : Z -> string.
Hypothesis showF_semi : forall x, has ";" (showF x) = false.
Hypothesis showD_semi : forall x, has ";" (showD x) = false.
Lemma plain_entry b f v m : has ";" f = false -> has ";" v = false -> has ";" m = false -> has " " f = false -> Forall plain (entry b f v m).
Proof. intros. destruct b; constructor; [|constructor]. repeat split; assumption. Qed.
Lemma plain_perm o es : range_order o -> Forall plain es -> Forall plain (o es).
Proof. intros R F. eapply Permutation_Forall; [apply R|exact F]. Qed.
Ltac pl := repeat (apply Forall_app; split); apply plain_entry; rewrite ?has_app, ?dec_semi; auto.
Lemma swarm_plain o1 o2 o3 (c : SCfg T) n : range_order o1 -> range_order o2 -> range_order o3 -> Forall plain (swarmErrs showF showD o1 o2 o3 c n).
Proof.
  intros H1 H2 H3. unfold swarmErrs. apply Forall_app; split; [|apply Forall_app; split; [|apply Forall_app; split; [|apply Forall_app; split]]].
  - unfold sizeErrs. pl.
  - apply plain_perm; [exact H1|]. unfold probErrs, probErr. pl.
  - unfold neighborErrs. apply Forall_app; split; [destruct (_ && _)%bool; pl|pl].
  - apply plain_perm; [exact H2|]. unfold positiveErrs. pl.
  - apply plain_perm; [exact H3|]. unfold concurrencyErrs, negErr. pl.
Qed.
(** Whatever the order, the text says exactly which fields of the configuration are wrong. *)
Theorem C101_readable : forall o1 o2 o3 p1 p2 p3 (c c' : SCfg T) n n',
  range_order o1 -> range_order o2 -> range_order o3 -> range_order p1 -> range_order p2 -> range_order p3 ->
  errsText (swarmErrs showF showD o1 o2 o3 c n) = errsText (swarmErrs showF showD p1 p2 p3 c' n') ->
  Permutation (M_SwarmConfig.Validate c n) (M_SwarmConfig.Validate c' n').
Proof.
  intros o1 o2 o3 p1 p2 p3 c c' n n' A1 A2 A3 B1 B2 B3 E.
  apply C101_text_tells_fields in E; try apply swarm_plain; auto.
  rewrite <- (proj1 (C101_fields showF showD o1 o2 o3 c n A1 A2 A3)), E. apply C101_fields; auto.
Qed.
(** Likewise for a target state, in order; its text does not depend on anything else. *)
Theorem C101_state_readable : forall s s' : State T,
  errsText (stateErrs showF showD s) = errsText (stateErrs showF showD s') -> validateErrors s = validateErrors s'.
Proof.
  assert (P : forall s : State T, Forall plain (stateErrs showF showD s)).
  { intros s. unfold stateErrs. apply Forall_app; split; [pl|]. apply Forall_app; split; [|pl].
    destruct (nisnan (st_coh s)); [|pl]. constructor; [|constructor]. repeat split; cbn [ve_field ve_value ve_msg]; auto. }
  intros s s' E. apply C101_text_tells_fields in E; auto. rewrite !C101_state_fields in E.
  revert E. generalize (validateErrors s) (validateErrors s'). induction l as [|x l I]; intros [|y l'] E; try discriminate; auto.
  pose proof (f_equal (hd "") E) as E1. pose proof (f_equal (@tl _) E) as E2. cbn [map hd tl] in E1, E2. f_equal; [|apply I, E2].
  destruct x, y; cbn in E1; congruence.
Qed.
End Readable.
(** A text is only made for a wrong configuration and then never claims that there is no error. *)
Theorem C101_no_false_all_clear : forall es, es <> [] -> errsText es <> "no validation errors".
Proof. intros [|e [|f l]] NE E; try congruence; discriminate E. Qed.

(** REFUTED: the same wrong configuration always gives the same text.  Two wrong probabilities are met in either order. *)
Section Floats.
Variable tr : Trig.
Local Instance NF : Num F := FNum tr.
Definition badCfg : SCfg F := mkSCfg (fofZ 2) 5 1 (fofZ 3) (fofZ 0) (fofZ 1) 0 (fofZ 0) (fofZ 1) (fofZ 0) (fofZ 0) 0 0 false 0 0 1 1 0 false false.
Theorem C101_same_text_refuted : forall showF showD, exists o1, range_order o1 /\
  let same := fun l : list VErr => l in
  M_SwarmConfig.Validate badCfg 10 = ["ConnectionProbability"; "CouplingStrength"] /\
  errsText (swarmErrs showF showD same same same badCfg 10) <> errsText (swarmErrs showF showD o1 same same badCfg 10).
Proof.
  intros showF showD. exists (@List.rev VErr). split; [intros l; apply Permutation_rev|]. cbv zeta. split; [vm_compute; reflexivity|].
  set (e1 := mkVErr "ConnectionProbability" (showF (fofZ 2)) "must be between 0 and 1").
  set (e2 := mkVErr "CouplingStrength" (showF (fofZ 3)) "must be between 0 and 1").
  change (swarmErrs showF showD (fun l => l) (fun l => l) (fun l => l) badCfg 10) with [e1; e2].
  change (swarmErrs showF showD (@List.rev VErr) (fun l => l) (fun l => l) badCfg 10) with [e2; e1].
  intros E. cbn [errsText map] in E. apply front_unique, end_unique in E. rewrite !joined_cons in E. unfold errText at 1 3 in E. rewrite !app_assoc_s in E.
  apply front_unique in E. discriminate E.
Qed.
(** REFUTED: every wrong field is named once.  A swarm of one agent with neighbours is told twice. *)
Theorem C101_once_refuted : exists (c : SCfg F), M_SwarmConfig.Validate c 1 = ["MaxNeighbors"; "MaxNeighbors"].
Proof.
  exists (mkSCfg (fofZ 1) 5 1 (fofZ 1) (fofZ 0) (fofZ 1) 0 (fofZ 0) (fofZ 1) (fofZ 0) (fofZ 0) 0 0 false 0 0 1 1 0 false false). vm_compute. reflexivity.
Qed.
(** Instances: printers without semicolons, two different wrong configurations with texts. *)
Example C101_applies : let showF := fun _ : F => "2" in let showD := fun _ : Z => "0s" in
  (forall x, has ";" (showF x) = false) /\ (forall x, has ";" (showD x) = false) /\ range_order (@List.rev VErr) /\
  Forall plain (swarmErrs showF showD (@List.rev VErr) (fun l => l) (fun l => l) badCfg 10) /\
  errsText (swarmErrs showF showD (@List.rev VErr) (fun l => l) (fun l => l) badCfg (-1)) =
  "multiple validation errors: [validation error for field swarmSize (value: -1): must be positive; validation error for field CouplingStrength (value: 2): must be between 0 and 1; validation error for field ConnectionProbability (value: 2): must be between 0 and 1]" /\
  errsText (stateErrs showF showD (mkState (fofZ 0) 0%Z (fofZ 1))) = "validation error for field Frequency (value: 0s): must be positive".
Proof.
  cbv zeta. split; [reflexivity|]. split; [reflexivity|]. split; [intros l; apply Permutation_rev|]. split; [|split; vm_compute; reflexivity].
  apply swarm_plain; try reflexivity; intros l; try apply Permutation_rev; apply Permutation_refl.
Qed.
End Floats.

Print Assumptions C101_text_tells_fields.
Print Assumptions C101_text_has_all.
Print Assumptions C101_fields.
Print Assumptions C101_state_fields.
Print Assumptions C101_readable.
Print Assumptions C101_state_readable.
Print Assumptions C101_no_false_all_clear.
Print Assumptions C101_same_text_refuted.
Print Assumptions C101_once_refuted.
