(** C70: the text of the swarm panel. *)
From Coq Require Import ZArith Reals Psatz Bool List String Lia.
From Flocq Require Import Core.Core.
From Verif Require Import Num RealNum GoBase M_Core M_Display M_GridText S_Circle L_Circle P_SimReset P_Core P_SwarmView.
Import ListNotations.
Open Scope R_scope.

(** Specification.  The piece of row [y] and column [x] when every row is 25 characters and a line feed. *)
Definition shown (out : list Piece) (y x : nat) : option Piece := nth_error out (26 * y + x).
(** How an agent should be drawn, by the distance of its phase from 0. *)
Definition drawn {T} {N : Num T} (p : T) : Piece :=
  if (nabs p <? nlit 5 10)%num then ("●"%string, Col CGreen)
  else if (nabs p <? nlit 10 10)%num then ("o"%string, Col CYellow) else ("∙"%string, Col CRed).
(** Below the 13 rows a piece is followed by a white text that contains the word. *)
Definition explained (out : list Piece) (pc : Piece) (word : string) : Prop :=
  exists a b s t, skipn (13 * 26) out = (a ++ [pc; ((s ++ word ++ t)%string, White)] ++ b)%list.

Lemma row_len g y : shaped g -> (y < 13)%nat -> List.length (renderRow g y) = 26%nat.
Proof.
  intros [L F] H. unfold renderRow. destruct (nth_error g y) as [r|] eqn:E.
  - rewrite app_length, map_length. rewrite Forall_forall in F. rewrite (F r) by (eapply nth_error_In; exact E). reflexivity.
  - apply nth_error_None in E. lia.
Qed.
Lemma flat_nth {A} (f : nat -> list A) w : forall n s i j, (forall k, (s <= k < s + n)%nat -> List.length (f k) = w) -> (i < n)%nat -> (j < w)%nat ->
  nth_error (flat_map f (seq s n)) (w * i + j) = nth_error (f (s + i)%nat) j.
Proof.
  induction n as [|n IH]; intros s i j L Hi Hj; [lia|]. cbn [seq flat_map]. pose proof (L s ltac:(lia)) as L0. destruct i as [|i].
  - rewrite nth_error_app1 by nia. f_equal; [f_equal|]; lia.
  - rewrite nth_error_app2 by nia. rewrite L0. replace (w * S i + j - w)%nat with (w * i + j)%nat by nia.
    rewrite IH by (try (intros; apply L); lia). do 2 f_equal. lia.
Qed.
Lemma flat_len {A} (f : nat -> list A) w : forall n s, (forall k, (s <= k < s + n)%nat -> List.length (f k) = w) -> List.length (flat_map f (seq s n)) = (n * w)%nat.
Proof.
  induction n as [|n IH]; intros s L; [reflexivity|]. cbn [seq flat_map]. rewrite app_length, (L s) by lia. rewrite IH by (intros; apply L; lia). lia.
Qed.
Lemma grid_len g : shaped g -> List.length (renderGrid g) = (13 * 26)%nat.
Proof. intros S. apply flat_len. intros k H. apply row_len; [exact S|lia]. Qed.
Lemma shown_row g l y x : shaped g -> (y < 13)%nat -> (x < 26)%nat -> shown (renderGrid g ++ l) y x = nth_error (renderRow g y) x.
Proof.
  intros S Hy Hx. unfold shown. rewrite nth_error_app1 by (rewrite grid_len by exact S; lia).
  unfold renderGrid. rewrite (flat_nth (renderRow g) 26) by (try (intros k Hk; apply row_len; [exact S|]); lia). reflexivity.
Qed.
Lemma shown_cell g l y x : shaped g -> (y < 13)%nat -> (x < 25)%nat ->
  shown (renderGrid g ++ l) y x = Some (renderGridChar (at_ g (Z.of_nat y) (Z.of_nat x))).
Proof.
  intros S Hy Hx. rewrite shown_row by (auto; lia). destruct S as [L F]. unfold renderRow, at_. rewrite !Nat2Z.id.
  destruct (nth_error g y) as [r|] eqn:E; [|apply nth_error_None in E; lia].
  assert (Lr : List.length r = 25%nat) by (rewrite Forall_forall in F; apply F; eapply nth_error_In; exact E).
  rewrite (nth_error_nth _ _ _ E). rewrite nth_error_app1 by (rewrite map_length; lia).
  apply map_nth_error. apply nth_error_nth'. lia.
Qed.
Lemma shown_end g l y : shaped g -> (y < 13)%nat -> shown (renderGrid g ++ l) y 25 = Some (nl, Plain).
Proof.
  intros S Hy. rewrite shown_row by (auto; lia). destruct S as [L F]. unfold renderRow.
  destruct (nth_error g y) as [r|] eqn:E; [|apply nth_error_None in E; lia].
  assert (Lr : List.length r = 25%nat) by (rewrite Forall_forall in F; apply F; eapply nth_error_In; exact E).
  rewrite nth_error_app2 by (rewrite map_length; lia). rewrite map_length, Lr. reflexivity.
Qed.
Lemma char_drawn {T} {N : Num T} (p : T) : renderGridChar (getAgentCharacter p) = drawn p.
Proof. unfold getAgentCharacter, drawn. destruct (_ <? _)%num; [reflexivity|]. destruct (_ <? _)%num; reflexivity. Qed.
Lemma drawn_ink {T} {N : Num T} (p : T) : drawn p <> (" "%string, Plain).
Proof. unfold drawn. destruct (_ <? _)%num; [discriminate|]. destruct (_ <? _)%num; discriminate. Qed.
Lemma skip_legend g : shaped g -> skipn (13 * 26) (renderGrid g ++ gridLegend) = gridLegend.
Proof. intros S. rewrite <- (grid_len g S). rewrite skipn_app, skipn_all, Nat.sub_diag. reflexivity. Qed.

(** Whatever the numbers, the panel is 13 lines of 25 characters and a legend; the target is in the middle; any
    other place is blank exactly when none of the first twenty agents is placed there and otherwise shows one
    of them by its phase. *)
Theorem C70_drawn : forall {T} {N : Num T} (c : T) phases, exists out, updateSwarmVisualization c phases = Some out /\
  (forall y, (y < 13)%nat -> shown out y 25 = Some (nl, Plain)) /\ shown out 6 12 = Some ("⊕"%string, Col CCyan) /\
  forall y x, (y < 13)%nat -> (x < 25)%nat -> (x, y) <> (12, 6)%nat ->
    (shown out y x = Some (" "%string, Plain) <-> ~ exists i p, nth_error phases i = Some p /\ (i < 20)%nat /\ gridCell c i p = (Z.of_nat x, Z.of_nat y)) /\
    (shown out y x <> Some (" "%string, Plain) ->
       exists i p, nth_error phases i = Some p /\ (i < 20)%nat /\ gridCell c i p = (Z.of_nat x, Z.of_nat y) /\ shown out y x = Some (drawn p)).
Proof.
  intros T N c phases. destruct (C70_grid c phases) as (g & E & S & M & K). exists (renderGrid g ++ gridLegend)%list.
  unfold updateSwarmVisualization. rewrite E. split; [reflexivity|]. split; [intros y Hy; now apply shown_end|]. split.
  - rewrite shown_cell by (auto; lia). change (Z.of_nat 6) with 6%Z. change (Z.of_nat 12) with 12%Z. rewrite M. reflexivity.
  - intros y x Hy Hx NC. rewrite shown_cell by auto.
    destruct (K (Z.of_nat y) (Z.of_nat x)) as [A B]; [lia|lia|intros Q; apply NC; injection Q; intros; f_equal; lia|].
    assert (BL : Some (renderGridChar (at_ g (Z.of_nat y) (Z.of_nat x))) = Some (" "%string, Plain) <-> at_ g (Z.of_nat y) (Z.of_nat x) = 0%Z).
    { split; [|intros ->; reflexivity]. intros Q. destruct (Z.eq_dec (at_ g (Z.of_nat y) (Z.of_nat x)) 0) as [D|D]; [exact D|].
      exfalso. destruct (B D) as (i & p & _ & _ & _ & G). rewrite G, char_drawn in Q. injection Q as Q. exact (drawn_ink p Q). }
    split; [rewrite BL; exact A|]. intros NB. destruct B as (i & p & P1 & P2 & P3 & P4); [intros Z0; apply NB; now apply BL|].
    exists i, p. rewrite P4, char_drawn. auto.
Qed.
Print Assumptions C70_drawn.

(** The legend below the grid explains the target and every way an agent is drawn, each in its colour. *)
Theorem C70_legend : forall {T} {N : Num T} (c : T) phases out, updateSwarmVisualization c phases = Some out ->
  explained out ("⊕"%string, Col CCyan) "Target" /\
  forall p : T, explained out (drawn p) (if (nabs p <? nlit 5 10)%num then "Synced" else if (nabs p <? nlit 10 10)%num then "Near" else "Far").
Proof.
  intros T N c phases out. unfold updateSwarmVisualization. destruct (C70_grid c phases) as (g & E & S & _). rewrite E. intros Q. injection Q as <-.
  unfold explained. rewrite skip_legend by exact S. split.
  - exists (firstn 1 gridLegend), (skipn 3 gridLegend), " "%string, "  "%string. reflexivity.
  - intros p. unfold drawn. destruct (_ <? _)%num; [|destruct (_ <? _)%num].
    + exists (firstn 3 gridLegend), (skipn 5 gridLegend), " "%string, nl. reflexivity.
    + exists (firstn 5 gridLegend), (skipn 7 gridLegend), " "%string, "    "%string. reflexivity.
    + exists (firstn 7 gridLegend), [], " "%string, ""%string. reflexivity.
Qed.
Print Assumptions C70_legend.

(** "Synced" is about phase 0, not about the other agents: a swarm of any size in perfect agreement at phase 2
    is drawn without a single "●". *)
Theorem C70_synced_refuted : forall n, (0 < n)%nat -> @MeasureCoherence R RNum (repeat 2 n) = 1 /\
  forall out, @updateSwarmVisualization R RNum 1 (repeat 2 n) = Some out ->
  forall y x, (y < 13)%nat -> (x < 25)%nat -> shown out y x <> Some ("●"%string, Col CGreen).
Proof.
  intros n Hn. split.
  - apply C03_coherence_one_iff; [destruct n; [lia|discriminate]|]. intros p q Hp Hq. apply repeat_spec in Hp. apply repeat_spec in Hq. subst. exists 0%Z. lra.
  - intros out Eo y x Hy Hx Q. destruct (@C70_drawn R RNum 1 (repeat 2 n)) as (o & E & _ & C & K). rewrite Eo in E. injection E as <-.
    destruct (Nat.eq_dec x 12) as [X|X]; [destruct (Nat.eq_dec y 6) as [Y|Y]; [subst; rewrite C in Q; discriminate|]|];
      (destruct (K y x Hy Hx) as [_ B]; [congruence|]); (destruct B as (i & p & P1 & _ & _ & P4); [rewrite Q; discriminate|]);
      apply nth_error_In, repeat_spec in P1; subst p; rewrite Q in P4; revert P4; unfold drawn; cbn [nabs nlt nlit RNum];
      rewrite Rabs_pos_eq by lra; rewrite !Rlt_bool_false by lra; discriminate.
Qed.
Print Assumptions C70_synced_refuted.
(** Nor is it the distance along the circle: just before a full turn an agent is drawn as far. *)
Theorem C70_wrap_refuted : exists p, 0 <= p < 2 * PI /\ is_arc p 0 (1 / 10) /\ @drawn R RNum p = ("∙"%string, Col CRed).
Proof.
  pose proof PI_lo as PL. exists (2 * PI - 1 / 10). split; [lra|]. split.
  - replace (1 / 10) with (Rabs (- (1 / 10))) at 2 by (rewrite Rabs_Ropp, Rabs_pos_eq; lra). apply is_arc_of_rep; [lra|]. exists 1%Z. lra.
  - unfold drawn. cbn [nabs nlt nlit RNum]. rewrite Rabs_pos_eq by lra. rewrite !Rlt_bool_false by lra. reflexivity.
Qed.
Print Assumptions C70_wrap_refuted.
(** The hypotheses are met: an agent at phase 0 is drawn in green, five columns right of the target. *)
Example C70_drawn_applies : exists out, @updateSwarmVisualization R RNum (1 / 2) [0] = Some out /\ shown out 6 17 = Some ("●"%string, Col CGreen).
Proof.
  destruct C70_applies as (g & E & A). exists (renderGrid g ++ gridLegend)%list. unfold updateSwarmVisualization. rewrite E. split; [reflexivity|].
  destruct (@C70_grid R RNum (1 / 2) [0]) as (g' & E' & S & _). rewrite E in E'. injection E' as <-.
  rewrite shown_cell by (auto; lia). change (Z.of_nat 6) with 6%Z. change (Z.of_nat 17) with 17%Z. rewrite A. reflexivity.
Qed.
