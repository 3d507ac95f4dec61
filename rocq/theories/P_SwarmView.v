(** C69-C73: mean field and agent colours, swarm grid, indicators, metric colours and waves. *)
From Coq Require Import ZArith Reals Psatz Bool List String Lia.
From Flocq Require Import Core.Core IEEE754.BinarySingleNaN.
From Verif Require Import Num F64 RealNum GoBase M_Core M_GoalConfig M_Display S_Agent S_Circle S_Display L_F64 L_Ford L_Circle L_Display S_Sync P_SimReset.
From Verif Require P_Converge.
Import ListNotations.
Open Scope R_scope.

(** ** C69 *)
(** The length of the mean field is the coherence. *)
Theorem C69_magnitude : forall phases : list R, phases <> [] -> snd (@calculateMeanField R RNum phases) = @MeasureCoherence R RNum phases.
Proof.
  intros phases H. destruct phases as [|p ps]; [contradiction|]. set (l := p :: ps).
  unfold calculateMeanField, MeasureCoherence, lenZ. unfold l at 7. fold l. cbn [nofZ nlt nsqrt nmul nadd ndiv nsin ncos RNum n0 snd].
  set (S := fold_left (fun acc p => acc + sin p) l 0). set (C := fold_left (fun acc p => acc + cos p) l 0).
  assert (P : 0 < IZR (Z.of_nat (List.length l))) by (apply IZR_lt; cbn; lia). set (n := IZR (Z.of_nat (List.length l))) in *.
  rewrite Rlt_bool_true by exact P.
  replace (S / n * (S / n) + C / n * (C / n)) with ((C * C + S * S) / (n * n)) by (field; lra).
  assert (0 <= C * C + S * S) by (pose proof (Rle_0_sqr C); pose proof (Rle_0_sqr S); unfold Rsqr in *; lra).
  rewrite sqrt_div_alt by nra. rewrite sqrt_square by lra. reflexivity.
Qed.
(** The mean phase is the direction of the sum of the agents' unit vectors. *)
Theorem C69_mean_phase : forall phases : list R, phases <> [] -> let n := IZR (Z.of_nat (List.length phases)) in
  n * snd (@calculateMeanField R RNum phases) * cos (fst (@calculateMeanField R RNum phases)) = fold_left (fun acc p => acc + cos p) phases 0 /\
  n * snd (@calculateMeanField R RNum phases) * sin (fst (@calculateMeanField R RNum phases)) = fold_left (fun acc p => acc + sin p) phases 0 /\
  - PI < fst (@calculateMeanField R RNum phases) <= PI.
Proof.
  intros phases H n. unfold calculateMeanField, lenZ. cbn [nofZ nlt nsqrt nmul nadd ndiv nsin ncos natan2 RNum n0 fst snd].
  set (S := fold_left (fun acc p => acc + sin p) phases 0). set (C := fold_left (fun acc p => acc + cos p) phases 0).
  assert (P : 0 < n) by (apply IZR_lt; destruct phases; [contradiction|cbn; lia]). fold n. rewrite Rlt_bool_true by exact P.
  destruct (P_Converge.Ratan2_dir (S / n) (C / n)) as (r & Pr & Ht & Ex & Ey). set (t := Ratan2 (S / n) (C / n)) in *.
  assert (E : sqrt (S / n * (S / n) + C / n * (C / n)) = r).
  { rewrite Ex, Ey. replace (r * sin t * (r * sin t) + r * cos t * (r * cos t)) with (r * r * (sin t * sin t + cos t * cos t)) by ring.
    pose proof (sin2_cos2 t) as SC. unfold Rsqr in SC. rewrite SC, Rmult_1_r. now apply sqrt_square. }
  rewrite E. split; [|split; [|exact Ht]]; [replace C with (n * (C / n)) by (field; lra); rewrite Ex|replace S with (n * (S / n)) by (field; lra); rewrite Ey]; ring.
Qed.
(** With a coherence of at least 0.3 and the mean phase in the upper half, an agent is green exactly when it is
    closer to the mean than [PI (1 - magnitude)] along the circle. *)
Theorem C69_color : forall p m mag d, 0 <= p < 2 * PI -> 0 <= m <= PI -> 3 / 10 <= mag -> is_arc p m d ->
  @getAgentColor R RNum p m mag = if Rlt_bool d (PI * (1 - mag)) then CGreen else CRed.
Proof.
  intros p m mag d Hp Hm Hg Hd. pose proof PI_RGT_0 as P. unfold getAgentColor, npi, n2pi, n1. cbn [nlt nlit nabs nsub nhalfpi nmul nofZ RNum].
  rewrite (Rlt_bool_false mag (3 / 10)) by lra. replace (2 * PI / 2) with PI by field. replace (4 * PI / 2) with (2 * PI) by field.
  assert (E : (if Rlt_bool PI (Rabs (p - m)) then 2 * PI - Rabs (p - m) else Rabs (p - m)) = d); [|rewrite E; reflexivity].
  destruct (Rlt_bool_spec PI (Rabs (p - m))) as [G|G].
  - destruct (Rle_dec (p - m) 0) as [L|L]; [rewrite Rabs_left1 in G by lra; lra|]. rewrite Rabs_pos_eq in * by lra.
    assert (A : is_arc p m (Rabs (p - m - 2 * PI))) by (apply is_arc_of_rep; [lra|exists 1%Z; lra]).
    rewrite (is_arc_unique _ _ _ _ Hd A). rewrite Rabs_left1 by lra. lra.
  - symmetry. eapply is_arc_unique; [exact Hd|]. apply is_arc_of_rep; [|exists 0%Z; lra]. apply Rabs_le_inv in G. lra.
Qed.
(** With the mean phase in the lower half (math.Atan2 returns negative angles there) agents on the far side are
    shown green. *)
Theorem C69_negative_mean_refuted : exists p m mag d, 0 <= p < 2 * PI /\ - PI <= m <= PI /\ 3 / 10 <= mag <= 1 /\ is_arc p m d /\
  PI * (1 - mag) < d /\ @getAgentColor R RNum p m mag = CGreen.
Proof.
  pose proof PI_lo as PL. pose proof PI_hi as PH.
  exists (59 / 10), (-3), (9 / 10), (Rabs (89 / 10 - 2 * PI)).
  split; [lra|]. split; [lra|]. split; [lra|]. split; [apply is_arc_of_rep; [lra|exists 1%Z; lra]|].
  split; [rewrite Rabs_pos_eq; lra|]. unfold getAgentColor, npi, n2pi, n1. cbn [nlt nlit nabs nsub nhalfpi nmul nofZ RNum].
  rewrite (Rlt_bool_false (9 / 10) (3 / 10)) by lra. replace (2 * PI / 2) with PI by field. replace (4 * PI / 2) with (2 * PI) by field.
  rewrite (Rabs_pos_eq (59 / 10 - -3)) by lra. rewrite (Rlt_bool_true PI) by lra. rewrite Rlt_bool_true by lra. reflexivity.
Qed.
(** Below 0.3 the colour is meant to tell three groups apart; for phases in [0, 2PI) the groups are a sixth, a
    third and a half of the circle, and red is never used. *)
Theorem C69_groups : forall p m mag, 0 <= p < 2 * PI -> mag < 3 / 10 ->
  @getAgentColor R RNum p m mag = if Rlt_bool p (PI / 3) then CYellow else if Rlt_bool p PI then CCyan else CMagenta.
Proof.
  intros p m mag Hp Hg. pose proof PI_RGT_0 as P. unfold getAgentColor, npi, n2pi. cbn [nlt nlit nadd ndiv nmul nhalfpi nofZ ntrunc RNum].
  rewrite (Rlt_bool_true mag (3 / 10)) by lra. replace (2 * PI / 2) with PI by field. replace (4 * PI / 2) with (2 * PI) by field.
  set (t := (p + PI) * 3 / (2 * PI)). assert (E : t * (2 * PI) = (p + PI) * 3) by (unfold t; field; lra).
  assert (T : 1 <= t < 5) by (split; [apply Rmult_le_reg_r with (2 * PI)|apply Rmult_lt_reg_r with (2 * PI)]; lra).
  rewrite Ztrunc_floor by lra. destruct (Rlt_bool_spec p (PI / 3)).
  - assert (t < 2) by (apply Rmult_lt_reg_r with (2 * PI); lra). rewrite (Zfloor_imp 1) by (simpl; lra). reflexivity.
  - assert (2 <= t) by (apply Rmult_le_reg_r with (2 * PI); lra). destruct (Rlt_bool_spec p PI).
    + assert (t < 3) by (apply Rmult_lt_reg_r with (2 * PI); lra). rewrite (Zfloor_imp 2) by (simpl; lra). reflexivity.
    + assert (3 <= t) by (apply Rmult_le_reg_r with (2 * PI); lra). assert (3 <= Zfloor t)%Z by (apply Zfloor_lub; lra).
      destruct (Z.eqb_spec (Zfloor t) 0), (Z.eqb_spec (Zfloor t) 1), (Z.eqb_spec (Zfloor t) 2); try lia. reflexivity.
Qed.
Example C69_applies : 0 <= 1 < 2 * PI /\ 0 <= 1 <= PI /\ is_arc 1 1 0 /\ @getAgentColor R RNum 1 1 (1 / 2) = CGreen.
Proof.
  pose proof PI_lo as PL. assert (A : is_arc 1 1 0) by (rewrite <- Rabs_R0; apply is_arc_of_rep; [lra|exists 0%Z; lra]).
  split; [lra|]. split; [lra|]. split; [exact A|]. rewrite (C69_color 1 1 (1 / 2) 0) by (auto; lra). rewrite Rlt_bool_true by lra. reflexivity.
Qed.

(** ** C70 *)
(** The grid as a function of row and column. *)
Definition at_ (g : list (list Z)) (y x : Z) : Z := nth (Z.to_nat x) (nth (Z.to_nat y) g []) 0%Z.
Definition shaped (g : list (list Z)) : Prop := List.length g = 13%nat /\ Forall (fun r => List.length r = 25%nat) g.
Lemma nth_Forall {A} (P : A -> Prop) l : forall i d, Forall P l -> (i < List.length l)%nat -> P (nth i l d).
Proof. intros i d H Hi. rewrite Forall_forall in H. apply H. now apply nth_In. Qed.
Lemma setGrid_spec g y x v : shaped g -> (0 <= y < 13)%Z -> (0 <= x < 25)%Z ->
  exists g', setGrid g y x v = Some g' /\ shaped g' /\
    forall y' x', (0 <= y' < 13)%Z -> (0 <= x' < 25)%Z -> at_ g' y' x' = if (y' =? y)%Z && (x' =? x)%Z then v else at_ g y' x'.
Proof.
  intros [L R] Hy Hx. unfold setGrid. rewrite (nthZ_spec g y []) by (unfold lenZ; lia).
  set (row := nth (Z.to_nat y) g []). assert (Lr : List.length row = 25%nat) by (apply (nth_Forall _ _ _ _ R); lia).
  destruct (setZ_spec row x v 0%Z) as (row' & E1 & L1 & K1); [unfold lenZ; lia|]. rewrite E1.
  destruct (setZ_spec g y row' []) as (g' & E2 & L2 & K2); [unfold lenZ; lia|]. rewrite E2.
  exists g'. split; [reflexivity|]. split.
  - split; [lia|]. apply Forall_forall. intros r Hr. apply (In_nth _ _ []) in Hr as (i & Hi & <-).
    specialize (K2 (Z.of_nat i) ltac:(unfold lenZ; lia)). rewrite Nat2Z.id in K2. rewrite K2. destruct (Z.of_nat i =? y)%Z; [lia|].
    apply (nth_Forall _ _ _ _ R). lia.
  - intros y' x' Hy' Hx'. unfold at_. rewrite K2 by (unfold lenZ; lia). destruct (Z.eqb_spec y' y) as [->|]; cbn [andb]; [|reflexivity].
    rewrite K1 by (unfold lenZ; lia). reflexivity.
Qed.
Section Grid.
Context {T : Type} {N : Num T}.
(** A cell an agent may be drawn on: inside the grid and not the centre. *)
Definition free (xy : Z * Z) : Prop := (0 <= fst xy < 25)%Z /\ (0 <= snd xy < 13)%Z /\ xy <> (12, 6)%Z.
Lemma place_spec c phases : forall i g, shaped g ->
  exists g', placeAgents c i phases g = Some g' /\ shaped g' /\ at_ g' 6 12 = at_ g 6 12 /\
    forall y x, (0 <= y < 13)%Z -> (0 <= x < 25)%Z ->
      (at_ g' y x = at_ g y x \/ exists j p, nth_error phases j = Some p /\ (i + j < 20)%nat /\ gridCell c (i + j) p = (x, y) /\ at_ g' y x = getAgentCharacter p) /\
      ((exists j p, nth_error phases j = Some p /\ (i + j < 20)%nat /\ gridCell c (i + j) p = (x, y) /\ free (x, y)) ->
         exists j p, nth_error phases j = Some p /\ (i + j < 20)%nat /\ gridCell c (i + j) p = (x, y) /\ at_ g' y x = getAgentCharacter p).
Proof.
  induction phases as [|p r IH]; intros i g Hg; cbn [placeAgents].
  - exists g. split; [reflexivity|]. split; [exact Hg|]. split; [reflexivity|]. intros y x _ _. split; [now left|]. intros (j & q & E & _). destruct j; discriminate.
  - destruct (Nat.leb_spec 20 i) as [H20|H20].
    { exists g. split; [reflexivity|]. split; [exact Hg|]. split; [reflexivity|]. intros y x _ _. split; [now left|]. intros (j & q & _ & B & _). lia. }
    destruct (gridCell c i p) as [x0 y0] eqn:EG.
    assert (SHIFT : forall (Q : nat -> T -> Prop), (exists j q, nth_error r j = Some q /\ Q (S i + j)%nat q) -> exists j q, nth_error (p :: r) j = Some q /\ Q (i + j)%nat q).
    { intros Q (j & q & E & B). exists (S j), q. split; [exact E|]. replace (i + S j)%nat with (S i + j)%nat by lia. exact B. }
    destruct ((0 <=? x0)%Z && (x0 <? 25)%Z && (0 <=? y0)%Z && (y0 <? 13)%Z && (negb (x0 =? 12)%Z || negb (y0 =? 6)%Z)) eqn:EC.
    + apply andb_true_iff in EC as [EC E5]. apply andb_true_iff in EC as [EC E4]. apply andb_true_iff in EC as [EC E3]. apply andb_true_iff in EC as [E1 E2].
      apply Z.leb_le in E1, E3. apply Z.ltb_lt in E2, E4.
      assert (NC : ~ (x0 = 12 /\ y0 = 6)%Z). { intros [-> ->]. cbn in E5. discriminate. }
      destruct (setGrid_spec g y0 x0 (getAgentCharacter p) Hg ltac:(lia) ltac:(lia)) as (g1 & S1 & Sh1 & K1). rewrite S1.
      destruct (IH (S i) g1 Sh1) as (g2 & S2 & Sh2 & C2 & K2). exists g2. split; [exact S2|]. split; [exact Sh2|]. split.
      { rewrite C2, K1 by lia. destruct (Z.eqb_spec 6 y0), (Z.eqb_spec 12 x0); cbn [andb]; try reflexivity. exfalso. apply NC. lia. }
      intros y x Hy Hx. destruct (K2 y x Hy Hx) as [A B]. rewrite K1 in A by lia. split.
      * destruct A as [A|A]; [|right; apply (SHIFT (fun k q => (k < 20)%nat /\ gridCell c k q = (x, y) /\ at_ g2 y x = getAgentCharacter q)); exact A].
        destruct (Z.eqb_spec y y0) as [->|]; [|now left]. destruct (Z.eqb_spec x x0) as [->|]; cbn [andb] in A; [|now left].
        right. exists 0%nat, p. rewrite Nat.add_0_r. split; [reflexivity|]. split; [lia|]. split; [exact EG|exact A].
      * intros (j & q & E & Bj & Gj & Fr).
        destruct A as [A|A]; [|apply (SHIFT (fun k q => (k < 20)%nat /\ gridCell c k q = (x, y) /\ at_ g2 y x = getAgentCharacter q)); exact A].
        destruct j as [|j].
        -- cbn in E. injection E as <-. rewrite Nat.add_0_r in *. rewrite EG in Gj. injection Gj as -> ->. rewrite !Z.eqb_refl in A. cbn [andb] in A.
           exists 0%nat, p. rewrite Nat.add_0_r. auto.
        -- apply (SHIFT (fun k q => (k < 20)%nat /\ gridCell c k q = (x, y) /\ at_ g2 y x = getAgentCharacter q)). apply B. exists j, q.
           replace (S i + j)%nat with (i + S j)%nat by lia. auto.
    + destruct (IH (S i) g Hg) as (g2 & S2 & Sh2 & C2 & K2). exists g2. split; [exact S2|]. split; [exact Sh2|]. split; [exact C2|].
      intros y x Hy Hx. destruct (K2 y x Hy Hx) as [A B]. split.
      * destruct A as [A|A]; [now left|right; apply (SHIFT (fun k q => (k < 20)%nat /\ gridCell c k q = (x, y) /\ at_ g2 y x = getAgentCharacter q)); exact A].
      * intros (j & q & E & Bj & Gj & Fr). destruct j as [|j].
        -- exfalso. cbn in E. injection E as <-. rewrite Nat.add_0_r in *. rewrite EG in Gj. injection Gj as -> ->. destruct Fr as (F1 & F2 & F3). cbn [fst snd] in *.
           assert (X : (0 <=? x)%Z && (x <? 25)%Z && (0 <=? y)%Z && (y <? 13)%Z && (negb (x =? 12)%Z || negb (y =? 6)%Z) = true); [|rewrite X in EC; discriminate].
           rewrite !andb_true_iff. repeat split; try (apply Z.leb_le; lia); try (apply Z.ltb_lt; lia).
           destruct (Z.eqb_spec x 12), (Z.eqb_spec y 6); cbn; auto; try (exfalso; apply F3; congruence).
        -- apply (SHIFT (fun k q => (k < 20)%nat /\ gridCell c k q = (x, y) /\ at_ g2 y x = getAgentCharacter q)). apply B. exists j, q.
           replace (S i + j)%nat with (i + S j)%nat by lia. auto.
Qed.
(** The swarm view never panics, whatever the numbers; it is 13 rows of 25 cells with the centre marked; any
    other cell is blank or shows one of the first twenty agents placed there; and a cell where one of them is
    placed is not left blank. *)
Theorem C70_grid : forall (c : T) phases, exists g, swarmGrid c phases = Some g /\ shaped g /\ at_ g 6 12 = 1%Z /\
  forall y x, (0 <= y < 13)%Z -> (0 <= x < 25)%Z -> (x, y) <> (12, 6)%Z ->
    (at_ g y x = 0%Z <-> ~ exists i p, nth_error phases i = Some p /\ (i < 20)%nat /\ gridCell c i p = (x, y)) /\
    (at_ g y x <> 0%Z -> exists i p, nth_error phases i = Some p /\ (i < 20)%nat /\ gridCell c i p = (x, y) /\ at_ g y x = getAgentCharacter p).
Proof.
  intros c phases. unfold swarmGrid.
  assert (SE : shaped (createEmptyGrid 25 13)).
  { split; [reflexivity|]. unfold createEmptyGrid. apply Forall_forall. intros r Hr. apply repeat_spec in Hr. now subst. }
  destruct (setGrid_spec (createEmptyGrid 25 13) 6 12 1 SE ltac:(lia) ltac:(lia)) as (g0 & E0 & S0 & K0). rewrite E0.
  destruct (place_spec c phases 0 g0 S0) as (g & E & S & C & K). exists g. split; [exact E|]. split; [exact S|].
  split; [rewrite C, K0 by lia; reflexivity|]. intros y x Hy Hx NC. destruct (K y x Hy Hx) as [A B]. cbn [Nat.add] in A, B.
  assert (Z0 : at_ g0 y x = 0%Z).
  { rewrite K0 by lia. destruct (Z.eqb_spec y 6), (Z.eqb_spec x 12); cbn [andb]; try (exfalso; apply NC; congruence);
      unfold at_, createEmptyGrid; rewrite (nth_indep _ [] (repeat 0%Z (Z.to_nat 25))) by (rewrite repeat_length; lia); rewrite nth_repeat; apply nth_repeat. }
  rewrite Z0 in A.
  assert (CH : forall p : T, getAgentCharacter p <> 0%Z) by (intros p; unfold getAgentCharacter; destruct (_ <? _)%num; [discriminate|]; destruct (_ <? _)%num; discriminate).
  split; [split|].
  - intros G0 (i & p & Ei & Hi & Gi). destruct B as (j & q & _ & _ & _ & Q).
    { exists i, p. split; [exact Ei|]. split; [exact Hi|]. split; [exact Gi|]. split; [exact Hx|]. split; [exact Hy|exact NC]. }
    apply (CH q). congruence.
  - intros NE. destruct A as [A|(j & q & Ej & Hj & Gj & _)]; [exact A|]. exfalso. apply NE. exists j, q. auto.
  - intros NZ. destruct A as [A|A]; [contradiction|]. exact A.
Qed.
End Grid.
Lemma trunc_bound t b : (0 <= b)%Z -> Rabs t <= IZR b -> (- b <= Ztrunc t <= b)%Z.
Proof.
  intros Hb H. apply Rabs_le_inv in H. destruct (Rle_dec 0 t) as [P|P].
  - rewrite Ztrunc_floor by exact P. split; [assert (0 <= Zfloor t)%Z by (apply Zfloor_lub; lra); lia|]. apply le_IZR. eapply Rle_trans; [apply Zfloor_lb|lra].
  - rewrite Ztrunc_ceil by lra. split.
    + apply le_IZR. rewrite opp_IZR. eapply Rle_trans; [|apply Zceil_ub]. lra.
    + apply Zceil_glb. assert (0 <= IZR b) by (apply IZR_le; lia). lra.
Qed.
(** All agents are drawn within five columns and two rows of the centre (exact reals). *)
Theorem C70_near_centre : forall c i p, 0 <= c <= 1 ->
  (7 <= fst (@gridCell R RNum c i p) <= 17)%Z /\ (4 <= snd (@gridCell R RNum c i p) <= 8)%Z.
Proof.
  intros c i p Hc. unfold gridCell. cbn [nadd nsub nmul ndiv nofZ ncos nsin ntrunc RNum fst snd].
  assert (D : 2 <= @gridDistance R RNum c <= 5).
  { unfold gridDistance, n1. cbn [nadd nsub nmul nofZ nlt nlit RNum]. destruct (Rlt_bool_spec (5 / 10) c); lra. }
  set (d := @gridDistance R RNum c) in *. set (a := p + IZR (Z.of_nat i) * npi / 10).
  assert (C1 : Rabs (cos a) <= 1) by (apply Rabs_le; pose proof (COS_bound a); lra). assert (S1 : Rabs (sin a) <= 1) by (apply Rabs_le; pose proof (SIN_bound a); lra).
  split.
  - assert (B : Rabs (d * cos a) <= 5) by (rewrite Rabs_mult, (Rabs_pos_eq d) by lra; pose proof (Rabs_pos (cos a)); nra).
    pose proof (trunc_bound _ 5 ltac:(lia) B). lia.
  - assert (B : Rabs (d * sin a / 2) < 3).
    { unfold Rdiv. rewrite !Rabs_mult, (Rabs_pos_eq d), (Rabs_pos_eq (/ 2)) by lra. pose proof (Rabs_pos (sin a)). nra. }
    pose proof (trunc_bound (d * sin a / 2) 3 ltac:(lia) ltac:(lra)) as TB.
    assert (Ztrunc (d * sin a / 2) <> 3 /\ Ztrunc (d * sin a / 2) <> (-3))%Z; [|lia]. apply Rabs_def2 in B. split; intros E.
    + destruct (Rle_dec 0 (d * sin a / 2)).
      * rewrite Ztrunc_floor in E by lra. pose proof (Zfloor_lb (d * sin a / 2)). rewrite E in *. lra.
      * rewrite Ztrunc_ceil in E by lra. assert (Zceil (d * sin a / 2) <= 0)%Z by (apply Zceil_glb; lra). lia.
    + destruct (Rle_dec 0 (d * sin a / 2)).
      * rewrite Ztrunc_floor in E by lra. assert (0 <= Zfloor (d * sin a / 2))%Z by (apply Zfloor_lub; lra). lia.
      * rewrite Ztrunc_ceil in E by lra. pose proof (Zceil_ub (d * sin a / 2)). rewrite E in *. lra.
Qed.
(** In a synchronised swarm agents can fall on the centre and are not drawn at all. *)
Theorem C70_hidden_refuted : exists p : R, 0 <= p < 2 * PI /\ forall g, @swarmGrid R RNum 1 [p] = Some g ->
  forall y x, (0 <= y < 13)%Z -> (0 <= x < 25)%Z -> (x, y) <> (12, 6)%Z -> at_ g y x = 0%Z.
Proof.
  pose proof PI_lo as PL. pose proof PI_hi as PH. exists (14 / 10). split; [lra|]. intros g Eg y x Hy Hx NC.
  destruct (@C70_grid R RNum 1 [14 / 10]) as (g' & E' & _ & _ & K). rewrite Eg in E'. injection E' as <-.
  destruct (K y x Hy Hx NC) as [A _]. apply A. intros (i & p & Ei & _ & Gi). destruct i as [|[|i]]; cbn in Ei; try discriminate. injection Ei as <-.
  apply NC. rewrite <- Gi. unfold gridCell, gridDistance, n1, npi. cbn [nadd nsub nmul ndiv nofZ ncos nsin ntrunc nlt nlit nhalfpi RNum Z.of_nat].
  rewrite (Rlt_bool_true (5 / 10) 1) by lra. replace (14 / 10 + 0 * (2 * PI / 2) / 10) with (14 / 10) by field.
  assert (C1 : 0 < cos (14 / 10) < 1 / 2).
  { split; [apply cos_gt_0; lra|]. rewrite <- cos_PI3. apply cos_decreasing_1; lra. }
  assert (S1 : 0 < sin (14 / 10) < 1).
  { split; [apply sin_gt_0; lra|]. rewrite <- sin_PI2. apply sin_increasing_1; lra. }
  rewrite !Ztrunc_floor by lra. rewrite !(Zfloor_imp 0) by (simpl; lra). reflexivity.
Qed.
Example C70_applies : exists g, @swarmGrid R RNum (1 / 2) [0] = Some g /\ at_ g 6 17 = 2%Z.
Proof.
  destruct (@C70_grid R RNum (1 / 2) [0]) as (g & E & _ & _ & K). exists g. split; [exact E|].
  assert (G : @gridCell R RNum (1 / 2) 0 0 = (17, 6)%Z).
  { unfold gridCell, gridDistance, npi. cbn [nadd nsub nmul ndiv nofZ ncos nsin ntrunc nlt nlit nhalfpi RNum Z.of_nat]. rewrite (Rlt_bool_false (5 / 10) (1 / 2)) by lra.
    replace (0 + 0 * (2 * PI / 2) / 10) with 0 by field. rewrite cos_0, sin_0. replace (5 * 1) with (IZR 5) by lra. replace (5 * 0 / 2) with (IZR 0) by lra.
    rewrite !Ztrunc_IZR. reflexivity. }
  destruct (K 6%Z 17%Z) as [A B]; [lia|lia|discriminate|].
  destruct B as (i & p & Ei & _ & _ & ->). { intros Z0. apply A in Z0. apply Z0. exists 0%nat, 0. repeat split; auto. lia. }
  destruct i as [|[|i]]; cbn in Ei; try discriminate. injection Ei as <-. unfold getAgentCharacter. cbn [nabs nlt nlit RNum]. rewrite Rabs_R0. rewrite Rlt_bool_true by lra. reflexivity.
Qed.

(** ** C71 *)
Definition apiLike (g : Goal) : Prop := g = MinimizeAPICalls \/ g = MinimizeLatency \/ g = MaintainRhythm \/ g = AdaptToTraffic.
(** Green exactly within half a radian of phase 0 along the circle. *)
Theorem C71_green : forall g p d, apiLike g -> 0 <= p < 2 * PI -> is_arc p 0 d -> (@syncIndicator R RNum g p = CGreen <-> d < 1 / 2).
Proof.
  intros g p d Hg Hp Hd. pose proof PI_lo as PL. pose proof PI_hi as PH.
  assert (E : @syncIndicator R RNum g p = if Rlt_bool (Rabs p) (5 / 10) || Rlt_bool (Rabs (p - 2 * PI)) (5 / 10) then CGreen else if Rlt_bool (Rabs p) (10 / 10) then CYellow else CRed).
  { unfold apiLike in Hg. replace (2 * PI) with (4 * PI / 2) by field. destruct Hg as [->|[->|[->| ->]]]; reflexivity. }
  rewrite E. rewrite (Rabs_pos_eq p), (Rabs_left1 (p - 2 * PI)) by lra.
  assert (D : d = Rmin p (2 * PI - p)).
  { unfold Rmin. destruct (Rle_dec p (2 * PI - p)).
    - rewrite (is_arc_unique _ _ _ _ Hd (is_arc_of_rep p 0 p ltac:(lra) ltac:(exists 0%Z; lra))). apply Rabs_pos_eq. lra.
    - rewrite (is_arc_unique _ _ _ _ Hd (is_arc_of_rep p 0 (p - 2 * PI) ltac:(lra) ltac:(exists 1%Z; lra))). rewrite Rabs_left1 by lra. lra. }
  rewrite D. unfold Rmin. destruct (Rlt_bool_spec p (5 / 10)); cbn [orb].
  - split; [intros _|reflexivity]. destruct (Rle_dec p (2 * PI - p)); lra.
  - destruct (Rlt_bool_spec (- (p - 2 * PI)) (5 / 10)).
    + split; [intros _|reflexivity]. destruct (Rle_dec p (2 * PI - p)); lra.
    + split; [destruct (Rlt_bool p (10 / 10)); discriminate|]. destruct (Rle_dec p (2 * PI - p)); lra.
Qed.
(** The same four goals: yellow from a half to one radian after phase 0, red for the rest. *)
Theorem C71_yellow : forall g p, apiLike g -> 0 <= p < 2 * PI ->
  (@syncIndicator R RNum g p = CYellow <-> 1 / 2 <= p < 1) /\ (@syncIndicator R RNum g p = CRed <-> 1 <= p <= 2 * PI - 1 / 2).
Proof.
  intros g p Hg Hp. pose proof PI_lo as PL. pose proof PI_hi as PH.
  assert (E : @syncIndicator R RNum g p = if Rlt_bool (Rabs p) (5 / 10) || Rlt_bool (Rabs (p - 2 * PI)) (5 / 10) then CGreen else if Rlt_bool (Rabs p) (10 / 10) then CYellow else CRed).
  { unfold apiLike in Hg. replace (2 * PI) with (4 * PI / 2) by field. destruct Hg as [->|[->|[->| ->]]]; reflexivity. }
  rewrite E. rewrite (Rabs_pos_eq p), (Rabs_left1 (p - 2 * PI)) by lra.
  destruct (Rlt_bool_spec p (5 / 10)); cbn [orb]; [|destruct (Rlt_bool_spec (- (p - 2 * PI)) (5 / 10)); [|destruct (Rlt_bool_spec p (10 / 10))]]; split; split; intros; try discriminate; try reflexivity; lra.
Qed.
(** Energy: yellow within 0.3 of phase 0 on the circle, green within 0.5 of the opposite phase, red for the rest. *)
Theorem C71_energy : forall p, 0 <= p < 2 * PI ->
  (@syncIndicator R RNum SaveEnergy p = CYellow <-> (p < 3 / 10 \/ 2 * PI - 3 / 10 < p)) /\ (@syncIndicator R RNum SaveEnergy p = CGreen <-> PI - 1 / 2 < p < PI + 1 / 2) /\
  (@syncIndicator R RNum SaveEnergy p = CRed <-> (3 / 10 <= p <= PI - 1 / 2 \/ PI + 1 / 2 <= p <= 2 * PI - 3 / 10)).
Proof.
  intros p Hp. pose proof PI_lo as PL. pose proof PI_hi as PH.
  assert (E : @syncIndicator R RNum SaveEnergy p = if Rlt_bool (Rabs p) (3 / 10) || Rlt_bool (Rabs (p - 2 * PI)) (3 / 10) then CYellow else if Rlt_bool (Rabs (p - PI)) (5 / 10) then CGreen else CRed).
  { replace (2 * PI) with (4 * PI / 2) by field. replace (p - PI) with (p - 2 * PI / 2) by field. reflexivity. }
  rewrite E. rewrite (Rabs_pos_eq p), (Rabs_left1 (p - 2 * PI)) by lra.
  destruct (Rlt_bool_spec p (3 / 10)); cbn [orb]; [|destruct (Rlt_bool_spec (- (p - 2 * PI)) (3 / 10)); [|destruct (Rlt_bool_spec (Rabs (p - PI)) (5 / 10)) as [A|A]; [apply Rabs_def2 in A|]]];
    try (assert (W : p <= PI - 1 / 2 \/ PI + 1 / 2 <= p) by (destruct (Rle_dec p (PI - 1 / 2)); [now left|]; destruct (Rle_dec (PI + 1 / 2) p); [now right|]; exfalso; assert (Rabs (p - PI) < 5 / 10) by (apply Rabs_def1; lra); lra));
    (split; [|split]); split; intros; try discriminate; try reflexivity; lra.
Qed.
(** Consensus: green within 0.5 of one of the numbers 0, 2 and 4, yellow for the rest. *)
Theorem C71_consensus : forall p, 0 <= p < 2 * PI ->
  (@syncIndicator R RNum ReachConsensus p = CGreen <-> (p < 1 / 2 \/ 3 / 2 < p < 5 / 2 \/ 7 / 2 < p < 9 / 2)) /\ @syncIndicator R RNum ReachConsensus p <> CRed.
Proof.
  intros p Hp. pose proof PI_lo as PL. pose proof PI_hi as PH.
  assert (E : @syncIndicator R RNum ReachConsensus p = if Rlt_bool (Rabs p) (5 / 10) || Rlt_bool (Rabs (p - 2)) (5 / 10) || Rlt_bool (Rabs (p - 4)) (5 / 10) then CGreen else CYellow) by reflexivity.
  rewrite E. rewrite (Rabs_pos_eq p) by lra.
  assert (W : forall x, Rabs (p - x) < 5 / 10 <-> x - 1 / 2 < p < x + 1 / 2) by (intros x; split; [intros H; apply Rabs_def2 in H; lra|intros H; apply Rabs_def1; lra]).
  assert (W2 := W 2). assert (W4 := W 4).
  destruct (Rlt_bool_spec p (5 / 10)); cbn [orb]; [|destruct (Rlt_bool_spec (Rabs (p - 2)) (5 / 10)); cbn [orb]; [|destruct (Rlt_bool_spec (Rabs (p - 4)) (5 / 10))]];
    (split; [split; intros; try discriminate; try reflexivity|discriminate]); try lra.
Qed.
(** The sign of an agent on the grid (C70): 2 below half a radian, 3 below one radian, 4 beyond; phases after 0 only. *)
Theorem C70_character : forall p, 0 <= p -> (@getAgentCharacter R RNum p = 2%Z <-> p < 1 / 2) /\ (@getAgentCharacter R RNum p = 3%Z <-> 1 / 2 <= p < 1) /\ (@getAgentCharacter R RNum p = 4%Z <-> 1 <= p).
Proof.
  intros p Hp. unfold getAgentCharacter. cbn [nabs nlt nlit RNum]. rewrite (Rabs_pos_eq p) by lra.
  destruct (Rlt_bool_spec p (5 / 10)); [|destruct (Rlt_bool_spec p (10 / 10))]; (split; [|split]); split; intros; try discriminate; try reflexivity; lra.
Qed.
(** Yellow is only given on one side of phase 0. *)
Theorem C71_one_sided_refuted : exists p q d, 0 <= p < 2 * PI /\ 0 <= q < 2 * PI /\ is_arc p 0 d /\ is_arc q 0 d /\
  forall g, apiLike g -> @syncIndicator R RNum g p = CYellow /\ @syncIndicator R RNum g q = CRed.
Proof.
  pose proof PI_lo as PL. pose proof PI_hi as PH. exists (7 / 10), (2 * PI - 7 / 10), (7 / 10). split; [lra|]. split; [lra|].
  split; [rewrite <- (Rabs_pos_eq (7 / 10)) at 2 by lra; apply is_arc_of_rep; [lra|exists 0%Z; lra]|].
  split. { replace (7 / 10) with (Rabs (- (7 / 10))) at 2 by (rewrite Rabs_Ropp, Rabs_pos_eq; lra). apply is_arc_of_rep; [lra|exists 1%Z; lra]. }
  intros g Hg.
  assert (E : forall p, @syncIndicator R RNum g p = if Rlt_bool (Rabs p) (5 / 10) || Rlt_bool (Rabs (p - 2 * PI)) (5 / 10) then CGreen else if Rlt_bool (Rabs p) (10 / 10) then CYellow else CRed).
  { intros p. unfold apiLike in Hg. replace (2 * PI) with (4 * PI / 2) by field. destruct Hg as [->|[->|[->| ->]]]; reflexivity. }
  rewrite !E. rewrite (Rabs_pos_eq (7 / 10)), (Rabs_left1 (7 / 10 - 2 * PI)), (Rabs_pos_eq (2 * PI - 7 / 10)) by lra.
  replace (2 * PI - 7 / 10 - 2 * PI) with (- (7 / 10)) by ring. rewrite Rabs_Ropp, (Rabs_pos_eq (7 / 10)) by lra.
  rewrite (Rlt_bool_false (7 / 10) (5 / 10)), (Rlt_bool_false (- (7 / 10 - 2 * PI))), (Rlt_bool_true (7 / 10) (10 / 10)), (Rlt_bool_false (2 * PI - 7 / 10) (5 / 10)), (Rlt_bool_false (2 * PI - 7 / 10) (10 / 10)) by lra.
  split; reflexivity.
Qed.
(** Load and recovery: red exactly within half a radian of phase 0; green within half a radian of a quarter, half
    or three quarters of a turn. *)
Theorem C71_load : forall g p, g = DistributeLoad \/ g = RecoverFromFailure -> 0 <= p < 2 * PI ->
  (@syncIndicator R RNum g p = CRed <-> (p < 1 / 2 \/ 2 * PI - 1 / 2 < p)) /\
  (@syncIndicator R RNum g p = CGreen <-> exists k, (k = 1 \/ k = 2 \/ k = 3) /\ Rabs (p - k * (PI / 2)) < 1 / 2).
Proof.
  intros g p Hg Hp. pose proof PI_lo as PL. pose proof PI_hi as PH.
  assert (E : @syncIndicator R RNum g p = if Rlt_bool (Rabs p) (5 / 10) || Rlt_bool (Rabs (p - 2 * PI)) (5 / 10) then CRed
     else if Rlt_bool (Rabs (p - PI)) (5 / 10) || Rlt_bool (Rabs (p - PI / 2)) (5 / 10) || Rlt_bool (Rabs (p - 3 * (PI / 2))) (5 / 10) then CGreen else CYellow).
  { replace (2 * PI) with (4 * PI / 2) by field. replace (p - PI) with (p - 2 * PI / 2) by field. replace (p - PI / 2) with (p - 1 * PI / 2) by field. replace (p - 3 * (PI / 2)) with (p - 3 * PI / 2) by field.
    destruct Hg as [->| ->]; reflexivity. }
  rewrite E. rewrite (Rabs_pos_eq p), (Rabs_left1 (p - 2 * PI)) by lra.
  assert (W : forall x, Rabs (p - x) < 5 / 10 <-> x - 1 / 2 < p < x + 1 / 2) by (intros x; split; [intros H; apply Rabs_def2 in H; lra|intros H; apply Rabs_def1; lra]).
  assert (W' : forall x, 5 / 10 <= Rabs (p - x) <-> ~ (x - 1 / 2 < p < x + 1 / 2)) by (intros x; rewrite <- W; split; lra).
  destruct (Rlt_bool_spec p (5 / 10)); cbn [orb].
  { split; split; try reflexivity; try discriminate; [lra|]. intros (k & Hk & A). exfalso. apply Rabs_def2 in A. destruct Hk as [->|[->| ->]]; lra. }
  destruct (Rlt_bool_spec (- (p - 2 * PI)) (5 / 10)).
  { split; split; try reflexivity; try discriminate; [lra|]. intros (k & Hk & A). exfalso. apply Rabs_def2 in A. destruct Hk as [->|[->| ->]]; lra. }
  destruct (Rlt_bool_spec (Rabs (p - PI)) (5 / 10)) as [A|A]; cbn [orb].
  { split; split; try reflexivity; try discriminate; [lra|]. intros _. exists 2. split; [auto|]. replace (2 * (PI / 2)) with PI by field. lra. }
  destruct (Rlt_bool_spec (Rabs (p - PI / 2)) (5 / 10)) as [B|B]; cbn [orb].
  { split; split; try reflexivity; try discriminate; [lra|]. intros _. exists 1. split; [auto|]. replace (1 * (PI / 2)) with (PI / 2) by field. lra. }
  destruct (Rlt_bool_spec (Rabs (p - 3 * (PI / 2))) (5 / 10)) as [C|C].
  { split; split; try reflexivity; try discriminate; [lra|]. intros _. exists 3. split; [auto|]. lra. }
  split; split; try discriminate; [lra|]. intros (k & Hk & X). exfalso. destruct Hk as [->|[->| ->]].
  - replace (1 * (PI / 2)) with (PI / 2) in X by field. lra.
  - replace (2 * (PI / 2)) with PI in X by field. lra.
  - lra.
Qed.
(** Consensus: an agent just before phase 0 is not in the group of phase 0. *)
Theorem C71_consensus_refuted : exists p q, 0 <= p < 2 * PI /\ 0 <= q < 2 * PI /\ is_arc p q (2 / 10) /\
  @syncIndicator R RNum ReachConsensus p = CGreen /\ @syncIndicator R RNum ReachConsensus q = CYellow.
Proof.
  pose proof PI_lo as PL. pose proof PI_hi as PH. exists (1 / 10), (2 * PI - 1 / 10). split; [lra|]. split; [lra|].
  split. { rewrite <- (Rabs_pos_eq (2 / 10)) at 1 by lra. apply is_arc_of_rep; [lra|exists (-1)%Z; lra]. }
  cbn [syncIndicator nabs nlt nlit nsub nofZ RNum]. rewrite (Rabs_pos_eq (1 / 10)), (Rabs_pos_eq (2 * PI - 1 / 10)), (Rabs_pos_eq (2 * PI - 1 / 10 - 2)), (Rabs_pos_eq (2 * PI - 1 / 10 - 4)) by lra.
  rewrite (Rlt_bool_true (1 / 10)) by lra. split; [reflexivity|]. rewrite !Rlt_bool_false by lra. reflexivity.
Qed.
(** At most ten agents are listed; the listed and the counted ones are all. *)
Theorem C71_listed : forall n, (0 <= n)%Z -> (0 <= fst (agentsShown n) <= 10)%Z /\ (fst (agentsShown n) + snd (agentsShown n) = n)%Z /\
  (snd (agentsShown n) = 0 <-> n <= 10)%Z.
Proof.
  intros n Hn. unfold agentsShown. destruct (Z.ltb_spec n 10); cbn [fst snd]; [destruct (Z.ltb_spec n n); lia|destruct (Z.ltb_spec 10 n); lia].
Qed.
Example C71_applies : apiLike MaintainRhythm /\ 0 <= 1 / 4 < 2 * PI /\ is_arc (1 / 4) 0 (1 / 4) /\ 1 / 4 < 1 / 2.
Proof.
  pose proof PI_lo. split; [unfold apiLike; auto|]. split; [lra|]. split; [|lra]. rewrite <- (Rabs_pos_eq (1 / 4)) at 2 by lra. apply is_arc_of_rep; [lra|exists 0%Z; lra].
Qed.

(** ** C72 *)
(** Red, yellow, green in increasing order. *)
Definition level (c : Color) : Z := match c with CRed => 0%Z | CYellow => 1%Z | _ => 2%Z end.
Section S.
Variable tr : Trig.
Notation NF := (FNum tr).
Lemma ladder_mono (c c' hi lo : F) : fle c c' = true -> (level (@ladder F NF c hi lo) <= level (@ladder F NF c' hi lo))%Z.
Proof.
  intros H. unfold ladder. cbn [nle FNum]. destruct (fle hi c) eqn:A.
  - rewrite (fle_trans _ _ _ A H). cbn. lia.
  - destruct (fle lo c) eqn:B.
    + rewrite (fle_trans _ _ _ B H). destruct (fle hi c'); cbn; lia.
    + destruct (fle hi c'); [cbn; lia|]. destruct (fle lo c'); cbn; lia.
Qed.
(** A higher coherence never gets a worse colour; for load distribution it never gets a better one. *)
Theorem C72_monotone : forall g ds (c c' : F) agents, g <> DistributeLoad -> fle c c' = true ->
  (level (@metricsColor F NF g ds c agents) <= level (@metricsColor F NF g ds c' agents))%Z.
Proof.
  intros g ds c c' agents Hg H. destruct g; try contradiction; cbn [metricsColor]; try (apply ladder_mono; exact H); try (apply Z.le_refl).
  - destruct ds; [apply Z.le_refl|apply ladder_mono; exact H].
  - cbn [nle nlt nlit FNum]. destruct (fle (flit 8 10) c) eqn:A.
    + rewrite (fle_trans _ _ _ A H). destruct (flt _ _); cbn [andb]; [lia|]. destruct (fle (flit 6 10) c) eqn:B; [rewrite (fle_trans _ _ _ B H); lia|]. destruct (fle (flit 6 10) c'); cbn; lia.
    + cbn [andb]. destruct (fle (flit 6 10) c) eqn:B.
      * rewrite (fle_trans _ _ _ B H). destruct (_ && _); cbn; lia.
      * destruct (_ && _); [cbn; lia|]. destruct (fle (flit 6 10) c'); cbn; lia.
Qed.
Theorem C72_load_antitone : forall ds (c c' : F) agents, fle c c' = true ->
  (level (@metricsColor F NF DistributeLoad ds c' agents) <= level (@metricsColor F NF DistributeLoad ds c agents))%Z.
Proof.
  intros ds c c' agents H. cbn [metricsColor nlt nlit FNum]. destruct (flt (flit 5 10) c) eqn:A.
  - rewrite (flt_fle_trans _ _ _ A H). lia.
  - destruct (flt (flit 3 10) c) eqn:B.
    + rewrite (flt_fle_trans _ _ _ B H). destruct (flt (flit 5 10) c'); cbn; lia.
    + destruct (flt (flit 5 10) c'); [cbn; lia|]. destruct (flt (flit 3 10) c'); cbn; lia.
Qed.
(** Savings: red below 20 percent, yellow below 50, else green; never worse for more savings. *)
Theorem C72_savings : forall p : F, @savingsColor F NF p = if flt p (fofZ 20) then CRed else if flt p (fofZ 50) then CYellow else CGreen.
Proof. intros p. unfold savingsColor. cbn [nlt nofZ FNum]. destruct (flt p (fofZ 20)), (flt p (fofZ 50)); reflexivity. Qed.
(** The energy panel is green exactly above seven tenths asleep and yellow exactly above one half. *)
Theorem C72_energy : forall ds (c : F) agents, agents <> [] -> (lenZ agents <= 2 ^ 40)%Z ->
  let k := howMany (fun a => (an_act a =? "quiet")%string) agents in
  @metricsColor F NF SaveEnergy ds c agents = if (7 * lenZ agents <? 10 * k)%Z then CGreen else if (lenZ agents <? 2 * k)%Z then CYellow else CRed.
Proof.
  intros ds c agents Hne Hn k. assert (Pn : (0 < lenZ agents)%Z) by (destruct agents; [contradiction|unfold lenZ; cbn [List.length]; lia]).
  cbn [metricsColor nlt nofZ nmul ndiv FNum]. assert (Ek : count quiet agents = k) by apply count_filter. pose proof (count_range quiet agents) as CR. rewrite Ek in *.
  fold (pct k (lenZ agents)).
  destruct (pct_cmp k (lenZ agents) 70 CR ltac:(lia) ltac:(lia)) as (E & _ & _); [vm_compute; reflexivity|].
  destruct (pct_cmp k (lenZ agents) 50 CR ltac:(lia) ltac:(lia)) as (E' & _ & _); [vm_compute; reflexivity|]. rewrite E, E'.
  destruct (Z.ltb_spec (70 * lenZ agents) (100 * k)), (Z.ltb_spec (7 * lenZ agents) (10 * k)); try lia; [reflexivity|].
  destruct (Z.ltb_spec (50 * lenZ agents) (100 * k)), (Z.ltb_spec (lenZ agents) (2 * k)); try lia; reflexivity.
Qed.
Example C72_applies : fle (flit 65 100) (flit 85 100) = true /\ @metricsColor F NF RecoverFromFailure false (flit 65 100) [] = CYellow /\ @metricsColor F NF RecoverFromFailure false (flit 85 100) [] = CGreen.
Proof. repeat split; vm_compute; reflexivity. Qed.

(** ** C73 *)
(** With a sine in [-1, 1] the height of a column is between 0 and 8. *)
Theorem C73_height : forall p : F, trig_sane tr -> is_finite p = true -> (0 <= @waveHeight F NF p <= 8)%Z.
Proof.
  intros p HT Fp. destruct (sane_sin tr HT p Fp) as [Fs Bs]. apply Rabs_le_inv in Bs. unfold waveHeight, n1. cbn [nadd ndiv nmul nsin nofZ ntrunc FNum].
  assert (B8 : 1024 <= bpow radix2 1023) by (apply (bpow1023_ge 10); lia).
  destruct (fofZ_fin 1) as [F1 V1]; [lia|]. destruct (fofZ_fin 2) as [F2 V2]; [lia|]. destruct (fofZ_fin 8) as [F8 V8]; [lia|].
  destruct (fadd_fin _ _ Fs F1) as [Fa Va]. { rewrite V1. apply Rabs_le. lra. } rewrite V1 in Va. set (a := fadd (tsin tr p) (fofZ 1)) in *.
  assert (Ba : 0 <= B2R a <= 2) by (rewrite Va; split; [apply rnd_ge_0; lra|apply rnd_le_fmt; [apply (fmt_IZR 2); lia|lra]]).
  destruct (fdiv_fin _ _ Fa F2) as [Fd Vd]. { rewrite V2. lra. } { rewrite V2. apply Rabs_le. lra. } rewrite V2 in Vd. set (d := fdiv a (fofZ 2)) in *.
  assert (Bd : 0 <= B2R d <= 1) by (rewrite Vd; split; [apply rnd_ge_0; lra|apply rnd_le_fmt; [apply (fmt_IZR 1); lia|lra]]).
  destruct (fmul_fin _ _ Fd F8) as [Fm Vm]. { rewrite V8. apply Rabs_le. lra. } rewrite V8 in Vm. set (m := fmul d (fofZ 8)) in *.
  assert (Bm : 0 <= B2R m <= 8) by (rewrite Vm; split; [apply rnd_ge_0; lra|apply rnd_le_fmt; [apply (fmt_IZR 8); lia|lra]]).
  assert (TB : (0 <= Ztrunc (B2R m) <= 8)%Z) by (rewrite Ztrunc_floor by lra; split; [apply Zfloor_lub; lra|apply le_IZR; eapply Rle_trans; [apply Zfloor_lb|]; lra]).
  rewrite L_F64x.ftrunc_spec; auto. lia.
Qed.
End S.
(** Eight rows of one cell per agent, at most 35 agents; a column is filled from the bottom up to its height. *)
Theorem C73_waves : forall {T} {N : Num T} (phases : list T),
  List.length (displayBatchingWaves phases) = 8%nat /\
  Forall (fun row => List.length row = Nat.min 35 (List.length phases)) (displayBatchingWaves phases) /\
  forall r j p, (r < 8)%nat -> (j < 35)%nat -> nth_error phases j = Some p ->
    exists cellv, nth_error (nth r (displayBatchingWaves phases) []) j = Some cellv /\ (cellv <> None <-> (8 - Z.of_nat r <= waveHeight p)%Z).
Proof.
  intros T N phases. unfold displayBatchingWaves. set (mf := calculateMeanField phases). cbn [map].
  split; [reflexivity|]. split.
  - repeat (constructor; [now rewrite map_length, firstn_length|]). constructor.
  - intros r j p Hr Hj Hp.
    assert (FN : nth_error (firstn 35 phases) j = Some p).
    { clear - Hp Hj. revert phases j Hp Hj. generalize 35%nat. induction n as [|n IH]; intros phases j Hp Hj; [lia|]. destruct phases as [|q l]; [destruct j; discriminate|]. destruct j; [exact Hp|]. cbn. apply IH; [exact Hp|lia]. }
    do 8 (destruct r as [|r]; [cbn [nth]; rewrite (map_nth_error _ _ _ FN); eexists; split; [reflexivity|];
      match goal with |- context [(?a <=? waveHeight p)%Z] => destruct (Z.leb_spec a (waveHeight p)) end; split; intros; (lia || discriminate || congruence || (exfalso; lia) || auto)|]). lia.
Qed.
Example C73_applies : nth_error [1; 2] 1 = Some 2 /\ List.length (@displayBatchingWaves R RNum [1; 2]) = 8%nat.
Proof. split; reflexivity. Qed.
Print Assumptions C69_magnitude.
Print Assumptions C69_color.
Print Assumptions C69_negative_mean_refuted.
Print Assumptions C69_groups.
Print Assumptions C70_grid.
Print Assumptions C70_near_centre.
Print Assumptions C70_hidden_refuted.
Print Assumptions C71_green.
Print Assumptions C71_one_sided_refuted.
Print Assumptions C71_load.
Print Assumptions C71_consensus_refuted.
Print Assumptions C71_listed.
Print Assumptions C72_monotone.
Print Assumptions C72_load_antitone.
Print Assumptions C72_savings.
Print Assumptions C72_energy.
Print Assumptions C73_height.
Print Assumptions C73_waves.
