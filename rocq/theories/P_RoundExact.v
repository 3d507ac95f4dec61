(** Property C32: exactly what a round does to each agent, and exactly when that brings it closer (exact reals). *)
From Coq Require Import ZArith Reals Psatz Bool List String Lia.
From Flocq Require Import Core.Core.
From Verif Require Import Num GoBase F64 RealNum M_Core M_Random M_Strategy M_Agent M_Limits M_GoalConfig M_Monitor M_ConvMonitor M_Engine
  M_Swarm M_Sync S_Sync S_Circle S_Round S_RoundMove L_Circle L_Coherence P_SimReset P_RoundDir.
Import ListNotations.
Open Scope list_scope.
Open Scope R_scope.

Lemma ahead_wrap target cur : ahead target cur (RWrap (target - cur)).
Proof. destruct (RWrap_spec (target - cur)) as [A [k K]]. split; [exact A|]. exists (- k)%Z. rewrite opp_IZR. lra. Qed.
Lemma ahead_unique target cur phi phi' : ahead target cur phi -> ahead target cur phi' -> phi = phi'.
Proof.
  intros [A [k K]] [B [l L]]. pose proof PI_RGT_0 as P. assert (E : phi - phi' = IZR (l - k) * (2 * PI)) by (rewrite minus_IZR; lra).
  assert (Z : (l - k = 0)%Z). { assert (-1 < IZR (l - k) < 1) by (split; nra). destruct H as [H1 H2]. apply lt_IZR in H1. apply lt_IZR in H2. lia. }
  rewrite Z in E. lra.
Qed.
Lemma draw_half b m : Rabs ((@Float64 R RNum b - 5 / 10) * m) <= Rabs m / 2.
Proof. pose proof (Rdraw b) as D. rewrite Rabs_mult. pose proof (Rabs_pos m) as P. assert (Rabs (Float64 b - 5 / 10) <= / 2) by (apply Rabs_le; lra). set (q := Rabs (_ - _)) in *. nra. Qed.

(** The pull still left when the loop reaches the [i]th agent. *)
Definition left (cr : bool) (i : nat) : R := if cr then (/ 5) ^ ((i + 2) / 3) else 1.
Lemma div3 i : ((S i + 2) / 3 = (i + 2) / 3 + (if Nat.eqb (i mod 3) 0 then 1 else 0))%nat.
Proof.
  pose proof (Nat.div_mod i 3 ltac:(lia)) as D. pose proof (Nat.mod_upper_bound i 3 ltac:(lia)) as M. set (q := (i / 3)%nat) in *. set (r := (i mod 3)%nat) in *.
  destruct r as [|[|[|]]] eqn:E; try lia; cbn [Nat.eqb].
  - assert ((i + 2) / 3 = q)%nat as -> by (symmetry; apply (Nat.div_unique _ 3 q 2); lia). apply eq_sym, (Nat.div_unique _ 3 (q + 1) 0); lia.
  - assert ((i + 2) / 3 = q + 1)%nat as -> by (symmetry; apply (Nat.div_unique _ 3 (q + 1) 0); lia). apply eq_sym, (Nat.div_unique _ 3 (q + 1 + 0) 1); lia.
  - assert ((i + 2) / 3 = q + 1)%nat as -> by (symmetry; apply (Nat.div_unique _ 3 (q + 1) 1); lia). apply eq_sym, (Nat.div_unique _ 3 (q + 1 + 0) 2); lia.
Qed.
Lemma div3' i : (i mod 3 = 0 -> (i + 2) / 3 = i / 3)%nat.
Proof. intros H. pose proof (Nat.div_mod i 3 ltac:(lia)) as D. symmetry. apply (Nat.div_unique _ 3 _ 2); lia. Qed.
Definition crowdedB (x : ApplyCtx R) : bool := negb (phaseAlign x) && (Rlt_bool (gt_very (g_thr (ax_cfg x))) (ax_coh x) && Rlt_bool (ax_var x) (gt_var (g_thr (ax_cfg x)))).
Lemma scale_next x idx d s0 a : snd (@applyAgent R RNum x idx d (s0 * left (crowdedB x) idx) a) = s0 * left (crowdedB x) (S idx).
Proof.
  unfold applyAgent. cbv zeta. rops. unfold crowdedB, left. destruct (phaseAlign x); cbn [negb andb]; [destruct (Rlt_bool _ _); reflexivity|].
  destruct (Rlt_bool (gt_very (g_thr (ax_cfg x))) (ax_coh x) && Rlt_bool (ax_var x) (gt_var (g_thr (ax_cfg x)))) eqn:C; cbn [andb].
  - rewrite div3. destruct (Nat.eqb (idx mod 3) 0); cbn [negb].
    + rewrite pow_add, pow_1. repeat match goal with |- context [if ?c then _ else _] => destruct c end; cbn [snd]; lra.
    + rewrite Nat.add_0_r. reflexivity.
  - repeat match goal with |- context [if ?c then _ else _] => destruct c end; reflexivity.
Qed.
Lemma loop_exact x d s0 : forall l idx i a', nth_error (@applyLoop R RNum x idx d (s0 * left (crowdedB x) idx) l) i = Some a' ->
  exists a, nth_error l i = Some a /\ a' = fst (@applyAgent R RNum x (idx + i) (d (idx + i)%nat) (s0 * left (crowdedB x) (idx + i)) a).
Proof.
  induction l as [|a r IH]; intros idx i a' E; [destruct i; discriminate E|]. cbn [applyLoop] in E.
  pose proof (scale_next x idx (d idx) s0 a) as Q. destruct (applyAgent x idx (d idx) (s0 * left (crowdedB x) idx) a) as [b sc] eqn:Eb. cbn [snd] in Q. subst sc.
  destruct i as [|i].
  - cbn in E. injection E as <-. exists a. rewrite Nat.add_0_r, Eb. split; reflexivity.
  - cbn [nth_error] in E. destruct (IH _ _ _ E) as (a0 & A & C). exists a0. rewrite <- plus_n_Sm. split; [exact A|exact C].
Qed.
Lemma scatter_nth d : forall l idx i a', nth_error (@scatterLoop R RNum idx d l) i = Some a' ->
  exists a, nth_error l i = Some a /\ a' = @scatterAgent R RNum (d (idx + i)%nat 0%nat) a.
Proof.
  induction l as [|a r IH]; intros idx i a' E; [destruct i; discriminate E|]. cbn [scatterLoop] in E. destruct i as [|i]; cbn [nth_error] in E.
  - injection E as <-. exists a. rewrite Nat.add_0_r. split; reflexivity.
  - destruct (IH _ _ _ E) as (a0 & A & C). exists a0. rewrite <- plus_n_Sm. split; [exact A|exact C].
Qed.
Lemma pull_table x : phaseAlign x = false -> firstPull (gv_scale (g_conv (ax_cfg x))) (ax_tcoh x) (ax_coh x) (@adjustmentScale R RNum x).
Proof.
  intros P. unfold adjustmentScale. rewrite P. cbv zeta. rops. unfold firstPull.
  destruct (Rle_bool_spec (ax_tcoh x - ax_coh x) (1 / 100)); [repeat split; intros; try reflexivity; lra|].
  destruct (Rle_bool_spec (ax_tcoh x - ax_coh x) (5 / 100)); [repeat split; intros; try reflexivity; lra|].
  destruct (Rle_bool_spec (ax_tcoh x - ax_coh x) (1 / 10)); [repeat split; intros; try reflexivity; lra|].
  destruct (Rle_bool_spec (ax_tcoh x - ax_coh x) (2 / 10)); repeat split; intros; try reflexivity; lra.
Qed.
Lemma bool_dec_prop (b : bool) (P : Prop) : (b = true -> P) -> (b = false -> ~ P) -> (b = true /\ P) \/ (b = false /\ ~ P).
Proof. destruct b; auto. Qed.
Lemma agent_exact cfg tph tcoh coh var padj fadj n i d (a : RA) : 0 <= phaseOf a < 2 * PI -> 4 / 10 <= tcoh \/ coh <= tcoh ->
  let x := mkAX cfg tph tcoh coh var padj fadj (Rmin (INR n / 100) 1) in let phi := RWrap (tph - phaseOf a) in
  exists D, move cfg tcoh coh var padj n i phi D /\ phaseOf (fst (@applyAgent R RNum x i d (@adjustmentScale R RNum x * left (crowdedB x) i) a)) = RWrap (phaseOf a + D).
Proof.
  intros Ta NL x phi. destruct (RWrap_spec (tph - phaseOf a)) as [PH _]. fold phi in PH.
  assert (AL : (phaseAlign x = true /\ aligning cfg coh var) \/ (phaseAlign x = false /\ ~ aligning cfg coh var)).
  { unfold phaseAlign, aligning. cbn [x ax_cfg ax_coh ax_var]. rops.
    destruct (Rle_bool_spec (gt_high (g_thr cfg)) coh); destruct (Rlt_bool_spec (gt_var (g_thr cfg)) var); cbn [andb]; [left|right|right|right]; split; auto; lra. }
  assert (CR : (crowdedB x = true /\ phaseAlign x = false /\ crowded cfg coh var) \/ (crowdedB x = false /\ (phaseAlign x = false -> ~ crowded cfg coh var))).
  { unfold crowdedB, crowded. cbn [x ax_cfg ax_coh ax_var]. fold x. destruct (phaseAlign x); [right; split; [reflexivity|discriminate]|]. cbn [negb andb].
    destruct (Rlt_bool_spec (gt_very (g_thr cfg)) coh); destruct (Rlt_bool_spec var (gt_var (g_thr cfg))); cbn [andb]; [left|right|right|right]; (split; [reflexivity|]); [split; [reflexivity|lra]|intros _; lra|intros _; lra|intros _; lra]. }
  assert (ID : RWrap (phaseOf a + 0) = phaseOf a) by (rewrite Rplus_0_r; now apply wrap_id).
  pose proof (Rdraw (d 0%nat)) as D0. pose proof (Rdraw (d 1%nat)) as D1.
  unfold applyAgent. cbv zeta. rops. change (ax_cfg x) with cfg. change (ax_target x) with tph. change (ax_coh x) with coh. change (ax_var x) with var. change (ax_padj x) with padj. change (ax_fadj x) with fadj. change (ax_norm x) with (Rmin (INR n / 100) 1). fold phi.
  rewrite (Rabs_pos_eq phi) by lra. destruct AL as [[PA A]|[PA A]]; rewrite PA.
  - assert (LF : left (crowdedB x) i = 1) by (unfold crowdedB; rewrite PA; reflexivity). rewrite LF, Rmult_1_r. unfold adjustmentScale. rewrite PA. rops. change (ax_cfg x) with cfg.
    destruct (Rlt_bool_spec (gv_dist (g_conv cfg)) phi) as [W|W]; cbn [fst]; rewrite freq_phase.
    + exists (phi * (gv_scale (g_conv cfg) * (108 / 100) * (95 / 100 + Float64 (d 0%nat) * (1 / 10)))). split; [apply MoveAlign; auto; lra|]. rewrite set_phase, wrap_wrap. f_equal. field.
    + exists 0. split; [now apply MoveAligned|]. now rewrite ID.
  - assert (CQ : crowdedB x = (Rlt_bool (gt_very (g_thr cfg)) coh && Rlt_bool var (gt_var (g_thr cfg)))%bool) by (unfold crowdedB; now rewrite PA). rewrite <- CQ.
    assert (NA := A). assert (CR' : (crowdedB x = true /\ crowded cfg coh var) \/ (crowdedB x = false /\ ~ crowded cfg coh var)) by (destruct CR as [[Q1 [_ Q2]]|[Q1 Q2]]; auto). clear CR CQ.
    destruct (crowdedB x && negb (Nat.eqb (i mod 3) 0))%bool eqn:WD.
    { cbn [fst]. rewrite set_phase, wrap_wrap. apply andb_prop in WD. destruct WD as [W1 W2]. exists ((Float64 (d 1%nat) - 5 / 10) * ga_walk (g_var cfg)). split; [|reflexivity].
      apply MoveWander; auto; [destruct CR' as [[_ Q]|[Q _]]; [exact Q|congruence]| |apply draw_half]. apply negb_true_iff, Nat.eqb_neq in W2. exact W2. }
    assert (TH : crowded cfg coh var -> Nat.modulo i 3 = 0%nat). { intros Q. destruct CR' as [[Q1 _]|[_ Q2]]; [|contradiction]. rewrite Q1 in WD. apply negb_false_iff, Nat.eqb_eq in WD. exact WD. }
    assert (TW : thresholdOf x = window coh n) by reflexivity. rewrite TW.
    destruct (Rlt_bool_spec (window coh n) phi) as [W|W].
    + cbn [fst]. rewrite freq_phase, set_phase, wrap_wrap. set (s := adjustmentScale x) in *.
      set (w := if crowdedB x then (/ 5) ^ (i / 3 + 1)%nat else 1).
      assert (SW : (if crowdedB x then s * left (crowdedB x) i * (2 / 10) else s * left (crowdedB x) i) = s * w).
      { unfold w, left. destruct (crowdedB x) eqn:CB; [|ring]. rewrite (div3' i) by (apply TH; destruct CR' as [[_ Q]|[Q _]]; [exact Q|discriminate]). rewrite pow_add, pow_1. field. }
      rewrite SW. assert (SP : 3 / 10 <= spread n <= 5 / 10).
      { unfold spread. assert (0 <= Rmin (INR n / 100) 1 <= 1) by (split; [apply Rmin_glb; [apply Rmult_le_pos; [apply pos_INR|lra]|lra]|apply Rmin_r]). lra. }
      change (3 / 10 + (1 - Rmin (INR n / 100) 1) * (2 / 10)) with (spread n).
      eexists. split; [refine (MovePull _ _ _ _ _ _ _ _ s (1 - spread n / 2 + Float64 (d 1%nat) * spread n) (variationOf x (d 0%nat)) NL NA TH W (pull_table x PA) _ _ w _ _); [split; nra| | |]|reflexivity].
      * unfold variationOf. cbv zeta. rops. change (ax_cfg x) with cfg. change (ax_coh x) with coh. change (ax_norm x) with (Rmin (INR n / 100) 1). apply draw_half.
      * intros Q. unfold w. destruct CR' as [[-> _]|[_ Q2]]; [reflexivity|contradiction].
      * intros Q. unfold w. destruct CR' as [[_ Q2]|[-> _]]; [contradiction|reflexivity].
    + destruct (Rlt_bool (gt_mod (g_thr cfg)) coh && Rlt_bool (Float64 (d 1%nat)) (ga_chance (g_var cfg)))%bool eqn:K; cbn [fst]; rewrite freq_phase.
      * apply andb_prop in K. destruct K as [K _]. apply rlt_true in K. rewrite set_phase, wrap_wrap. exists ((Float64 (d 2%nat) - 5 / 10) * ga_pert (g_var cfg)). split; [|reflexivity].
        apply MoveRest; auto. right. split; [exact K|apply draw_half].
      * exists 0. split; [apply MoveRest; auto|]. now rewrite ID.
Qed.
(** ** Every agent of every population makes one of the moves, and no other. *)
Theorem C32_exact : forall cfg target cp coh var d agents i a a',
  nth_error agents i = Some a -> nth_error (@applyPatternCompletion R RNum cfg target cp coh var d agents) i = Some a' -> 0 <= phaseOf a < 2 * PI ->
  exists phi D, ahead (tp_phase target) (phaseOf a) phi /\ move cfg (tp_coh target) coh var (@GetPhaseAdjustment R RNum cp) (List.length agents) i phi D /\
    0 <= phaseOf a' < 2 * PI /\ cong (phaseOf a') (phaseOf a + D).
Proof.
  intros cfg target cp coh var d agents i a a' Ea Ea' Ta.
  exists (RWrap (tp_phase target - phaseOf a)). set (phi := RWrap _).
  cut (exists D, move cfg (tp_coh target) coh var (@GetPhaseAdjustment R RNum cp) (List.length agents) i phi D /\ phaseOf a' = RWrap (phaseOf a + D)).
  { intros (D & M & E). exists D. split; [apply ahead_wrap|]. split; [exact M|]. rewrite E. apply RWrap_spec. }
  unfold applyPatternCompletion in Ea'. rops.
  destruct (Rlt_bool (tp_coh target) (4 / 10) && Rlt_bool (tp_coh target) coh)%bool eqn:SC.
  - apply andb_prop in SC. destruct SC as [T U]. apply rlt_true in T. apply rlt_true in U.
    destruct (scatter_nth d agents 0 i a' Ea') as (b & Eb & ->). rewrite Ea in Eb. injection Eb as <-. cbn [Nat.add].
    exists ((Float64 (d i 0%nat) - 5 / 10) * PI * (3 / 10)). split.
    + apply MoveScatter; auto. pose proof (Rdraw (d i 0%nat)) as Q. pose proof PI_RGT_0. split; nra.
    + unfold scatterAgent. rops. rewrite set_phase. f_equal. f_equal. change (@npi R RNum) with (2 * PI / 2). field.
  - assert (NL : 4 / 10 <= tp_coh target \/ coh <= tp_coh target).
    { destruct (Rlt_bool_spec (tp_coh target) (4 / 10)); [|now left]. destruct (Rlt_bool_spec (tp_coh target) coh); [discriminate|now right]. }
    cbv zeta in Ea'. set (x := applyCtx _ _ _ _ _ _) in Ea'.
    assert (L1 : adjustmentScale x * left (crowdedB x) 0 = adjustmentScale x) by (unfold left; cbn [Nat.add Nat.div fst Nat.divmod pow]; destruct (crowdedB x); ring).
    rewrite <- L1 in Ea'. destruct (loop_exact x d _ agents 0 i a' Ea') as (b & Eb & ->). rewrite Ea in Eb. injection Eb as <-. cbn [Nat.add].
    assert (X : x = mkAX cfg (tp_phase target) (tp_coh target) coh var (GetPhaseAdjustment cp) (GetFrequencyAdjustment cp) (Rmin (INR (List.length agents) / 100) 1)).
    { unfold x, applyCtx. rops. now rewrite INR_IZR_INZ. }
    rewrite X. now apply agent_exact.
Qed.
(** ** When a move brings an agent closer: D forward, less than a turn. *)
Theorem C32_closer_iff : forall target cur phi D new d d', ahead target cur phi -> 0 <= D < 2 * PI -> cong new (cur + D) -> is_arc target cur d -> is_arc target new d' ->
  (d' < d <-> (phi <= PI /\ 0 < D < 2 * phi) \/ (PI < phi /\ 2 * phi - 2 * PI < D)).
Proof.
  intros target cur phi D new d d' [P [k K]] HD Cn A A'. pose proof PI_RGT_0 as PP.
  assert (A2 : is_arc (cur + phi) (cur + D) d').
  { apply is_arc_cong with target new; [|now apply Cn|exact A']. exists k. lra. }
  assert (A1 : is_arc (cur + phi) cur d). { apply is_arc_cong with target cur; [exists k; lra|apply cong_refl|exact A]. }
  assert (E1 : d = if Rle_dec phi PI then phi else 2 * PI - phi).
  { destruct (Rle_dec phi PI).
    - rewrite (is_arc_unique _ _ _ _ A1 (is_arc_of_rep (cur + phi) cur phi ltac:(lra) ltac:(exists 0%Z; lra))). rewrite Rabs_pos_eq; lra.
    - rewrite (is_arc_unique _ _ _ _ A1 (is_arc_of_rep (cur + phi) cur (phi - 2 * PI) ltac:(lra) ltac:(exists 1%Z; lra))). rewrite Rabs_left1; lra. }
  assert (E2 : d' = if Rle_dec (phi - D) (- PI) then phi - D + 2 * PI else if Rle_dec (phi - D) PI then Rabs (phi - D) else 2 * PI - (phi - D)).
  { destruct (Rle_dec (phi - D) (- PI)); [|destruct (Rle_dec (phi - D) PI)].
    - rewrite (is_arc_unique _ _ _ _ A2 (is_arc_of_rep (cur + phi) (cur + D) (phi - D + 2 * PI) ltac:(lra) ltac:(exists (-1)%Z; lra))). rewrite Rabs_pos_eq; lra.
    - exact (is_arc_unique _ _ _ _ A2 (is_arc_of_rep (cur + phi) (cur + D) (phi - D) ltac:(lra) ltac:(exists 0%Z; lra))).
    - rewrite (is_arc_unique _ _ _ _ A2 (is_arc_of_rep (cur + phi) (cur + D) (phi - D - 2 * PI) ltac:(lra) ltac:(exists 1%Z; lra))). rewrite Rabs_left1; lra. }
  rewrite E1, E2. clear - P HD PP. destruct (Rle_dec phi PI), (Rle_dec (phi - D) (- PI)), (Rle_dec (phi - D) PI); try lra;
    (destruct (Rle_dec 0 (phi - D)); [rewrite Rabs_pos_eq by lra|rewrite Rabs_left by lra]); lra.
Qed.
(** ** The aligning round with the settings of the goals: the way back is never taken, so agents with the target close
    behind them move away from it, and those with the target far behind go round the long way. *)
Theorem C32_align_away : forall cfg tcoh coh var padj n i target cur phi D new d d', 0 < gv_scale (g_conv cfg) <= 88 / 100 -> 4 / 10 <= tcoh \/ coh <= tcoh -> aligning cfg coh var ->
  gv_dist (g_conv cfg) < phi -> move cfg tcoh coh var padj n i phi D -> ahead target cur phi -> cong new (cur + D) -> is_arc target cur d -> is_arc target new d' ->
  (PI < phi -> 2 * PI <= (2 - 1134 / 1000 * gv_scale (g_conv cfg)) * phi -> d <= d') /\
  (PI < phi -> (2 - 1026 / 1000 * gv_scale (g_conv cfg)) * phi < 2 * PI -> d' < d) /\ (0 < phi <= PI -> d' < d).
Proof.
  intros cfg tcoh coh var padj n i target cur phi D new d d' B NL AL W M AH Cn A A'. pose proof PI_RGT_0 as PP. destruct M as [D1 M1 M2 M3|r _ _ _ R|M1 M2 M3|D1 M1 M2 M3|s r v M1 M2|D1 M1 M2]; try contradiction; [lra| |lra].
  destruct AH as [P AH']. assert (AH : ahead target cur phi) by (split; auto). set (b := gv_scale (g_conv cfg)) in *. clearbody b.
  assert (Q : 1026 / 1000 * b <= b * (108 / 100) * r < 1134 / 1000 * b) by (split; nra). set (q := b * (108 / 100) * r) in *. clearbody q.
  assert (HD : 0 <= phi * q < 2 * PI) by (split; [apply Rmult_le_pos; lra|assert (0 < q < 1) by lra; nra]).
  pose proof (C32_closer_iff target cur phi (phi * q) new d d' AH HD Cn A A') as I. split; [|split].
  - intros H H2. destruct (Rle_dec d d'); [assumption|]. exfalso. assert (X : d' < d) by lra. apply I in X. nra.
  - intros H H2. apply I. right. split; [exact H|]. nra.
  - intros H. apply I. left. split; [lra|]. assert (0 < q < 1) by lra. split; nra.
Qed.
(** ** The pull fades along the loop: in a crowded population with nothing to complete the i-th agent, if it is pulled at
    all, moves less than 4 pi / 5^(i/3+1), however far it is from the target. *)
Theorem C32_fades : forall cfg tcoh coh var n i phi D, calm cfg -> 0 <= coh <= 1 -> 4 / 10 <= tcoh \/ coh <= tcoh -> ~ aligning cfg coh var -> crowded cfg coh var -> Nat.modulo i 3 = 0%nat ->
  window coh n < phi < 2 * PI -> move cfg tcoh coh var 0 n i phi D -> 0 < D < 4 * PI * (/ 5) ^ (i / 3 + 1)%nat.
Proof.
  intros cfg tcoh coh var n i phi D [C1 C2 C3 C4 C5 C6] Co NL NA CR I3 W M. destruct M as [D1 M1 M2 M3|r _ AL|_ AL|D1 M1 M2 M3 M4|s r v M1 M2 M3 M4 FP R V w Hw _|D1 M1 M2 M3 M4]; try contradiction; [lra| |lra].
  rewrite (Hw CR). set (z := (/ 5) ^ (i / 3 + 1)%nat). assert (Z : 0 < z) by (apply pow_lt; lra). clearbody z. clear Hw w.
  assert (N1 : 0 <= Rmin (INR n / 100) 1 <= 1) by (split; [apply Rmin_glb; [apply Rmult_le_pos; [apply pos_INR|lra]|lra]|apply Rmin_r]).
  assert (SP : 3 / 10 <= spread n <= 5 / 10) by (unfold spread; lra). assert (R2 : 3 / 4 <= r <= 5 / 4) by lra.
  assert (WB : 0 <= wobble cfg coh n <= ga_max (g_var cfg) + ga_coh (g_var cfg)) by (unfold wobble; set (m := Rmin _ _) in *; clearbody m; split; nra).
  rewrite (Rabs_pos_eq (wobble cfg coh n)) in V by lra. apply Rabs_le_inv in V.
  set (G := ga_max (g_var cfg) + ga_coh (g_var cfg)) in *. assert (V1 : 0 < 1 + v <= 1 + G / 2) by lra.
  set (B := Rmax (gv_scale (g_conv cfg)) (4 / 10)) in *.
  assert (S : 0 < s <= B).
  { pose proof (Rmax_r (gv_scale (g_conv cfg)) (4 / 10)) as X1. pose proof (Rmax_l (gv_scale (g_conv cfg)) (4 / 10)) as X2. fold B in X1, X2. destruct FP as (F1 & F2 & F3 & F4 & F5).
    destruct (Rle_dec (tcoh - coh) (1 / 100)); [rewrite F1 by lra; lra|]. destruct (Rle_dec (tcoh - coh) (5 / 100)); [rewrite F2 by lra; lra|]. destruct (Rle_dec (tcoh - coh) (10 / 100)); [rewrite F3 by lra; lra|].
    destruct (Rle_dec (tcoh - coh) (20 / 100)); [rewrite F4 by lra; lra|]. rewrite F5 by lra. split; [eapply Rlt_le_trans; [|apply Rmax_r]; lra|]. apply Rmax_lub; [nra|lra]. }
  assert (T : 0 < s * r * (1 + v) < 2).
  { split; [repeat apply Rmult_lt_0_compat; lra|]. apply Rle_lt_trans with (B * (5 / 4) * (1 + G / 2)); [apply Rmult_le_compat; [apply Rmult_le_pos; lra|lra|apply Rmult_le_compat; lra|lra]|]. nra. }
  assert (WP : 0 < window coh n) by (unfold window; nra).
  replace ((0 * (3 / 10) + phi * (s * z)) * r * (1 + v)) with (phi * z * (s * r * (1 + v))) by ring. set (t := s * r * (1 + v)) in *. clearbody t.
  assert (PZ : 0 < phi * z < 2 * PI * z) by (split; [apply Rmult_lt_0_compat; lra|apply Rmult_lt_compat_r; lra]). split; [apply Rmult_lt_0_compat; lra|].
  replace (4 * PI * z) with (2 * PI * z * 2) by ring. apply Rmult_le_0_lt_compat; lra.
Qed.
(** In a crowded population of 300 the last pulled agent moves less than 10^-60, wherever it is outside the window. *)
Corollary C32_fades_300 : forall cfg tcoh coh var phi D, calm cfg -> 0 <= coh <= 1 -> 4 / 10 <= tcoh \/ coh <= tcoh -> ~ aligning cfg coh var -> crowded cfg coh var ->
  window coh 300 < phi < 2 * PI -> move cfg tcoh coh var 0 300 297 phi D -> 0 < D < / 10 ^ 60.
Proof.
  intros cfg tcoh coh var phi D C Co NL NA CR W M. pose proof (C32_fades cfg tcoh coh var 300 297 phi D C Co NL NA CR eq_refl W M) as [L H]. split; [exact L|].
  eapply Rlt_le_trans; [exact H|]. change ((297 / 3 + 1)%nat) with 100%nat. pose proof PI_lo as P1. pose proof PI_hi as P2. rewrite pow_inv by lra.
  assert (Q : 14 * 10 ^ 60 <= 5 ^ 100). { change 10 with (IZR 10). change 5 with (IZR 5). rewrite !pow_IZR. change 14 with (IZR 14). rewrite <- mult_IZR. apply IZR_le. vm_compute. discriminate. }
  assert (T0 : 0 < 10 ^ 60) by (apply pow_lt; lra). assert (F0 : 0 < 5 ^ 100) by (apply pow_lt; lra).
  apply Rmult_le_reg_r with (5 ^ 100); [exact F0|]. rewrite Rmult_assoc, Rinv_l by lra. apply Rmult_le_reg_l with (10 ^ 60); [exact T0|]. rewrite <- (Rmult_assoc (10 ^ 60) (/ 10 ^ 60)), Rinv_r by lra. unfold tau in *. nra.
Qed.
(** ** Examples *)
(** The settings of every goal satisfy the bound of C32_align_away; a round that pulls and one that is crowded. *)
Example C32_exact_applies : (forall g, 0 < gv_scale (g_conv (@For R RNum g)) <= 88 / 100) /\ aligning (For ReachConsensus) (97 / 100) 2 /\ ahead 1 2 (2 * PI - 1) /\
  2 * PI <= (2 - 1134 / 1000 * gv_scale (g_conv (@For R RNum ReachConsensus))) * (2 * PI - 1 / 2) /\
  crowded (For OtherGoal) (95 / 100) (1 / 10) /\ ~ aligning (For OtherGoal) (95 / 100) (1 / 10) /\ window (95 / 100) 300 < 1 /\
  move (For OtherGoal) (9 / 10) (95 / 100) (1 / 10) 0 300 297 1 ((0 * (3 / 10) + 1 * (1 / 10 * (/ 5) ^ 100)) * 1 * (1 + 0)).
Proof.
  pose proof PI_lo as P1. pose proof PI_hi as P2. unfold tau in *. assert (CR : crowded (For OtherGoal) (95 / 100) (1 / 10)) by (unfold crowded; cbn; rops; lra).
  assert (NA : ~ aligning (For OtherGoal) (95 / 100) (1 / 10)) by (unfold aligning; cbn; rops; lra).
  assert (MN : Rmin (INR 300 / 100) 1 = 1) by (apply Rmin_right; rewrite INR_IZR_INZ; change (Z.of_nat 300) with 300%Z; lra).
  assert (WN : window (95 / 100) 300 < 1) by (unfold window; rewrite MN; lra).
  split; [intros g; destruct g; cbn; rops; lra|]. split; [unfold aligning; cbn; rops; lra|]. split; [split; [lra|exists (-1)%Z; lra]|]. split; [cbn; rops; lra|]. split; [exact CR|]. split; [exact NA|]. split; [exact WN|].
  apply (MovePull (For OtherGoal) (9 / 10) (95 / 100) (1 / 10) 0 300 297 1 (1 / 10) 1 0); [lra|exact NA|intros _; reflexivity|exact WN| | | |intros _; reflexivity|intros Q; contradiction].
  - unfold firstPull. repeat split; intros; lra.
  - unfold spread. rewrite MN. lra.
  - rewrite Rabs_R0. pose proof (Rabs_pos (wobble (For OtherGoal) (95 / 100) 300)). lra.
Qed.
Print Assumptions C32_exact.
Print Assumptions C32_closer_iff.
Print Assumptions C32_align_away.
Print Assumptions C32_fades_300.
