(** Float accuracy of the swarm measures (C31) and what a reported success means exactly (C27). *)
From Coq Require Import ZArith Reals Psatz Bool List Lia.
From Flocq Require Import Core.Core IEEE754.BinarySingleNaN.
From Verif Require Import Num F64 RealNum M_Core M_Agent M_Random M_Limits M_GoalConfig M_Swarm M_Sync S_Circle S_Agent S_Sync S_Acc
  L_F64 L_F64x L_Circle L_PhaseF L_Coherence L_Acc P_Converge P_Sync P_Accuracy.
Import ListNotations.
Open Scope R_scope.

Lemma f2pi_near : 0 < 2 * PI - B2R f2pi < / 2 ^ 51.
Proof.
  pose proof fpi_near as [A B]. unfold fpi in *. rewrite (proj2 fpi_val) in *. rewrite f2pi_val.
  replace (/ 2 ^ 51) with (2 * / 2 ^ 52) by (rewrite !pow_Z; cbn; lra). lra.
Qed.
Lemma turn_R p : in_turn p -> turn (B2R p) /\ B2R p < 63 / 10.
Proof. intros [_ H]. pose proof f2pi_near. change (fhalfpi 4) with f2pi in H. pose proof PI_bounds. unfold turn. lra. Qed.
(** The float gap between two phases is the arc between them up to 2^-48. *)
Lemma gap_acc tr (t p : F) d : in_turn t -> in_turn p -> is_arc (B2R p) (B2R t) d ->
  let g := @phaseGap F (FNum tr) t p in is_finite g = true /\ Rabs (B2R g) <= 4 /\ Rabs (B2R g - d) <= 32 * u53.
Proof.
  intros Ht Hp Hd g. destruct (turn_R t Ht) as [Tt Tt']. destruct (turn_R p Hp) as [Tp Tp']. unfold turn in *. destruct Ht as [Ft _], Hp as [Fp _].
  pose proof PI_bounds as PB. pose proof fpi_near as PN. pose proof f2pi_near as P2. pose proof tiny_le_u as TU. pose proof big1023 as BG. assert (P5 : 2 ^ 10 <= 2 ^ 500) by (apply Rle_pow; [lra|lia]).
  replace (/ 2 ^ 52) with (2 * u53) in PN by (rewrite pow_Z; unfold u53; cbn; lra). replace (/ 2 ^ 51) with (4 * u53) in P2 by (rewrite pow_Z; unfold u53; cbn; lra).
  pose proof u_pos as U. assert (UU : u53 * u53 <= u53 / 1000) by nra.
  set (D := Rabs (B2R p - B2R t)). assert (BD : 0 <= D < 2 * PI) by (split; [apply Rabs_pos|apply Rabs_def1; lra]).
  assert (Ed : d = Rmin D (2 * PI - D)).
  { unfold Rmin. destruct (Rle_dec D (2 * PI - D)) as [L|L].
    - apply (is_arc_unique _ _ _ _ Hd). unfold D. apply is_arc_of_rep; [|exists 0%Z; lra]. assert (Q : Rabs (B2R p - B2R t) <= PI) by (unfold D in *; lra). now apply Rabs_le_inv in Q.
    - apply (is_arc_unique _ _ _ _ Hd). unfold D in *. destruct (Rle_dec 0 (B2R p - B2R t)) as [S|S].
      + rewrite (Rabs_pos_eq (B2R p - B2R t)) in * by lra. replace (2 * PI - (B2R p - B2R t)) with (Rabs (B2R p - B2R t - 2 * PI)) by (rewrite Rabs_left1; lra). apply is_arc_of_rep; [lra|exists 1%Z; lra].
      + rewrite (Rabs_left1 (B2R p - B2R t)) in * by lra. replace (2 * PI - - (B2R p - B2R t)) with (Rabs (B2R p - B2R t + 2 * PI)) by (rewrite Rabs_pos_eq; lra). apply is_arc_of_rep; [lra|exists (-1)%Z; lra]. }
  destruct (fsub_fin p t Fp Ft) as [Fs Vs]; [fold D; lra|]. pose proof (rnd_abs (B2R p - B2R t)) as E. rewrite <- Vs in E. fold D in E.
  destruct (fabs_fin _ Fs) as [Fa Va]. set (x := fabs (fsub p t)) in *.
  assert (Ex : Rabs (B2R x - D) <= 8 * u53).
  { rewrite Va. unfold D. eapply Rle_trans; [apply Rabs_triang_inv2|]. assert (u53 * D <= u53 * 7) by (apply Rmult_le_compat_l; lra). lra. }
  apply Rabs_le_inv in Ex.
  assert (Eg : g = if flt (fhalfpi 2) x then fsub f2pi x else x) by reflexivity.
  assert (T : flt (fhalfpi 2) x = Rlt_bool fpi (B2R x)). { rewrite flt_ord by (apply fin_nan; auto; apply fpi_val). rewrite !ford_fin; auto.  }
  rewrite Eg, T. unfold fpi in *. destruct (Rlt_bool_spec (B2R (fhalfpi 2)) (B2R x)) as [L|L].
  - destruct (fsub_fin f2pi x f2pi_fin Fa) as [Fr Vr]; [apply Rabs_le; lra|]. split; [exact Fr|]. rewrite Vr. set (q := B2R f2pi - B2R x) in *.
    assert (Q : Rabs q <= 4) by (apply Rabs_le; unfold q; lra). pose proof (rnd_abs q) as E2.
    assert (Q2 : Rabs (rnd q - q) <= 5 * u53). { assert (u53 * Rabs q <= u53 * 4) by (apply Rmult_le_compat_l; lra). lra. }
    assert (Q3 : -1 / 10 <= q <= 36 / 10) by (unfold q; lra).
    apply Rabs_le_inv in Q2. split; [apply Rabs_le; lra|]. rewrite Ed. unfold Rmin. unfold q in *. destruct (Rle_dec D (2 * PI - D)); apply Rabs_le; lra.
  - split; [exact Fa|]. split; [apply Rabs_le; lra|]. rewrite Ed. unfold Rmin. destruct (Rle_dec D (2 * PI - D)); apply Rabs_le; lra.
Qed.
Lemma arcs_exist tr t (agents : list (Agent F)) : in_turn t -> Forall (fun a => in_turn (phaseOf a)) agents ->
  exists g : Agent F -> R, forall a, In a agents -> is_arc (B2R (phaseOf a)) (B2R t) (g a) /\
    let z := @phaseGap F (FNum tr) t (phaseOf a) in is_finite z = true /\ Rabs (B2R z) <= 4 /\ Rabs (B2R z - g a) <= 32 * u53.
Proof.
  intros Ht H. exists (fun a => let D := Rabs (B2R (phaseOf a) - B2R t) in Rmin D (2 * PI - D)). intros a Ha. rewrite Forall_forall in H. specialize (H a Ha).
  cut (is_arc (B2R (phaseOf a)) (B2R t) (let D := Rabs (B2R (phaseOf a) - B2R t) in Rmin D (2 * PI - D))).
  { intros A. split; [exact A|]. exact (gap_acc tr t (phaseOf a) _ Ht H A). }
  cbv zeta. destruct (turn_R t Ht) as [Tt _]. destruct (turn_R _ H) as [Tp _]. unfold turn in *. set (p := B2R (phaseOf a)) in *. set (s := B2R t) in *.
  unfold Rmin. pose proof PI_RGT_0. destruct (Rle_dec (Rabs (p - s)) (2 * PI - Rabs (p - s))) as [L|L].
  - apply is_arc_of_rep; [|exists 0%Z; lra]. assert (Q : Rabs (p - s) <= PI) by lra. now apply Rabs_le_inv in Q.
  - destruct (Rle_dec 0 (p - s)) as [S|S].
    + rewrite (Rabs_pos_eq (p - s)) in * by lra. replace (2 * PI - (p - s)) with (Rabs (p - s - 2 * PI)) by (rewrite Rabs_left1; lra). apply is_arc_of_rep; [lra|exists 1%Z; lra].
    + rewrite (Rabs_left1 (p - s)) in * by lra. replace (2 * PI - - (p - s)) with (Rabs (p - s + 2 * PI)) by (rewrite Rabs_pos_eq; lra). apply is_arc_of_rep; [lra|exists (-1)%Z; lra].
Qed.
Lemma fold_total {A} (g : A -> R) l : fold_right (fun x s => g x + s) 0 l = total (map g l).
Proof. induction l; simpl; [reflexivity|]. now rewrite IHl. Qed.
Lemma total_bounds l : (forall x, In x l -> 0 <= x <= PI) -> 0 <= total l <= INR (length l) * PI.
Proof.
  induction l as [|x l IH]; intros H; [simpl; lra|]. change (total (x :: l)) with (x + total l). change (length (x :: l)) with (S (length l)). rewrite S_INR. pose proof (H x (or_introl eq_refl)).
  specialize (IH (fun y Hy => H y (or_intror Hy))). lra.
Qed.
(** The float measure is within [(n+8) 2^-50] of one minus the mean arc over PI. *)
Theorem C31_float_accuracy : forall tr (agents : list (Agent F)) target, agents <> [] -> in_turn target ->
  Forall (fun a => in_turn (phaseOf a)) agents -> (Z.of_nat (length agents) <= 2 ^ 50)%Z ->
  exists ds, Forall2 (fun a d => is_arc (B2R (phaseOf a)) (B2R target) d) agents ds /\
    let z := @MeasurePhaseConvergence F (FNum tr) agents target in
    is_finite z = true /\ Rabs (B2R z - (1 - total ds / (INR (length agents) * PI))) <= (INR (length agents) + 8) / 2 ^ 50.
Proof.
  intros tr agents target Hne Ht Ha Hn. destruct (arcs_exist tr target agents Ht Ha) as (g & Hg). exists (map g agents). split.
  { clear - Hg. induction agents as [|a l IH]; constructor; [apply Hg; now left|]. apply IH. intros b Hb. apply Hg. now right. }
  intros z. pose proof u_pos as U. pose proof tiny_le_u as TU. assert (UU : u53 * u53 <= u53 / 1000) by nra.
  destruct (ap_Z 0 ltac:(lia)) as [F0 V0]. rewrite INR_IZR_INZ.
  destruct (sum_accB (fun a => @phaseGap F (FNum tr) target (phaseOf a)) g (32 * u53) 4 agents ltac:(lra) ltac:(lia)) with (a := fofZ 0) (k := 0%Z) (S := 0) (E := 0) as (Ft & Bt & Et); auto; try lia.
  { intros a Hin. destruct (Hg a Hin) as (_ & A & B & C). auto. }
  { rewrite Rminus_0_r in V0. exact V0. }
  rewrite Z.add_0_l, mult_IZR, Rplus_0_l in *. rewrite Rplus_0_l, fold_total in Et. set (tt := fold_left _ _ _) in *. set (n := Z.of_nat (length agents)) in *.
  assert (N1 : (1 <= n)%Z) by (unfold n; destruct agents; [contradiction|cbn [length]; lia]). assert (N1' : 1 <= IZR n) by (apply (IZR_le 1); lia).
  assert (TB : 0 <= total (map g agents) <= IZR n * PI).
  { pose proof (total_bounds (map g agents)) as Q. rewrite map_length, INR_IZR_INZ in Q. apply Q. intros x Hx. apply in_map_iff in Hx as (a & <- & Hin). destruct (Hg a Hin) as (A & _). exact (is_arc_bounds _ _ _ A). }
  set (Tt := total (map g agents)) in *. destruct (fofZ_fin n ltac:(lia)) as [Fn Vn]. pose proof PI_bounds as PB. pose proof big1023 as BG. assert (P5 : 2 ^ 10 <= 2 ^ 500) by (apply Rle_pow; [lra|lia]).
  (* the average *)
  assert (A1 : Rabs (B2R tt / IZR n) <= 4). { unfold Rdiv. rewrite Rabs_mult, (Rabs_pos_eq (/ IZR n)) by (left; apply Rinv_0_lt_compat; lra). apply Rmult_le_reg_r with (IZR n); [lra|]. rewrite Rmult_assoc, Rinv_l by lra. lra. }
  destruct (fdiv_fin tt (fofZ n) Ft Fn) as [Fv Vv]; [rewrite Vn; lra|rewrite Vn; lra|]. rewrite Vn in Vv. set (av := fdiv tt (fofZ n)) in *.
  assert (D1 : Rabs (B2R tt / IZR n - Tt / IZR n) <= 32 * u53 + 8 * u53 * IZR n).
  { replace (B2R tt / IZR n - Tt / IZR n) with ((B2R tt - Tt) * / IZR n) by (field; lra). rewrite Rabs_mult, (Rabs_pos_eq (/ IZR n)) by (left; apply Rinv_0_lt_compat; lra).
    apply Rmult_le_reg_r with (IZR n); [lra|]. rewrite Rmult_assoc, Rinv_l, Rmult_1_r by lra. eapply Rle_trans; [exact Et|]. lra. }
  pose proof (rnd_abs (B2R tt / IZR n)) as R1. rewrite <- Vv in R1.
  set (m := Tt / IZR n) in *. assert (Bm : 0 <= m <= PI). { unfold m. split; [apply Rmult_le_pos; [lra|left; apply Rinv_0_lt_compat; lra]|]. apply Rmult_le_reg_r with (IZR n); [lra|]. unfold Rdiv. rewrite Rmult_assoc, Rinv_l by lra. lra. }
  assert (EA : Rabs (B2R av - m) <= 37 * u53 + 8 * u53 * IZR n).
  { replace (B2R av - m) with ((B2R av - B2R tt / IZR n) + (B2R tt / IZR n - m)) by ring. eapply Rle_trans; [apply Rabs_triang|]. assert (u53 * Rabs (B2R tt / IZR n) <= u53 * 4) by (apply Rmult_le_compat_l; lra). lra. }
  (* over PI *)
  pose proof fpi_near as PN. unfold fpi in PN. replace (/ 2 ^ 52) with (2 * u53) in PN by (rewrite pow_Z; unfold u53; cbn; lra). set (pf := B2R (fhalfpi 2)) in *.
  assert (NB : 8 * u53 * IZR n <= 1). { assert (IZR n <= IZR (2 ^ 50)) by now apply IZR_le. unfold u53. cbn in H. lra. }
  assert (Bv : Rabs (B2R av) <= 5). { apply Rabs_le_inv in EA. apply Rabs_le. unfold u53 in *; lra. }
  assert (Ip : / pf <= 1 / 3). { unfold Rdiv. rewrite Rmult_1_l. apply Rinv_le_contravar; unfold u53 in *; lra. } assert (Ip0 : 0 < / pf) by (apply Rinv_0_lt_compat; unfold u53 in *; lra).
  assert (Pp : 0 < pf) by (unfold u53 in *; lra).
  assert (A2 : Rabs (B2R av / pf) <= 5 / 3). { unfold Rdiv. rewrite Rabs_mult, (Rabs_pos_eq (/ pf)) by lra. apply Rle_trans with (5 * (1 / 3)); [apply Rmult_le_compat; try apply Rabs_pos; lra|lra]. }
  destruct (fdiv_fin av (fhalfpi 2) Fv (proj1 fpi_val)) as [Fr Vr]; [fold pf; lra|fold pf; lra|]. fold pf in Vr. set (r := fdiv av (fhalfpi 2)) in *. pose proof (rnd_abs (B2R av / pf)) as R2. rewrite <- Vr in R2.
  assert (D2 : Rabs (B2R av / pf - m / PI) <= 14 * u53 + 3 * u53 * IZR n).
  { replace (B2R av / pf - m / PI) with ((B2R av - m) * / pf + (m / PI) * ((PI - pf) * / pf)) by (field; lra).
    eapply Rle_trans; [apply Rabs_triang|]. rewrite !Rabs_mult, (Rabs_pos_eq (/ pf)), (Rabs_pos_eq (PI - pf)) by lra.
    assert (MP : Rabs (m / PI) <= 1). { rewrite Rabs_pos_eq by (apply Rmult_le_pos; [lra|left; apply Rinv_0_lt_compat; lra]). apply Rmult_le_reg_r with PI; [lra|]. unfold Rdiv. rewrite Rmult_assoc, Rinv_l by lra. lra. }
    assert (X1 : Rabs (B2R av - m) * / pf <= (37 * u53 + 8 * u53 * IZR n) * (1 / 3)) by (apply Rmult_le_compat; try apply Rabs_pos; lra).
    assert (X2 : Rabs (m / PI) * ((PI - pf) * / pf) <= 1 * (2 * u53 * (1 / 3))). { apply Rmult_le_compat; [apply Rabs_pos|apply Rmult_le_pos; lra|exact MP|]. apply Rmult_le_compat; lra. }
    assert (0 <= u53 * IZR n) by (apply Rmult_le_pos; lra). lra. }
  assert (ER : Rabs (B2R r - m / PI) <= 16 * u53 + 3 * u53 * IZR n).
  { replace (B2R r - m / PI) with ((B2R r - B2R av / pf) + (B2R av / pf - m / PI)) by ring. eapply Rle_trans; [apply Rabs_triang|]. assert (u53 * Rabs (B2R av / pf) <= u53 * (5 / 3)) by (apply Rmult_le_compat_l; lra). lra. }
  (* one minus *)
  destruct (fofZ_fin 1 ltac:(lia)) as [F1 V1]. assert (MP : 0 <= m / PI <= 1). { split; [apply Rmult_le_pos; [lra|left; apply Rinv_0_lt_compat; lra]|]. apply Rmult_le_reg_r with PI; [lra|]. unfold Rdiv. rewrite Rmult_assoc, Rinv_l by lra. lra. }
  apply Rabs_le_inv in ER. assert (B3 : Rabs (1 - B2R r) <= 2) by (apply Rabs_le; unfold u53 in *; lra).
  destruct (fsub_fin (fofZ 1) r F1 Fr) as [Fc Vc]; [rewrite V1; lra|]. rewrite V1 in Vc. pose proof (rnd_abs (1 - B2R r)) as R3. rewrite <- Vc in R3. set (cv := fsub (fofZ 1) r) in *.
  assert (EC : Rabs (B2R cv - (1 - m / PI)) <= 19 * u53 + 3 * u53 * IZR n).
  { assert (u53 * Rabs (1 - B2R r) <= u53 * 2) by (apply Rmult_le_compat_l; lra). apply Rabs_le. apply Rabs_le_inv in R3. lra. }
  assert (Ez : z = if flt cv (fofZ 0) then fofZ 0 else cv). { unfold z, MeasurePhaseConvergence. destruct agents; [contradiction|]. reflexivity. }
  assert (EM : Tt / (IZR n * PI) = m / PI) by (unfold m; field; split; lra). rewrite EM.
  assert (FB : 19 * u53 + 3 * u53 * IZR n <= (IZR n + 8) / 2 ^ 50). { replace (2 ^ 50) with 1125899906842624 by (rewrite pow_Z; reflexivity). unfold u53. lra. }
  destruct (fofZ_fin 0 ltac:(lia)) as [Fz Vz]. rewrite Ez. destruct (flt cv (fofZ 0)) eqn:TL.
  - split; [exact Fz|]. rewrite Vz. apply flt_true in TL as (_ & _ & TL). rewrite !ford_fin, Vz in TL by auto. apply Rabs_le_inv in EC. apply Rabs_le. lra.
  - split; [exact Fc|]. lra.
Qed.

(** ** C27: what a reported success means *)
(** The target of the run, as adjusted to the size of the swarm. *)
Local Notation tgtOf tr s target := (@adjustTarget F (FNum tr) (Z.of_nat (length (ss_agents s))) target).
Definition pop_ok (l : list (Agent F)) : Prop := l <> [] /\ (Z.of_nat (length l) <= 2 ^ 50)%Z /\ Forall (fun a => in_turn (phaseOf a)) l.
Definition exactly (l : list (Agent F)) : list R := map (fun a => B2R (phaseOf a)) l.
Lemma turn_29 l : Forall (fun a => in_turn (phaseOf a)) l -> Forall (fun x : F => is_finite x = true /\ Rabs (B2R x) <= 2 ^ 29) (map phaseOf l).
Proof.
  intros H. apply Forall_map. eapply Forall_impl; [|exact H]. intros a Ha. destruct (turn_R _ Ha) as [A B]. unfold turn in A. split; [apply Ha|]. apply Rabs_le.
  assert (1 <= 2 ^ 26) by (apply pow_R1_Rle; lra). replace (2 ^ 29) with (8 * 2 ^ 26) by (simpl; ring). lra.
Qed.
(** If the run reports success, then at the last measurement the exact order parameter of the population was at
    least the target minus the tolerance (at most doubled) minus a rounding error, and for a high target the exact
    mean arc to the target phase was at most [PI (1 - goal)] plus a rounding error. *)
Theorem C27_success_is_true : forall tr e cfg target evs s k s', trig_sane tr -> trig_acc tr e -> 0 <= e <= 1 / 4 ->
  in_unit (gv_tolS (g_conv cfg)) -> in_unit (gv_tolM (g_conv cfg)) -> in_unit (gv_tolL (g_conv cfg)) -> in_unit (gv_goal (g_conv cfg)) ->
  in_unit (tp_coh (tgtOf tr s target)) -> in_turn (tp_phase target) ->
  AchieveSynchronization tr cfg target evs s = (SNil, k, s') ->
  exists es en post s1, evs = map Tick es ++ Tick en :: post /\ rounds (N := FNum tr) cfg (tgtOf tr s target) es (setMonTarget (tgtOf tr s target) s) s1 /\
    (ev_view en 0 (ss_agents s1) <> [] ->
     let p := ev_view en 1 (ev_view en 0 (ss_agents s1)) in pop_ok p ->
     B2R (tp_coh (tgtOf tr s target)) - 2 * B2R (base_tolerance cfg (Z.of_nat (length (seen en s1)))) - (2 * e + (INR (length p) + 9) / 2 ^ 51)
       <= @MeasureCoherence R RNum (exactly p)) /\
    (fle (gt_high (g_thr cfg)) (tp_coh (tgtOf tr s target)) = true -> pop_ok (seen en s1) ->
     exists ds, Forall2 (fun a d => is_arc (B2R (phaseOf a)) (B2R (tp_phase target)) d) (seen en s1) ds /\
       total ds / INR (length (seen en s1)) <= PI * (1 - B2R (gv_goal (g_conv cfg)) + (INR (length (seen en s1)) + 8) / 2 ^ 50)).
Proof.
  intros tr e cfg target evs s k s' HS HA He TS TM TL TG TC TP H.
  destruct (C27_nil tr cfg target evs s k s' H) as (es & en & post & s1 & E & _ & HR & HSucc). exists es, en, post, s1.
  split; [exact E|]. split; [exact HR|]. destruct HSucc as (S1 & S2 & _ & S4).
  assert (TBase : in_unit (base_tolerance cfg (Z.of_nat (length (seen en s1))))) by (unfold base_tolerance; destruct (_ <? _)%Z; [auto|]; destruct (_ <? _)%Z; auto).
  set (base := base_tolerance _ _) in *. destruct TBase as [Fb Bb]. destruct TC as [Fc Bc]. pose proof u_pos as U. pose proof tiny_le_u as TU. assert (UU : u53 * u53 <= u53 / 1000) by nra.
  pose proof big1023 as BG. assert (P5 : 2 ^ 10 <= 2 ^ 500) by (apply Rle_pow; [lra|lia]). split.
  - intros NE0 p (NE & LE & IT).
    destruct (C03_float_accuracy tr e (map phaseOf p) HS HA ltac:(lra)) as (FM & _ & AM); [destruct p; [contradiction|discriminate]|rewrite map_length; exact LE|now apply turn_29|].
    rewrite map_length, map_map, <- INR_IZR_INZ in AM.
    assert (EM : tp_coh (measured tr en s1) = @MeasureCoherence F (FNum tr) (map phaseOf p)).
    { unfold measured, measureSystemPattern. destruct (ev_view en 0 (ss_agents s1)) eqn:E0; [contradiction|]. unfold p. try rewrite E0. reflexivity. }
    rewrite EM in S1, S2. set (z := MeasureCoherence (map phaseOf p)) in *.
    assert (GOAL : forall tol : F, is_finite tol = true -> 0 <= B2R tol <= 2 * B2R base + 3 * u53 -> within z (tp_coh (tgtOf tr s target)) tol ->
       B2R (tp_coh (tgtOf tr s target)) - 2 * B2R base - 6 * u53 <= B2R z).
    { intros tol Ft Bt W. unfold within in W. destruct (fsub_fin _ _ Fc Ft) as [Fd Vd]; [apply Rabs_le; lra|]. apply fle_true in W as (_ & _ & W). rewrite !ford_fin, Vd in W by auto.
      set (q := B2R (tp_coh (tgtOf tr s target)) - B2R tol) in *. pose proof (rnd_abs q) as R. assert (Rabs q <= 5 / 2) by (apply Rabs_le; unfold q; lra).
      assert (u53 * Rabs q <= u53 * (5 / 2)) by (apply Rmult_le_compat_l; lra). apply Rabs_le_inv in R. unfold q in *. lra. }
    assert (Z1 : B2R (tp_coh (tgtOf tr s target)) - 2 * B2R base - 6 * u53 <= B2R z).
    { destruct (Bool.bool_dec (fle (fmul (lim_prac (@GetCoherenceLimits F (FNum tr) (Z.of_nat (length (seen en s1))))) (flit 95 100)) (tp_coh (tgtOf tr s target))) true) as [NL|NL].
      - destruct (fofZ_fin 2 ltac:(lia)) as [F2 V2]. destruct (fmul_fin base (fofZ 2) Fb F2) as [Fm Vm]; [rewrite V2; apply Rabs_le; lra|]. rewrite V2 in Vm.
        apply (GOAL (fmul base (fofZ 2))); [exact Fm| |exact (S1 NL)]. rewrite Vm. pose proof (rnd_abs (B2R base * 2)) as R. rewrite (Rabs_pos_eq (B2R base * 2)) in R by lra. assert (u53 * (B2R base * 2) <= u53 * 2) by (apply Rmult_le_compat_l; lra).
        apply Rabs_le_inv in R. split; [apply rnd_ge_0; lra|lra].
      - apply (GOAL base); [exact Fb|lra|exact (S2 NL)]. }
    unfold exactly. apply Rabs_le_inv in AM. replace ((INR (length p) + 9) / 2 ^ 51) with ((INR (length p) + 5) / 2 ^ 51 + 16 * u53) by (replace (2 ^ 51) with 2251799813685248 by (rewrite pow_Z; reflexivity); unfold u53; lra). lra.
  - intros HH (NE & LE & IT). destruct (C31_float_accuracy tr (seen en s1) (tp_phase target) NE TP IT LE) as (ds & FD & Fz & Az). exists ds. split; [exact FD|].
    destruct TG as [Fg Bg]. specialize (S4 HH). apply fle_true in S4 as (_ & _ & S4). rewrite !ford_fin in S4; [|exact Fz|exact Fg]. change (@MeasurePhaseConvergence F (NF tr)) with (@MeasurePhaseConvergence F (FNum tr)) in S4. set (zc := B2R (MeasurePhaseConvergence (seen en s1) (tp_phase target))) in *. cbv zeta in Az. fold zc in Az.
    apply Rabs_le_inv in Az. pose proof PI_RGT_0 as PP. assert (LP : 0 < INR (length (seen en s1))) by now apply INR_len_pos.
    replace (total ds / INR (length (seen en s1))) with (PI * (total ds / (INR (length (seen en s1)) * PI))) by (field; lra). apply Rmult_le_compat_l; lra.
Qed.

Lemma unit_fin x : fle (fofZ 0) x && fle x (fofZ 1) = true -> in_unit x.
Proof.
  intros H. apply andb_true_iff in H as [A B]. destruct (fofZ_fin 0 ltac:(lia)) as [F0 V0]. destruct (fofZ_fin 1 ltac:(lia)) as [F1 V1].
  apply fle_true in A as (_ & N & A). apply fle_true in B as (_ & _ & B). rewrite (ford_fin (fofZ 0)), V0 in A by auto. rewrite (ford_fin (fofZ 1)), V1 in B by auto.
  pose proof BIG_ge_1000. destruct x as [sx|[|]| |sx mx ex Hx]; cbn [ford] in A, B; try discriminate; try lra; (split; [reflexivity|split; [exact A|exact B]]).
Qed.
(** The presets of all goals meet the hypotheses on the configuration, and a run with correctly rounded functions succeeds. *)
Example C27_success_applies : trig_sane crTrig /\ trig_acc crTrig (/ 2 ^ 51) /\ endsWith (zeroRun crTrig [Tick quietEnv]) SNil 1 = true /\
  forall g, in_unit (gv_tolS (g_conv (@For F (FNum crTrig) g))) /\ in_unit (gv_tolM (g_conv (@For F (FNum crTrig) g))) /\
            in_unit (gv_tolL (g_conv (@For F (FNum crTrig) g))) /\ in_unit (gv_goal (g_conv (@For F (FNum crTrig) g))).
Proof.
  split; [exact cr_sane|]. split; [exact cr_acc|]. split; [exact (C27_nil_happens crTrig cr_zero)|].
  intros g. destruct g; repeat split; try (apply unit_fin; vm_compute; reflexivity).
Qed.
Print Assumptions C31_float_accuracy.
Print Assumptions C27_success_is_true.
