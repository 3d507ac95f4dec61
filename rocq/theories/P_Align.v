(** Property C88: the alignment of a synchronised population pulls the phases together without breaking the coherence
    (exact reals). *)
From Coq Require Import ZArith Reals Psatz Bool List String Lia Permutation.
From Flocq Require Import Core.Core.
From Verif Require Import Num GoBase F64 RealNum M_Core M_Random M_Strategy M_Agent M_Limits M_GoalConfig M_Monitor M_ConvMonitor M_Engine
  M_Swarm M_Sync S_Sync S_Circle S_Round S_RoundMove S_Align L_Circle L_Pattern L_Coherence P_Converge P_SimReset P_RoundDir P_RoundExact.
Import ListNotations.
Open Scope list_scope.
Open Scope R_scope.

(** ** One aligning round *)
Lemma apply_nth cfg target cp coh var d l i a' : nth_error (@applyPatternCompletion R RNum cfg target cp coh var d l) i = Some a' -> exists a, nth_error l i = Some a.
Proof.
  unfold applyPatternCompletion. destruct (_ && _)%bool; intros H.
  - destruct (scatter_nth d l 0 i a' H) as (b & Eb & _). now exists b.
  - cbv zeta in H. set (x := applyCtx _ _ _ _ _ _) in H.
    assert (L1 : adjustmentScale x * left (crowdedB x) 0 = adjustmentScale x) by (unfold left; cbn [Nat.add Nat.div fst Nat.divmod pow]; destruct (crowdedB x); ring).
    rewrite <- L1 in H. destruct (loop_exact x d _ l 0 i a' H) as (b & Eb & _). now exists b.
Qed.
Definition share (cfg : GCfg R) : R := 1 - 1026 / 1000 * gv_scale (g_conv cfg).
(** The way to the target of each agent, before and after. *)
Lemma align_agent cfg target cp coh var d l i a a' : 0 < gv_scale (g_conv cfg) <= 88 / 100 -> 4 / 10 <= tp_coh target -> aligning cfg coh var ->
  nth_error l i = Some a -> nth_error (@applyPatternCompletion R RNum cfg target cp coh var d l) i = Some a' -> 0 <= phaseOf a < 2 * PI ->
  0 <= phaseOf a' < 2 * PI /\ exists phi f, ahead (tp_phase target) (phaseOf a) phi /\ ahead (tp_phase target) (phaseOf a') (phi * f) /\
    ((phi <= gv_dist (g_conv cfg) /\ f = 1) \/ (gv_dist (g_conv cfg) < phi /\ 1 - 1134 / 1000 * gv_scale (g_conv cfg) < f <= share cfg)).
Proof.
  intros B TC AL E E' P. destruct (C32_exact cfg target cp coh var d l i a a' E E' P) as (phi & D & AH & M & P' & k & K). split; [exact P'|]. exists phi. destruct AH as [Q [j J]]. pose proof PI_RGT_0.
  assert (G : forall f, D = phi * (1 - f) -> 0 <= f <= 1 -> ahead (tp_phase target) (phaseOf a') (phi * f)).
  { intros f Ef Bf. split; [split; nra|]. exists (j - k)%Z. rewrite minus_IZR. lra. }
  destruct M as [D1 M1 M2 M3|r _ _ W R|_ _ W|D1 M1 M2 M3|s r v M1 M2|D1 M1 M2]; try contradiction; try lra.
  - set (b := gv_scale (g_conv cfg)) in *. exists (1 - b * (108 / 100) * r). unfold share. fold b. clearbody b.
    assert (Z : 1 - 1134 / 1000 * b < 1 - b * (108 / 100) * r <= 1 - 1026 / 1000 * b) by (split; nra).
    split; [split; [exact Q|now exists j]|]. split; [|right; now split]. apply G; [ring|]. lra.
  - exists 1. split; [split; [exact Q|now exists j]|]. split; [|left; now split]. apply G; [ring|]. lra.
Qed.
Lemma align_step cfg target cp coh var d l b : 0 < gv_scale (g_conv cfg) <= 88 / 100 -> 4 / 10 <= tp_coh target -> aligning cfg coh var ->
  Forall (fun a => turn (phaseOf a)) l -> Forall (closing (tp_phase target) (Rmax (gv_dist (g_conv cfg)) b)) l -> 0 <= b ->
  let l' := @applyPatternCompletion R RNum cfg target cp coh var d l in
  Forall (fun a => turn (phaseOf a)) l' /\ Forall (closing (tp_phase target) (Rmax (gv_dist (g_conv cfg)) (b * share cfg))) l'.
Proof.
  intros B TC AL HT HB Pb l'. rewrite !Forall_forall in *. split; intros a' Ha'; apply In_nth_error in Ha'; destruct Ha' as [i E'];
    destruct (apply_nth _ _ _ _ _ _ _ _ _ E') as [a E]; pose proof (nth_error_In _ _ E) as I;
    destruct (align_agent cfg target cp coh var d l i a a' B TC AL E E' (HT a I)) as (T' & phi & f & AH & AH' & X); [exact T'|].
  destruct (HB a I) as (phi2 & A2 & L2). rewrite (ahead_unique _ _ _ _ A2 AH) in L2. exists (phi * f). split; [exact AH'|]. unfold share in *.
  destruct X as [[X ->]|[X Y]]; [rewrite Rmult_1_r; eapply Rle_trans; [exact X|apply Rmax_l]|].
  assert (L3 : phi <= b) by (unfold Rmax in L2; destruct (Rle_dec _ _); lra). eapply Rle_trans; [|apply Rmax_r]. destruct AH as [Q _]. apply Rmult_le_compat; lra.
Qed.
Lemma seen_perm e k l : undisturbed e -> Permutation (seen e k l) l.
Proof. intros [_ U]. induction k; cbn [seen]; rewrite U; [reflexivity|exact IHk]. Qed.
Lemma round_align cfg target e s s1 : undisturbed e -> aligns cfg e (ss_agents s) -> @round R RNum cfg target e s = Some (s1, false) -> IsStuck (ss_mon s1) = false ->
  exists cp coh var d l, aligning cfg coh var /\ Permutation l (ss_agents s) /\ Permutation (ss_agents s1) (@applyPatternCompletion R RNum cfg target cp coh var d l).
Proof.
  intros U (var & V & A). pose proof U as [_ UV]. unfold round. cbv zeta.
  destruct (isPatternAchieved _ _ _ _); [discriminate|]. destruct (if ShouldSwitchStrategy _ then _ else _) as [[pf c]|]; [|discriminate].
  destruct (CompletePattern _ _ _) as [cp|]; [|discriminate].
  match goal with |- context [MeasurePhaseVariance _ ?x] => change x with (seen e 6 (ss_agents s)) end. rewrite V.
  match goal with |- context [swarmCoherence (ev_view e 5 ?x)] => change (ev_view e 5 x) with (seen e 5 (ss_agents s)) end.
  destruct (IsStuck _) eqn:ST.
  - destruct (resonanceLoop _ _ _ _ _ _ _); [|discriminate]. intros E. injection E as <-. cbn [ss_mon]. rewrite ST. discriminate.
  - intros E _. injection E as <-. cbn [ss_agents]. exists cp, (swarmCoherence (seen e 5 (ss_agents s))), var, (ev_draw e), (seen e 7 (ss_agents s)). split; [exact A|]. split; [now apply seen_perm|]. apply UV.
Qed.

(** ** A series of aligning rounds: every way to the target shrinks by more than the fixed share *)
Lemma series cfg target es s s' : 0 < gv_scale (g_conv cfg) <= 88 / 100 -> 4 / 10 <= tp_coh target -> alignRounds cfg target es s s' ->
  forall b, 0 <= b -> Forall (fun a => turn (phaseOf a)) (ss_agents s) -> Forall (closing (tp_phase target) (Rmax (gv_dist (g_conv cfg)) b)) (ss_agents s) ->
  Forall (fun a => turn (phaseOf a)) (ss_agents s') /\ Forall (closing (tp_phase target) (Rmax (gv_dist (g_conv cfg)) (b * share cfg ^ List.length es))) (ss_agents s').
Proof.
  intros B TC HR. induction HR as [s|e es s s1 s2 U A R1 ST R2 IH]; intros b Pb HT HB; [cbn [List.length pow]; rewrite Rmult_1_r; auto|].
  destruct (round_align _ _ _ _ _ U A R1 ST) as (cp & coh & var & d & l & AL & P1 & P2). apply Permutation_sym in P1.
  destruct (align_step cfg target cp coh var d l b B TC AL) as [T1 B1]; [eapply Permutation_Forall; eassumption|eapply Permutation_Forall; eassumption|exact Pb|]. apply Permutation_sym in P2.
  assert (SH : 0 <= share cfg) by (unfold share; lra).
  cbn [List.length pow]. rewrite <- Rmult_assoc. apply IH; [now apply Rmult_le_pos|eapply Permutation_Forall; eassumption|eapply Permutation_Forall; eassumption].
Qed.
Theorem C88_shrinks : forall cfg target es s s', 0 < gv_scale (g_conv cfg) <= 88 / 100 -> 4 / 10 <= tp_coh target -> Forall (fun a => 0 <= phaseOf a < 2 * PI) (ss_agents s) -> alignRounds cfg target es s s' ->
  Forall (fun a => 0 <= phaseOf a < 2 * PI /\ closing (tp_phase target) (Rmax (gv_dist (g_conv cfg)) (2 * PI * (1 - 1026 / 1000 * gv_scale (g_conv cfg)) ^ List.length es)) a) (ss_agents s').
Proof.
  intros cfg target es s s' B TC HT HR. pose proof PI_RGT_0. destruct (series cfg target es s s' B TC HR (2 * PI) ltac:(lra) HT) as [A C].
  - rewrite Forall_forall. intros a Ha. exists (RWrap (tp_phase target - phaseOf a)). pose proof (ahead_wrap (tp_phase target) (phaseOf a)) as AW. split; [exact AW|]. destruct AW as [Q _]. eapply Rle_trans; [|apply Rmax_r]. lra.
  - rewrite Forall_forall in *. intros a Ha. split; [now apply A|now apply C].
Qed.

(** ** The variance of a population close closing the target *)
Lemma total_perm_rsum {A} (f : A -> R) l : total (map f l) = rsum f l.
Proof. induction l as [|x l IH]; [reflexivity|]. cbn. unfold total in IH. cbn in IH. rewrite <- IH. reflexivity. Qed.
Lemma var_small fuel l T m var : (2 <= fuel)%nat -> l <> [] -> 0 <= m <= PI / 2 -> Forall (fun a => turn (phaseOf a)) l -> Forall (closing T m) l ->
  @MeasurePhaseVariance R RNum fuel l = Some var -> var <= m * m.
Proof.
  intros Hf NE Hm HT HB V. destruct (C31_variance_is_mean_square fuel l Hf NE HT) as (c & r & ds & Hr & EC & ES & F2 & E). rewrite E in V. injection V as <-. clear E.
  pose proof PI_RGT_0 as PP. rewrite !total_perm_rsum in EC, ES.
  (* components along and across the target direction *)
  assert (Q : forall t, r * cos (c - t) = rsum (fun a => cos (phaseOf a - t)) l /\ r * sin (c - t) = rsum (fun a => sin (phaseOf a - t)) l).
  { intros t. rewrite cos_minus, sin_minus. split.
    - replace (r * (cos c * cos t + sin c * sin t)) with (cos t * (r * cos c) + sin t * (r * sin c)) by ring. rewrite <- EC, <- ES, <- !rsum_scale, <- rsum_plus. apply rsum_ext. intros a _. rewrite cos_minus. ring.
    - replace (r * (sin c * cos t - cos c * sin t)) with (cos t * (r * sin c) + - sin t * (r * cos c)) by ring. rewrite <- EC, <- ES, <- !rsum_scale, <- rsum_plus. apply rsum_ext. intros a _. rewrite sin_minus. ring. }
  rewrite Forall_forall in HB.
  assert (G : forall a, In a l -> exists phi, 0 <= phi <= m /\ cong (phaseOf a - T) (- phi)).
  { intros a Ha. destruct (HB a Ha) as (phi & [P [k K]] & L). exists phi. split; [lra|]. exists (- k)%Z. rewrite opp_IZR. lra. }
  assert (Cp : 0 <= rsum (fun a => cos (phaseOf a - T)) l). { apply rsum_ge0. intros a Ha. destruct (G a Ha) as (phi & B & Cg). rewrite (cong_cos _ _ Cg), cos_neg. apply cos_ge_0; lra. }
  assert (Sp : 0 <= rsum (fun a => - sin (phaseOf a - T)) l). { apply rsum_ge0. intros a Ha. destruct (G a Ha) as (phi & B & Cg). rewrite (cong_sin _ _ Cg), sin_neg, Ropp_involutive. apply sin_ge_0; lra. }
  assert (Sm : 0 <= rsum (fun a => sin (phaseOf a - (T - m))) l).
  { apply rsum_ge0. intros a Ha. destruct (G a Ha) as (phi & B & Cg). replace (phaseOf a - (T - m)) with (phaseOf a - T + m) by ring. rewrite (cong_sin _ _ (cong_add _ _ m Cg)). apply sin_ge_0; lra. }
  assert (Cm : 0 < rsum (fun a => cos (phaseOf a - (T - m / 2))) l).
  { apply Rlt_le_trans with (rsum (fun _ : Agent R => cos (PI / 4)) l).
    - rewrite rsum_const. apply Rmult_lt_0_compat; [now apply INR_len_pos|]. apply cos_gt_0; lra.
    - apply rsum_le. intros a Ha. destruct (G a Ha) as (phi & B & Cg). replace (phaseOf a - (T - m / 2)) with (phaseOf a - T + m / 2) by ring. rewrite (cong_cos _ _ (cong_add _ _ (m / 2) Cg)).
      rewrite <- (cos_neg (- phi + m / 2)). destruct (Rle_dec 0 (- phi + m / 2)); [rewrite cos_neg|]; apply cos_decr_1; lra. }
  destruct (Q T) as [QT1 QT2]. destruct (Q (T - m)) as [_ QM]. destruct (Q (T - m / 2)) as [QH _]. rewrite <- QT1 in Cp. rewrite <- QM in Sm. rewrite <- QH in Cm.
  assert (Sn : r * sin (c - T) <= 0). { rewrite QT2. assert (X : rsum (fun a => - sin (phaseOf a - T)) l = -1 * rsum (fun a => sin (phaseOf a - T)) l) by (rewrite <- rsum_scale; apply rsum_ext; intros; ring). lra. }
  assert (Pr : 0 < r). { destruct Hr as [Hr|Hr]; [exact Hr|]. rewrite <- Hr in Cm. lra. } clear Q QT1 QT2 QM QH Sp.
  destruct (cong_rep_pi (c - T)) as (dl & Bd & Cd).
  rewrite (cong_cos _ _ Cd) in Cp. rewrite (cong_sin _ _ Cd) in Sn. replace (c - (T - m)) with (c - T + m) in Sm by ring. rewrite (cong_sin _ _ (cong_add _ _ m Cd)) in Sm. replace (c - (T - m / 2)) with (c - T + m / 2) in Cm by ring. rewrite (cong_cos _ _ (cong_add _ _ (m / 2) Cd)) in Cm.
  assert (C0 : 0 <= cos dl) by (apply Rmult_le_reg_l with r; lra). assert (S0 : sin dl <= 0) by (apply Rmult_le_reg_l with r; lra). assert (S1 : 0 <= sin (dl + m)) by (apply Rmult_le_reg_l with r; lra). assert (C1 : 0 < cos (dl + m / 2)) by (apply Rmult_lt_reg_l with r; lra).
  assert (D1 : - (PI / 2) <= dl <= PI / 2).
  { split.
    - destruct (Rle_dec (- (PI / 2)) dl); [assumption|]. exfalso. assert (cos (- dl) < 0) by (apply cos_lt_0; lra). rewrite cos_neg in H. lra.
    - destruct (Rle_dec dl (PI / 2)); [assumption|]. exfalso. assert (cos dl < 0) by (apply cos_lt_0; lra). lra. }
  assert (D2 : dl <= 0). { destruct (Rle_dec dl 0); [assumption|]. exfalso. assert (0 < sin dl) by (apply sin_gt_0; lra). lra. }
  assert (D3 : - m <= dl). { destruct (Rle_dec (- m) dl); [assumption|]. exfalso. assert (0 < sin (- (dl + m))) by (apply sin_gt_0; lra). rewrite sin_neg in H. lra. }
  assert (L : 0 < INR (List.length l)) by now apply INR_len_pos.
  apply Rmult_le_reg_r with (INR (List.length l)); [exact L|]. unfold Rdiv. rewrite Rmult_assoc, Rinv_l, Rmult_1_r by lra.
  assert (W : forall a d, In a l -> - PI <= d <= PI /\ cong d (phaseOf a - c) -> d * d <= m * m).
  { intros a d Ha [Bd' Cd']. destruct (G a Ha) as (phi & B & Cg). assert (CC : cong d (- phi - dl)).
    { eapply cong_trans; [exact Cd'|]. replace (phaseOf a - c) with (phaseOf a - T - (c - T)) by ring. now apply cong_sub. }
    assert (d = - phi - dl). { destruct CC as [k K]. assert (-1 < IZR k < 1) as [K1 K2] by (split; nra). apply lt_IZR in K1. apply lt_IZR in K2. replace k with 0%Z in K by lia. lra. } subst d. assert (- m <= - phi - dl <= m) by lra. nra. }
  clear - F2 W. induction F2 as [|a d l ds H F2 IH]; [cbn; lra|]. cbn [List.length]. rewrite S_INR. change (total (map (fun d => d * d) (d :: ds))) with (d * d + total (map (fun d => d * d) ds)).
  assert (d * d <= m * m) by (apply (W a d); [now left|exact H]). assert (total (map (fun d => d * d) ds) <= m * m * INR (List.length l)) by (apply IH; intros a' d' Ha; apply W; now right). lra.
Qed.
(** ** So a series of aligning rounds is short *)
Theorem C88_stops : forall cfg target es s s' k, 0 < gv_scale (g_conv cfg) <= 88 / 100 -> 0 <= gv_dist (g_conv cfg) -> 4 / 10 <= tp_coh target -> Forall (fun a => 0 <= phaseOf a < 2 * PI) (ss_agents s) ->
  (let m := Rmax (gv_dist (g_conv cfg)) (2 * PI * (1 - 1026 / 1000 * gv_scale (g_conv cfg)) ^ k) in m <= PI / 2 /\ m * m <= gt_var (g_thr cfg)) ->
  alignRounds cfg target es s s' -> (List.length es <= k)%nat.
Proof.
  intros cfg target es s s' k B Pd TC HT HM HR. destruct (Nat.le_gt_cases (List.length es) k) as [L|L]; [exact L|exfalso].
  assert (X : exists es1 e s1, List.length es1 = k /\ alignRounds cfg target es1 s s1 /\ undisturbed e /\ aligns cfg e (ss_agents s1)).
  { clear HM HT TC. revert k L. induction HR as [s|e es s s1 s2 U A R1 ST R2 IH]; intros k L; [cbn in L; lia|]. destruct k as [|k].
    - exists [], e, s. repeat split; auto; [constructor|apply U|apply U].
    - cbn [List.length] in L. destruct (IH k ltac:(lia)) as (es1 & e' & s3 & L1 & R3 & U' & A'). exists (e :: es1), e', s3. split; [cbn; now rewrite L1|]. split; [|auto]. econstructor; eassumption. }
  destruct X as (es1 & e & s1 & L1 & R1 & U & var & V & A1 & A2). pose proof (C88_shrinks cfg target es1 s s1 B TC HT R1) as H. rewrite L1 in H. destruct HM as [M1 M2]. set (m := Rmax _ _) in *.
  assert (m0 : 0 <= m) by (unfold m; eapply Rle_trans; [exact Pd|apply Rmax_l]). clearbody m.
  assert (HS : Forall (fun a => 0 <= phaseOf a < 2 * PI /\ closing (tp_phase target) m a) (seen e 6 (ss_agents s1))) by (eapply Permutation_Forall; [apply Permutation_sym, seen_perm; exact U|exact H]).
  destruct (seen e 6 (ss_agents s1)) as [|a0 l0] eqn:ES.
  - (* an empty population has variance 0 *)
    cbn in V. injection V as V. change (@n0 R RNum) with 0 in V. assert (0 <= m * m) by now apply Rmult_le_pos. lra.
  - assert (var <= m * m); [|lra]. apply (var_small (ev_fuel e) (a0 :: l0) (tp_phase target) m var); [apply U|discriminate|lra| | |exact V]; rewrite Forall_forall in HS |- *; intros a Ha; now apply HS.
Qed.
(** ** When alignment is possible at all *)
Lemma jordan x : 0 <= x <= PI / 2 -> 2 / PI * x <= sin x.
Proof.
  intros H. pose proof PI_RGT_0 as PP. destruct (Rle_dec (2 / PI * x) (sin x)) as [|N]; [assumption|exfalso]. assert (K : 2 / PI * (PI / 2) = 1) by (field; lra).
  assert (X0 : 0 < x). { destruct (proj1 H) as [Y|Y]; [assumption|]. rewrite <- Y, sin_0 in N. lra. }
  assert (X1 : x < PI / 2). { destruct (proj2 H) as [Y|Y]; [assumption|]. rewrite Y, sin_PI2, K in N. lra. }
  destruct (MVT_cor2 sin cos 0 x X0) as (c1 & E1 & B1); [intros; apply derivable_pt_lim_sin|]. destruct (MVT_cor2 sin cos x (PI / 2) X1) as (c2 & E2 & B2); [intros; apply derivable_pt_lim_sin|].
  rewrite sin_0, !Rminus_0_r in E1. rewrite sin_PI2 in E2. set (k := 2 / PI) in *.
  assert (C1 : cos c1 < k) by nra. assert (C2 : k < cos c2) by nra. assert (cos c2 < cos c1) by (apply cos_decreasing_1; lra). lra.
Qed.
Lemma cos_quad d : - PI <= d <= PI -> 2 * (d * d) <= (1 - cos d) * (PI * PI).
Proof.
  intros H. pose proof PI_RGT_0 as PP. assert (E : 1 - cos d = 2 * (sin (Rabs d / 2) * sin (Rabs d / 2))).
  { assert (cos d = cos (2 * (Rabs d / 2))) as ->. { replace (2 * (Rabs d / 2)) with (Rabs d) by field. unfold Rabs. destruct (Rcase_abs d); [now rewrite cos_neg|reflexivity]. } rewrite cos_2a_sin. ring. }
  assert (A : 0 <= Rabs d <= PI) by (split; [apply Rabs_pos|now apply Rabs_le]). pose proof (jordan (Rabs d / 2) ltac:(lra)) as J. set (z := sin (Rabs d / 2)) in *.
  assert (D2 : d * d = Rabs d * Rabs d) by (unfold Rabs; destruct (Rcase_abs d); ring). rewrite E, D2.
  assert (J2 : Rabs d <= z * PI). { apply Rmult_le_compat_r with (r := PI) in J; [|lra]. replace (2 / PI * (Rabs d / 2) * PI) with (Rabs d) in J by (field; lra). lra. } nra.
Qed.
Theorem C88_when : forall cfg fuel l l' var, (2 <= fuel)%nat -> l <> [] -> Forall (fun a => 0 <= phaseOf a < 2 * PI) l -> Permutation l l' ->
  @MeasurePhaseVariance R RNum fuel l' = Some var -> aligning cfg (@swarmCoherence R RNum l) var ->
  gt_high (g_thr cfg) <= @swarmCoherence R RNum l < 1 - 2 * gt_var (g_thr cfg) / (PI * PI).
Proof.
  intros cfg fuel l l' var Hf NE HT HP V [A1 A2]. split; [exact A1|]. pose proof PI_RGT_0 as PP.
  assert (NE' : l' <> []) by (intros ->; apply Permutation_sym, Permutation_nil in HP; contradiction).
  assert (HT' : Forall (fun a => turn (phaseOf a)) l') by (eapply Permutation_Forall; eassumption).
  assert (EC : @swarmCoherence R RNum l = @swarmCoherence R RNum l') by (unfold swarmCoherence; apply RMC_perm, Permutation_map, HP). rewrite EC. clear EC A1 HP HT NE l.
  destruct (C31_variance_is_mean_square fuel l' Hf NE' HT') as (c & r & ds & Hr & EC & ES & F2 & E). rewrite E in V. injection V as <-. clear E. rewrite !total_perm_rsum in EC, ES.
  assert (L : 0 < INR (List.length l')) by now apply INR_len_pos. set (n := INR (List.length l')) in *.
  assert (R1 : @swarmCoherence R RNum l' = r / n).
  { unfold swarmCoherence. rewrite RMC_unfold by (destruct l'; [contradiction|discriminate]). rewrite map_length. fold n. f_equal. rewrite !rsum_map, EC, ES. unfold vlen. replace (_ + _) with (r * r * (Rsqr (cos c) + Rsqr (sin c))) by (unfold Rsqr; ring). rewrite Rplus_comm, sin2_cos2, Rmult_1_r. now apply sqrt_square. }
  assert (R2 : r = rsum (fun a => cos (phaseOf a - c)) l').
  { transitivity (cos c * (r * cos c) + sin c * (r * sin c)); [pose proof (sin2_cos2 c) as Q; unfold Rsqr in Q; replace (cos c * (r * cos c) + sin c * (r * sin c)) with (r * (sin c * sin c + cos c * cos c)) by ring; rewrite Q; ring|].
    rewrite <- EC, <- ES, <- !rsum_scale, <- rsum_plus. apply rsum_ext. intros a _. rewrite cos_minus. ring. }
  assert (K : 2 * total (map (fun d => d * d) ds) <= (n - r) * (PI * PI)).
  { rewrite R2. unfold n. clear - F2 PP. induction F2 as [|a d l ds [B Cg] F2 IH]; [cbn; lra|]. change (total (map (fun d => d * d) (d :: ds))) with (d * d + total (map (fun d => d * d) ds)). cbn [List.length]. rewrite S_INR.
    change (rsum (fun a => cos (phaseOf a - c)) (a :: l)) with (cos (phaseOf a - c) + rsum (fun a => cos (phaseOf a - c)) l). rewrite <- (cong_cos _ _ Cg). pose proof (cos_quad d B). lra. }
  rewrite R1. set (t := total _) in *. clearbody t. set (v := gt_var (g_thr cfg)) in *. assert (P2 : 0 < PI * PI) by (apply Rmult_lt_0_compat; lra).
  assert (T1 : n * v < t). { apply Rmult_lt_compat_r with (r := n) in A2; [|exact L]. unfold Rdiv in A2. rewrite Rmult_assoc, Rinv_l in A2 by lra. lra. }
  apply Rmult_lt_reg_r with n; [exact L|]. replace (r / n * n) with r by (field; lra). apply Rmult_lt_reg_r with (PI * PI); [exact P2|].
  replace ((1 - 2 * v / (PI * PI)) * n * (PI * PI)) with (n * (PI * PI) - 2 * (n * v)) by (field; lra). lra.
Qed.
(** With the default settings it never is. *)
Theorem C88_default_never_refuted : forall fuel l l' var, (2 <= fuel)%nat -> Forall (fun a => 0 <= phaseOf a < 2 * PI) l -> Permutation l l' ->
  @MeasurePhaseVariance R RNum fuel l' = Some var -> ~ aligning (@For R RNum OtherGoal) (@swarmCoherence R RNum l) var.
Proof.
  intros fuel l l' var Hf HT HP V A. destruct l as [|a l].
  - apply Permutation_nil in HP. subst l'. cbn in V. injection V as <-. destruct A as [_ A]. revert A. apply Rle_not_lt. change (0 <= 5 / 10). lra.
  - pose proof (C88_when _ fuel (a :: l) l' var Hf ltac:(discriminate) HT HP V A) as [H1 H2]. set (c := swarmCoherence _) in *. clearbody c.
    change (gt_high (g_thr (@For R RNum OtherGoal))) with (9 / 10) in H1. change (gt_var (g_thr (@For R RNum OtherGoal))) with (5 / 10) in H2.
    pose proof PI_hi. pose proof PI_RGT_0. assert (P2 : 0 < PI * PI < 10) by nra. assert (/ 10 < / (PI * PI)) by (apply Rinv_lt_contravar; nra). unfold Rdiv in H2. lra.
Qed.
(** REFUTED: "a population synchronised away from the target is aligned".  Agents all at one phase never are, wherever the target is. *)
Theorem C88_together_refuted : forall cfg fuel l p var, (2 <= fuel)%nat -> 0 <= gt_var (g_thr cfg) -> 0 <= p < 2 * PI -> Forall (fun a => phaseOf a = p) l ->
  @MeasurePhaseVariance R RNum fuel l = Some var -> ~ aligning cfg (@swarmCoherence R RNum l) var.
Proof.
  intros cfg fuel l p var Hf G Hp HA V [_ A]. destruct l as [|a l].
  - cbn in V. injection V as <-. change (@n0 R RNum) with 0 in A. lra.
  - destruct (C31_variance_nonneg_and_zero fuel (a :: l) Hf ltac:(discriminate)) as (v & E & _ & Z).
    + eapply Forall_impl; [|exact HA]. intros b ->. exact Hp.
    + rewrite E in V. injection V as <-. rewrite (proj2 Z) in A; [lra|]. now exists p.
Qed.
(** The longest series with the settings of each goal. *)
Theorem C88_lasts : forall g target es s s', 4 / 10 <= tp_coh target -> Forall (fun a => 0 <= phaseOf a < 2 * PI) (ss_agents s) -> alignRounds (@For R RNum g) target es s s' -> (List.length es <= longest g)%nat.
Proof.
  intros g target es s s' TC HT HR.
  assert (Z : g = OtherGoal \/ g <> OtherGoal) by (destruct g; auto; right; discriminate). destruct Z as [->|NG].
  { inversion HR as [|e es' ? s1 ? U A]; subst; [cbn; lia|exfalso]. destruct A as (var & V & A).
    apply (C88_default_never_refuted (ev_fuel e) (seen e 5 (ss_agents s)) (seen e 6 (ss_agents s)) var); [apply U| | |exact V|exact A].
    - eapply Permutation_Forall; [apply Permutation_sym, seen_perm; exact U|exact HT].
    - rewrite (seen_perm e 5), (seen_perm e 6) by exact U. reflexivity. }
  pose proof PI_hi as PH. pose proof PI_lo as PL.
  assert (K : forall b dist v k c, 2 * (31416 / 10000) * (1 - 1026 / 1000 * b) ^ k <= c -> 0 <= (1 - 1026 / 1000 * b) ^ k -> 0 <= dist <= c -> c <= 1 -> c * c <= v ->
    let m := Rmax dist (2 * PI * (1 - 1026 / 1000 * b) ^ k) in m <= PI / 2 /\ m * m <= v).
  { intros b dist v k c Hc Hp Hd H1 Hv m. set (q := (1 - 1026 / 1000 * b) ^ k) in *. clearbody q. assert (M : 0 <= m <= c).
    { split; [eapply Rle_trans; [apply Hd|apply Rmax_l]|]. apply Rmax_lub; [lra|]. assert (PI * q <= 31416 / 10000 * q) by (apply Rmult_le_compat_r; lra). lra. }
    split; [lra|]. assert (m * m <= c * c) by (apply Rmult_le_compat; lra). lra. }
  eapply C88_stops; [| |exact TC|exact HT| |exact HR].
  - destruct g; try contradiction; cbn; lra.
  - destruct g; try contradiction; cbn; lra.
  - destruct g; try contradiction; cbn -[Rmax pow PI]; cbn [longest];
    [apply (K _ _ _ _ (5 / 10))|apply (K _ _ _ _ (8 / 10))|apply (K _ _ _ _ (4 / 10))|apply (K _ _ _ _ (6 / 10))|apply (K _ _ _ _ (76 / 100))|apply (K _ _ _ _ (6 / 10))|apply (K _ _ _ _ (8 / 10))|apply (K _ _ _ _ (9 / 10))]; cbn [pow]; lra.
Qed.
(** ** REFUTED: "the alignment does not break the coherence"
    Nine agents that save energy: four just behind the target, four just past it, one opposite. *)
Definition flock : list (Agent R) := repeat (stateAt (2 * PI - 1 / 10) 100000000) 4 ++ repeat (stateAt (1 / 10) 100000000) 4 ++ [stateAt PI 100000000].
Definition flockGoal : TargetPattern R := mkTP 0 100000000 1 (95 / 100) [] (9 / 10).
Definition flockState : SyncState R := @newSync R flock (@NewConvergence R RNum (mkState 0 0 0) 0 0).
Lemma flock_phases : map phaseOf flock = repeat (2 * PI - 1 / 10) 4 ++ repeat (1 / 10) 4 ++ [PI].
Proof. reflexivity. Qed.
Lemma flock_cos : rsum cos (map phaseOf flock) = 8 * cos (1 / 10) - 1.
Proof. rewrite flock_phases. unfold rsum. cbn [repeat app map fold_right]. rewrite cos_PI. replace (cos (2 * PI - 1 / 10)) with (cos (1 / 10)); [ring|]. rewrite <- (cos_neg (2 * PI - 1 / 10)). apply cong_cos. exists 1%Z. lra. Qed.
Lemma flock_sin : rsum sin (map phaseOf flock) = 0.
Proof. rewrite flock_phases. unfold rsum. cbn [repeat app map fold_right]. rewrite sin_PI. replace (sin (2 * PI - 1 / 10)) with (- sin (1 / 10)); [ring|]. rewrite <- (sin_neg (1 / 10)). apply cong_sin. exists (-1)%Z. lra. Qed.
Lemma cos_tenth : 995 / 1000 <= cos (1 / 10) <= 1.
Proof.
  split; [|apply COS_bound]. assert (E : cos (1 / 10) = 1 - 2 * (sin (1 / 20) * sin (1 / 20))) by (replace (1 / 10) with (2 * (1 / 20)) by lra; rewrite cos_2a_sin; ring).
  assert (0 <= sin (1 / 20)) by (apply sin_ge_0; pose proof PI_lo; lra). assert (sin (1 / 20) < 1 / 20) by (apply sin_lt_x; lra). nra.
Qed.
Lemma flock_coh : 75 / 100 <= @swarmCoherence R RNum flock <= 78 / 100.
Proof.
  unfold swarmCoherence. rewrite RMC_unfold by discriminate. rewrite flock_cos, flock_sin. pose proof cos_tenth. unfold vlen. replace (_ + 0 * 0) with ((8 * cos (1 / 10) - 1) * (8 * cos (1 / 10) - 1)) by ring. rewrite sqrt_square by lra.
  rewrite flock_phases. cbn [repeat app List.length INR]. lra.
Qed.
Lemma flock_turn : Forall (fun a => 0 <= phaseOf a < 2 * PI) flock.
Proof. pose proof PI_lo. unfold flock. cbn [repeat app]. repeat constructor; cbn; lra. Qed.
Lemma flock_var fuel : (2 <= fuel)%nat -> exists var, @MeasurePhaseVariance R RNum fuel flock = Some var /\ 1 < var.
Proof.
  intros Hf. destruct (C31_variance_is_mean_square fuel flock Hf ltac:(discriminate) flock_turn) as (c & r & ds & Hr & EC & ES & F2 & E). eexists. split; [exact E|]. clear E. rewrite !total_perm_rsum in EC, ES.
  assert (E1 : r * cos c = 8 * cos (1 / 10) - 1) by (rewrite <- EC, <- flock_cos, rsum_map; reflexivity). assert (E2 : r * sin c = 0) by (rewrite <- ES, <- flock_sin, rsum_map; reflexivity). clear EC ES.
  pose proof cos_tenth as CT. pose proof PI_lo as PL. assert (S0 : sin c = 0). { destruct (Rmult_integral _ _ E2) as [Z|Z]; [|exact Z]. rewrite Z in E1. lra. } assert (C1 : cos c = 1) by (pose proof (sin2_cos2 c) as Q; unfold Rsqr in Q; rewrite S0 in Q; assert (0 < cos c) by nra; nra). apply cos_1_cong in C1.
  unfold flock in F2. cbn [repeat app] in F2. repeat match goal with H : Forall2 _ (_ :: _) _ |- _ => inversion H; clear H; subst end. match goal with H : Forall2 _ [] _ |- _ => inversion H; clear H; subst end.
  match goal with H : _ /\ cong ?y (phaseOf (stateAt PI _) - c) |- _ => destruct H as [B Cg]; set (d := y) in * end.
  assert (K : PI * PI <= d * d).
  { change (phaseOf (stateAt PI 100000000)) with PI in Cg. destruct Cg as [k K]. destruct C1 as [j J]. assert (M : d = PI + IZR (k - j) * (2 * PI)) by (rewrite minus_IZR; lra).
    assert (Z : (k - j = 0 \/ k - j = -1)%Z). { assert (-2 < IZR (k - j) < 1) as [Z1 Z2] by (split; nra). apply lt_IZR in Z1. apply lt_IZR in Z2. lia. } destruct Z as [Z|Z]; rewrite Z in M; nra. }
  clearbody d. apply Rmult_lt_reg_r with 9; [lra|]. change (INR (List.length flock)) with (INR 9). replace (INR 9) with 9 by (cbn; lra). unfold Rdiv. rewrite Rmult_assoc, Rinv_l, Rmult_1_r by lra. unfold total. cbn [map fold_right].
  assert (PP : 9 < PI * PI) by nra. assert (NN : forall x, 0 <= x * x) by (intros x; apply Rle_0_sqr). repeat match goal with |- context [?x * ?x + _] => lazymatch x with d => fail | _ => generalize (NN x); generalize (x * x); intros ? ? end end. lra.
Qed.
Lemma apply_len cfg target cp coh var d l : List.length (@applyPatternCompletion R RNum cfg target cp coh var d l) = List.length l.
Proof.
  unfold applyPatternCompletion. destruct (_ && _)%bool.
  - generalize 0%nat. induction l as [|a l IH]; intros k; [reflexivity|]. cbn [scatterLoop List.length]. now rewrite IH.
  - cbv zeta. set (x := applyCtx _ _ _ _ _ _). clearbody x. generalize (adjustmentScale x). generalize 0%nat. induction l as [|a l IH]; intros k s; [reflexivity|]. cbn [applyLoop List.length]. destruct (applyAgent x k (d k) s a). cbn [List.length]. now rewrite IH.
Qed.
Lemma pair_small w t : 33 / 10 <= w <= 366 / 100 -> cos (1 / 10 + t) + cos (w + t) <= 42 / 100.
Proof.
  intros H. pose proof PI_lo. pose proof PI_hi. rewrite form1. set (y := (1 / 10 + t - (w + t)) / 2). set (z := cos ((1 / 10 + t + (w + t)) / 2)). assert (Z : -1 <= z <= 1) by apply COS_bound. clearbody z.
  assert (Y : y = - (PI / 2 + ((w - 1 / 10) / 2 - PI / 2))) by (unfold y; field). set (v := (w - 1 / 10) / 2 - PI / 2) in *. assert (V : 0 < v <= 21 / 100) by (unfold v; lra).
  rewrite Y, cos_neg, cos_plus, cos_PI2, sin_PI2. assert (0 <= sin v) by (apply sin_ge_0; lra). assert (sin v < v) by (apply sin_lt_x; lra). set (q := sin v) in *. clearbody q. nra.
Qed.
Lemma flock_broken cp var d : 1 < var -> @swarmCoherence R RNum (@applyPatternCompletion R RNum (For SaveEnergy) flockGoal cp (@swarmCoherence R RNum flock) var d flock) <= 3 / 10.
Proof.
  intros HV. pose proof flock_coh as FC. set (coh := swarmCoherence flock) in *. clearbody coh. pose proof PI_lo as PL. pose proof PI_hi as PH.
  assert (AL : aligning (@For R RNum SaveEnergy) coh var) by (split; cbn; lra).
  pose proof (fun i a a' E E' => align_agent (@For R RNum SaveEnergy) flockGoal cp coh var d flock i a a' ltac:(cbn; lra) ltac:(cbn; lra) AL E E') as AA.
  pose proof (apply_len (@For R RNum SaveEnergy) flockGoal cp coh var d flock) as LN. set (l' := applyPatternCompletion _ _ _ _ _ _ _) in *. clearbody l'.
  change (List.length flock) with 9%nat in LN. destruct l' as [|a0 [|a1 [|a2 [|a3 [|b0 [|b1 [|b2 [|b3 [|c0 [|]]]]]]]]]]; try discriminate LN. clear LN.
  assert (NA : forall i a', (i < 4)%nat -> nth_error [a0; a1; a2; a3; b0; b1; b2; b3; c0] i = Some a' -> cong (phaseOf a') (- (1 / 10))).
  { intros i a' Hi E'. destruct (AA i (stateAt (2 * PI - 1 / 10) 100000000) a') as (_ & phi & f & A1 & A2 & X); [do 4 (destruct i as [|i]; [reflexivity|]); lia|exact E'|cbn; lra|].
    assert (P1 : ahead (tp_phase flockGoal) (phaseOf (stateAt (2 * PI - 1 / 10) 100000000)) (1 / 10)) by (split; [lra|]; exists (-1)%Z; cbn; lra). rewrite (ahead_unique _ _ _ _ A1 P1) in *.
    destruct X as [[_ ->]|[X _]]; [|exfalso; revert X; apply Rle_not_lt; cbn; lra]. destruct A2 as [_ [k K]]. exists (- k)%Z. cbn [flockGoal tp_phase] in K. rewrite opp_IZR. lra. }
  assert (NB : forall i a', (4 <= i < 8)%nat -> nth_error [a0; a1; a2; a3; b0; b1; b2; b3; c0] i = Some a' -> exists w, 33 / 10 <= w <= 366 / 100 /\ cong (phaseOf a') (- w)).
  { intros i a' Hi E'. destruct (AA i (stateAt (1 / 10) 100000000) a') as (_ & phi & f & A1 & A2 & X); [do 4 (destruct i as [|i]; [lia|]); do 4 (destruct i as [|i]; [reflexivity|]); lia|exact E'|cbn; lra|].
    assert (P1 : ahead (tp_phase flockGoal) (phaseOf (stateAt (1 / 10) 100000000)) (2 * PI - 1 / 10)) by (split; [lra|]; exists (-1)%Z; cbn; lra). rewrite (ahead_unique _ _ _ _ A1 P1) in *.
    destruct X as [[X _]|[_ X]]; [exfalso; revert X; apply Rlt_not_le; cbn; lra|]. unfold share in X. assert (Y : 5464 / 10000 < f <= 5896 / 10000) by (cbn in X; lra).
    exists ((2 * PI - 1 / 10) * f). split; [split; nra|]. destruct A2 as [_ [k K]]. exists (- k)%Z. cbn [flockGoal tp_phase] in K. rewrite opp_IZR. lra. }
  unfold swarmCoherence. rewrite RMC_unfold by discriminate. rewrite map_length. replace (INR (List.length [a0; a1; a2; a3; b0; b1; b2; b3; c0])) with 9 by (cbn; lra).
  set (ps := map phaseOf [a0; a1; a2; a3; b0; b1; b2; b3; c0]). destruct (unit_weights ps) as [-> ->]. destruct (weighted_projection (fun _ => 1) (fun x : R => x) ps) as [t ->]. unfold ps, rsum. cbn [map fold_right].
  assert (PR : forall i a b, (i < 4)%nat -> nth_error [a0; a1; a2; a3; b0; b1; b2; b3; c0] i = Some a -> nth_error [a0; a1; a2; a3; b0; b1; b2; b3; c0] (4 + i) = Some b -> cos (phaseOf a - t) + cos (phaseOf b - t) <= 42 / 100).
  { intros i a b Hi Ea Eb. pose proof (NA i a Hi Ea) as Ca. destruct (NB (4 + i)%nat b ltac:(lia) Eb) as (w & W & Cb).
    rewrite (cong_cos _ _ (cong_sub _ _ _ _ Ca (cong_refl t))), (cong_cos _ _ (cong_sub _ _ _ _ Cb (cong_refl t))). pose proof (pair_small w t W) as Q. replace (- (1 / 10) - t) with (- (1 / 10 + t)) by ring. replace (- w - t) with (- (w + t)) by ring. now rewrite !cos_neg. }
  pose proof (PR 0%nat a0 b0 ltac:(lia) eq_refl eq_refl). pose proof (PR 1%nat a1 b1 ltac:(lia) eq_refl eq_refl). pose proof (PR 2%nat a2 b2 ltac:(lia) eq_refl eq_refl). pose proof (PR 3%nat a3 b3 ltac:(lia) eq_refl eq_refl).
  pose proof (COS_bound (phaseOf c0 - t)). lra.
Qed.
Lemma flock_mean : @meanPhase R RNum flock = 0.
Proof.
  pose proof flock_cos as C. pose proof flock_sin as S. rewrite rsum_map in C, S. unfold meanPhase. cbn [natan2 ndiv nadd nsin ncos nofZ RNum]. change (@n0 R RNum) with 0. rewrite !fold_rsum, C, S, !Rplus_0_l.
  change (IZR (Z.of_nat (List.length flock))) with 9. pose proof cos_tenth. unfold Ratan2. rewrite Rlt_bool_true by lra. replace (0 / 9 / ((8 * cos (1 / 10) - 1) / 9)) with 0 by (field; lra). apply atan_0.
Qed.
Lemma flock_round e : (2 <= ev_fuel e)%nat -> (forall k l, ev_view e k l = l) ->
  exists s', @round R RNum (For SaveEnergy) flockGoal e flockState = Some (s', false) /\ IsStuck (ss_mon s') = false /\
    exists cp var, 1 < var /\ @MeasurePhaseVariance R RNum (ev_fuel e) flock = Some var /\ ss_agents s' = @applyPatternCompletion R RNum (For SaveEnergy) flockGoal cp (@swarmCoherence R RNum flock) var (ev_draw e) flock.
Proof.
  intros Hf HV. destruct (flock_var (ev_fuel e) Hf) as (var & V & V1). unfold round. cbv zeta. rewrite !HV. change (ss_agents flockState) with flock. pose proof flock_coh as FC.
  set (mon := GRecord _ _ _ _). assert (M1 : ShouldSwitchStrategy mon = false) by reflexivity. assert (M2 : IsStuck mon = false) by reflexivity. clearbody mon.
  assert (MP : measureSystemPattern flock flock = mkTP 0 100000000 1 (@swarmCoherence R RNum flock) [] (5 / 10)) by (unfold measureSystemPattern; rewrite flock_mean; reflexivity). rewrite MP. set (coh := swarmCoherence flock) in *.
  assert (NA : @isPatternAchieved R RNum (For SaveEnergy) flockGoal flock (mkTP 0 100000000 1 coh [] (5 / 10)) = false).
  { unfold isPatternAchieved. cbv zeta. cbn [tp_coh flockGoal]. match goal with |- context [nle ?x coh] => assert (B : nle x coh = false) end.
    { rops. apply Rle_bool_false. assert (T : @tolerance R RNum (For SaveEnergy) (Z.of_nat (List.length flock)) flockGoal <= 6 / 100). { unfold tolerance. cbv zeta. change (Z.of_nat (List.length flock)) with 9%Z. change (9 <? 10)%Z with true. cbv iota. rops. assert (G : gv_tolS (g_conv (@For R RNum SaveEnergy)) = 3 / 100) by reflexivity. rewrite G. destruct (Rle_bool _ _); lra. } lra. }
    rewrite B. cbn [andb]. match goal with |- (if ?c then _ else _) = _ => destruct c end; reflexivity. }
  rewrite NA, M1, M2, V.
  assert (G : Forall (fun g => gap_type g = GapFrequency \/ gap_type g = GapCoherence) (@IdentifyGaps R RNum (mkTP 0 100000000 1 coh [] (5 / 10)) flockGoal)).
  { unfold IdentifyGaps. cbv zeta. cbn [flockGoal tp_phase tp_freq tp_coh]. rops. assert (Z : RPD 0 0 = 0) by (apply RPD_0_iff, cong_refl). rewrite Z, Rabs_R0. rewrite (Rlt_bool_false (1 / 10) 0) by lra. cbn [app]. apply Forall_app. split; [destruct (_ && _)%bool; [|constructor]|]; destruct (Rlt_bool _ _); constructor; auto. }
  destruct (no_phase_gap (mkEngine (ev_tmpl e (en_templates defaultEngine)) (en_threshold defaultEngine)) (mkTP 0 100000000 1 coh [] (5 / 10)) _ G) as (cp & E & _). rewrite E.
  eexists. split; [reflexivity|]. split; [exact M2|]. exists cp, var. split; [exact V1|]. split; [reflexivity|]. cbn [ss_agents]. rewrite ?HV. reflexivity.
Qed.
Theorem C88_breaks_refuted : forall e, (2 <= ev_fuel e)%nat -> (forall k l, ev_view e k l = l) ->
  exists s s', aligns (@For R RNum SaveEnergy) e (ss_agents s) /\ @round R RNum (For SaveEnergy) flockGoal e s = Some (s', false) /\
    75 / 100 <= @swarmCoherence R RNum (ss_agents s) /\ @swarmCoherence R RNum (ss_agents s') <= 30 / 100.
Proof.
  intros e Hf HV. destruct (flock_round e Hf HV) as (s' & R1 & _ & cp & var & V1 & V & A). exists flockState, s'. change (ss_agents flockState) with flock. split; [|split; [exact R1|split; [apply flock_coh|]]].
  - exists var. cbn [seen]. rewrite !HV. split; [exact V|]. pose proof flock_coh. split; cbn -[swarmCoherence flock]; lra.
  - rewrite A. pose proof (flock_broken cp var (ev_draw e) V1). lra.
Qed.
(** The hypotheses are met: the nine agents make a series of one aligning round. *)
Definition stillEnv : Env R := mkEnv 0 (fun _ l => l) (fun l => l) (fun _ => 0%Z) (fun _ _ => 0%Z) (fun _ => []) (fun _ => 0%Z) 4.
Example series_exists : exists s', alignRounds (@For R RNum SaveEnergy) flockGoal [stillEnv] flockState s' /\ 4 / 10 <= tp_coh flockGoal /\ Forall (fun a => 0 <= phaseOf a < 2 * PI) (ss_agents flockState).
Proof.
  destruct (flock_round stillEnv ltac:(cbn; lia) ltac:(reflexivity)) as (s' & R1 & ST & cp & var & V1 & V & _). exists s'. split; [|split; [cbn; lra|exact flock_turn]]. econstructor; [| |exact R1|exact ST|constructor].
  - split; [cbn; lia|]. intros k l. reflexivity.
  - exists var. split; [exact V|]. pose proof flock_coh. split; cbn -[swarmCoherence flock]; lra.
Qed.
(** The condition for which C88_together_refuted is stated: agents together opposite to the target. *)
Example together_exists : exists var, @MeasurePhaseVariance R RNum 4 [stateAt PI 1; stateAt PI 1] = Some var /\ Forall (fun a => phaseOf a = PI) [stateAt PI 1; stateAt PI 1].
Proof.
  pose proof PI_RGT_0. destruct (C31_variance_nonneg_and_zero 4 [stateAt PI 1; stateAt PI 1] ltac:(lia) ltac:(discriminate)) as (v & E & _); [repeat constructor; cbn; lra|]. exists v. split; [exact E|repeat constructor].
Qed.
Print Assumptions C88_shrinks.
Print Assumptions C88_lasts.
Print Assumptions C88_when.
Print Assumptions C88_breaks_refuted.
Print Assumptions C88_together_refuted.
