(** C94: a swarm that stands at the goal is recognised at the first look, unless it is too coherent for the goal. *)
From Coq Require Import ZArith Reals Psatz Bool List Lia Permutation.
From Flocq Require Import Core.Core IEEE754.BinarySingleNaN.
From Verif Require Import Num GoBase F64 RealNum M_Core M_Limits M_Agent M_GoalConfig M_ConvMonitor M_Engine M_Sync S_Circle S_Agent S_Sync S_Acc S_Loop L_F64 L_F64x L_Ford L_Circle L_PhaseF L_Coherence L_Acc L_AccRes L_TrigZero L_Dist P_Sync P_Converge P_Accuracy P_AccuracySwarm P_AccuracyCtx P_AccuracyPattern P_Loop.
From Verif Require P_Periods P_Strategies.
Import ListNotations.
Open Scope R_scope.

(** Nearly the same direction is nearly the same arc away. *)
Lemma arc_lip t a b da db (j : Z) del : is_arc t a da -> is_arc t b db -> Rabs (a - b - IZR j * (2 * PI)) <= del -> Rabs (da - db) <= del.
Proof.
  intros HA HB H. destruct (cong_rep_pi (t - a)) as (r & Br & C). assert (Br' : - PI <= r <= PI) by lra.
  rewrite (is_arc_unique _ _ _ _ HA (is_arc_of_rep _ _ _ Br' C)). destruct C as [k K].
  apply (L_Acc.arc_near t b db r del (- k - j)%Z HB); [now apply Rabs_le|]. rewrite minus_IZR, opp_IZR.
  replace (r - (t - b) - (- IZR k - IZR j) * (2 * PI)) with (- (a - b - IZR j * (2 * PI))) by lra. now rewrite Rabs_Ropp.
Qed.

(** A population the library measures: not empty, with phases in one turn. *)
Definition measurable (p : list (Agent F)) : Prop := p <> [] /\ (Z.of_nat (length p) <= 2 ^ 40)%Z /\ Forall (fun a => in_turn (phaseOf a)) p.
Definition size (p : list (Agent F)) : R := IZR (Z.of_nat (length p)).
(** A target the library aims at. *)
Definition aim (t : TargetPattern F) : Prop := in_turn (tp_phase t) /\ (0 < tp_freq t <= 2 ^ 53)%Z /\ in_unit (tp_coh t).
(** The periods have the mean [f], cut to whole nanoseconds. *)
Definition meanPeriodIs (p : list (Agent F)) (f : Z) : Prop :=
  (0 <= fold_right Z.add 0 (map freqOf p) < 2 ^ 63)%Z /\ (0 <= f <= 2 ^ 53)%Z /\ f = (fold_right Z.add 0 (map freqOf p) / Z.of_nat (length p))%Z.

Section Arrived.
Variables (tr : Trig) (e : R).
Hypothesis HS : trig_sane tr.
Hypothesis HA : trig_acc tr e.
Hypothesis He : 0 <= e <= 1 / 16.
Local Notation NF := (FNum tr).

Lemma meas_len p : measurable p -> 1 <= size p <= 1099511627776 /\ 0 < size p.
Proof. intros (A & B & _). unfold size. assert (1 <= IZR (Z.of_nat (length p))) by (apply (IZR_le 1); destruct p; [contradiction|cbn [length]; lia]). assert (IZR (Z.of_nat (length p)) <= 1099511627776) by (apply (IZR_le _ (2 ^ 40)); exact B). lra. Qed.

(** The float mean direction of a population that faces [m] with the strength [rho]. *)
Lemma mean_acc p m rho : measurable p -> faces (exactly p) m rho -> let E := e + (size p + 1) / 2 ^ 52 in 4 * E <= rho ->
  is_finite (@meanPhase F NF p) = true /\ Rabs (B2R (@meanPhase F NF p)) <= B2R (fhalfpi 2) /\
  exists j, Rabs (B2R (@meanPhase F NF p) - m - IZR j * (2 * PI)) <= 4 * E / rho + 4 * e.
Proof using HS HA He.
  intros Hp Hf E HE. destruct (meas_len p Hp) as [[N1 N2] N0]. destruct Hp as (Hne & Hn & Ha). rewrite Forall_forall in Ha.
  destruct Hf as (_ & Hrho & HC & HSn). unfold P_AccuracySwarm.exactly in HC, HSn. rewrite map_length in HC, HSn. fold (size p) in HC, HSn.
  rewrite fold_rs, rsum_map in HC. rewrite fold_rs, rsum_map in HSn. set (n := size p) in *.
  assert (V52 : / 2 ^ 52 = 2 * u53) by (rewrite pow_Z; unfold u53; cbn; lra). assert (EE : E = e + (2 * n + 2) * u53) by (unfold E, Rdiv; rewrite V52; ring).
  assert (HT : forall x, In x (map phaseOf p) -> is_finite x = true /\ Rabs (B2R x) <= 2 ^ 29).
  { intros x Hx. apply in_map_iff in Hx as (a & <- & Hin). destruct (P_AccuracySwarm.turn_R _ (Ha a Hin)) as [A B]. unfold turn in A. split; [apply (Ha a Hin)|]. rewrite Rabs_pos_eq by lra. simpl. lra. }
  destruct (resultant_acc (tcos tr) (tsin tr) (fun p => cos (B2R p)) (fun p => sin (B2R p)) e (map phaseOf p)) as (_ & [Fc Ec] & [Fs Es]); try lra.
  { intros Q. apply map_eq_nil in Q. contradiction. }
  { rewrite map_length. lia. }
  { intros x Hx. destruct (HT x Hx) as [Fx Bx]. destruct (sane_cos tr HS x Fx) as [A B]. split; [exact A|]. split; [exact B|]. now apply (acc_cos tr e HA). }
  { intros x Hx. destruct (HT x Hx) as [Fx Bx]. destruct (sane_sin tr HS x Fx) as [A B]. split; [exact A|]. split; [exact B|]. now apply (acc_sin tr e HA). }
  cbv zeta in *. rewrite (fold_sum_map cos), map_map in Ec. rewrite (fold_sum_map sin), map_map in Es. rewrite map_length in *. change (IZR (Z.of_nat (length p))) with n in Ec, Es. rewrite <- EE in Ec, Es.
  rewrite rsum_map in Ec, Es. rewrite HC in Ec. rewrite HSn in Es.
  replace (n * rho * cos m / n) with (rho * cos m) in Ec by (field; lra). replace (n * rho * sin m / n) with (rho * sin m) in Es by (field; lra).
  set (fc := fdiv (fold_left (fun s x => fadd s (tcos tr x)) (map phaseOf p) (fofZ 0)) (fofZ (Z.of_nat (length p)))) in *.
  set (fs := fdiv (fold_left (fun s x => fadd s (tsin tr x)) (map phaseOf p) (fofZ 0)) (fofZ (Z.of_nat (length p)))) in *.
  destruct (dir_acc (B2R fs) (B2R fc) rho m E Hrho HE Es Ec) as (NZ & t1 & Bt1 & Ct1).
  destruct (acc_atan2 tr e HA fs fc Fs Fc NZ) as (t & Ct & Bt & Et). destruct (sane_atan2 tr HS fs fc Fs Fc) as [Fmn Bmn].
  assert (EMn : @meanPhase F (FNum tr) p = tatan2 tr fs fc).
  { unfold meanPhase, fs, fc. assert (FM : forall (f : F -> F) l acc, fold_left (fun s x => fadd s (f x)) (map (@phaseOf F) l) acc = fold_left (fun s a => fadd s (f (phaseOf a))) l acc) by (intros f l; induction l as [|b l IH]; intros acc; [reflexivity|apply IH]).
    rewrite !FM. reflexivity. }
  rewrite EMn. split; [exact Fmn|]. split; [exact Bmn|]. destruct (cong_trans _ _ _ Ct Ct1) as [j Hj]. exists j. set (mn := tatan2 tr fs fc) in *.
  replace (B2R mn - m - IZR j * (2 * PI)) with ((B2R mn - t) + t1) by lra. eapply Rle_trans; [apply Rabs_triang|]. lra.
Qed.
(** The float coherence. *)
Lemma coh_acc p rho m : measurable p -> faces (exactly p) m rho -> let z := @swarmCoherence F NF p in
  is_finite z = true /\ 0 <= B2R z /\ Rabs (B2R z - rho) <= 2 * e + (size p + 5) / 2 ^ 51.
Proof using HS HA He.
  intros (Hne & Hn & Ha) Hf z. destruct (C03_float_accuracy tr e (map phaseOf p) HS HA (proj1 He)) as (A & B & C); [destruct p; [contradiction|discriminate]|rewrite map_length; lia|now apply turn_29|].
  rewrite map_length, map_map in C. rewrite <- (faces_rmc _ _ _ Hf). auto.
Qed.
Lemma faces_le1 p m rho : faces p m rho -> rho <= 1.
Proof. intros Hf. rewrite <- (faces_rmc _ _ _ Hf). apply RMC_bounds. Qed.

(** What the library measures is the distance to the target in exact arithmetic, up to this error. *)
Definition slack (p p' : list (Agent F)) (rho : R) : R := 3 * e + (e + (size p + 1) / 2 ^ 52) / rho + (size p' + 5) / 2 ^ 51 + 1 / 10 ^ 9.
Theorem C94_distance : forall p p' m m' rho rho' f arc t, measurable p -> measurable p' -> aim t ->
  faces (exactly p) m rho -> faces (exactly p') m' rho' -> meanPeriodIs p f -> 4 * (e + (size p + 1) / 2 ^ 52) <= rho -> is_arc (B2R (tp_phase t)) m arc ->
  let z := @PatternDistance F NF (Some (@measureSystemPattern F NF p p')) (Some t) in
  is_finite z = true /\ Rabs (B2R z - exactDistance arc f (tp_freq t) rho' (B2R (tp_coh t))) <= slack p p' rho.
Proof using HS HA He.
  intros p p' m m' rho rho' f arc t Hp Hp' (T1 & T2 & T3 & T4) Hf Hf' (S1 & S2 & S3) HE Harc z.
  destruct (mean_acc p m rho Hp Hf HE) as (M1 & M2 & j & M3). destruct (coh_acc p' rho' m' Hp' Hf') as (C1 & C2 & C3).
  pose proof (faces_le1 _ _ _ Hf') as R1. destruct (meas_len p' Hp') as [[N1 N2] N0]. destruct (meas_len p Hp) as [[N1' N2'] N0'].
  set (c := @measureSystemPattern F NF p p') in *.
  assert (Ec : tp_phase c = @meanPhase F NF p /\ tp_coh c = @swarmCoherence F NF p').
  { unfold c, measureSystemPattern. destruct Hp as [Hp _]. destruct p; [contradiction|]. split; reflexivity. }
  destruct Ec as [Ec1 Ec2].
  assert (Ef : tp_freq c = f).
  { unfold c. rewrite P_Periods.measured_freq by apply Hp. change (P_Periods.total (map freqOf p)) with (fold_right Z.add 0%Z (map freqOf p)). rewrite P_Periods.wrap_in by (unfold P_Periods.in64; lia).
    rewrite Z.quot_div_nonneg; [now rewrite S3|lia|]. destruct Hp as [Hp _]. destruct p; [contradiction|cbn [length]; lia]. }
  destruct (P_AccuracySwarm.turn_R _ T1) as [T1a T1b]. unfold turn in T1a. destruct T1 as [T1 _]. pose proof PI_bounds as PB. pose proof fpi_near as PN. unfold fpi in PN.
  assert (B28 : forall x, Rabs x <= 7 -> Rabs x <= 2 ^ 28) by (intros x Hx; assert (2 ^ 3 <= 2 ^ 28) by (apply Rle_pow; [lra|lia]); lra).
  assert (Bt : Rabs (B2R (tp_phase t)) <= 7) by (rewrite Rabs_pos_eq; lra). assert (Bm : Rabs (B2R (@meanPhase F NF p)) <= 4) by lra.
  destruct (is_arc_exists (B2R (tp_phase t)) (B2R (@meanPhase F NF p))) as [d Hd].
  assert (Bm7 : Rabs (B2R (@meanPhase F NF p)) <= 7) by lra. assert (E4 : 0 <= e <= 1 / 4) by lra.
  destruct (C02_float_magnitude tr e HS HA E4 _ _ d T1 M1 (B28 _ Bt) (B28 _ Bm7) Hd) as [G1 G2].
  pose proof (arc_lip _ _ _ _ _ j _ Hd Harc M3) as L.
  assert (V51 : (size p' + 5) / 2 ^ 51 <= 1 / 100) by (replace (2 ^ 51) with 2251799813685248 by (rewrite pow_Z; reflexivity); lra).
  destruct (distance_gen tr HS c t) as (_ & D2 & D3).
  { rewrite Ec1. apply bnd60; [exact M1|apply B28; lra]. }
  { apply bnd60; [exact T1|now apply B28]. }
  { rewrite Ef. lia. }
  { exact T2. }
  { now rewrite Ec2. }
  { exact T3. }
  { rewrite Ec2. apply Rabs_le_inv in C3. lra. }
  { exact T4. }
  fold z in D2, D3. split; [exact D2|]. rewrite Ec1, Ec2, Ef in D3.
  set (q := arcErr e _ _) in *. pose proof (share_near _ d q (Rabs_pos _) (is_arc_bounds _ _ _ Hd) G2) as SN.
  assert (Q : q <= 8 * e + 6 / 10 ^ 10).
  { unfold q, arcErr. replace (2 ^ 52) with 4503599627370496 by (rewrite pow_Z; reflexivity). lra. }
  set (x := Rabs (B2R (PhaseDifference _ _)) / _) in *. set (zc := B2R (swarmCoherence p')) in *. clearbody x zc q.
  unfold exactDistance, slack. set (E := e + (size p + 1) / 2 ^ 52) in *. set (V := Rmin _ 1) in *.
  assert (AP : Rabs (d / PI - arc / PI) <= (4 * E / rho + 4 * e) / 3).
  { replace (d / PI - arc / PI) with ((d - arc) * / PI) by (field; lra). rewrite Rabs_mult. assert (IP : 0 < / PI <= / 3) by (split; [apply Rinv_0_lt_compat|apply Rinv_le_contravar]; lra). rewrite (Rabs_pos_eq (/ PI)) by lra.
    unfold Rdiv at 2. apply Rmult_le_compat; try lra. apply Rabs_pos. }
  assert (CC : Rabs (Rabs (B2R (tp_coh t) - zc) - Rabs (B2R (tp_coh t) - rho')) <= 2 * e + (size p' + 5) / 2 ^ 51).
  { eapply Rle_trans; [apply Rabs_triang_inv2|]. replace (B2R (tp_coh t) - zc - (B2R (tp_coh t) - rho')) with (- (zc - rho')) by ring. now rewrite Rabs_Ropp. }
  replace (4 * E / rho) with (4 * (E / rho)) in AP by (unfold Rdiv; ring). assert (ER : 0 <= E / rho).
  { apply Rmult_le_pos; [unfold E; assert (0 <= (size p + 1) / 2 ^ 52) by (apply Rmult_le_pos; [lra|left; apply Rinv_0_lt_compat, pow_lt; lra]); lra|left; apply Rinv_0_lt_compat; apply Hf]. }
  apply Rabs_le_inv in AP. apply Rabs_le_inv in CC. apply Rabs_le_inv in D3. apply Rabs_le_inv in SN. apply Rabs_le. 
  set (w := (size p' + 5) / 2 ^ 51) in *. assert (0 <= w) by (apply Rmult_le_pos; [lra|left; apply Rinv_0_lt_compat, pow_lt; lra]). clearbody w V E.
  set (u := E / rho) in *. clearbody u. lra.
Qed.

(** The mean arc between the agents and the target's phase. *)
Definition meanArc (p : list (Agent F)) (t : TargetPattern F) (A : R) : Prop :=
  exists ds, Forall2 (fun a d => is_arc (B2R (phaseOf a)) (B2R (tp_phase t)) d) p ds /\ A = total ds / size p.
Lemma arcs_unique l x ds ds' : Forall2 (fun (a : Agent F) d => is_arc (B2R (phaseOf a)) x d) l ds -> Forall2 (fun a d => is_arc (B2R (phaseOf a)) x d) l ds' -> ds = ds'.
Proof. intros H. revert ds'. induction H as [|a d l ds Hd H IH]; intros ds' H'; inversion H'; subst; [reflexivity|]. f_equal; [eapply is_arc_unique; eassumption|now apply IH]. Qed.
Lemma conv_acc q t A : measurable q -> in_turn (tp_phase t) -> meanArc q t A ->
  let z := @MeasurePhaseConvergence F NF q (tp_phase t) in is_finite z = true /\ Rabs (B2R z - (1 - A / PI)) <= (size q + 8) / 2 ^ 50.
Proof using.
  intros Hq Ht (ds & HD & EA) z. destruct (meas_len q Hq) as [[N1 N2] N0]. destruct Hq as (Q1 & Q2 & Q3).
  assert (Q50 : (Z.of_nat (length q) <= 2 ^ 50)%Z) by (eapply Z.le_trans; [exact Q2|discriminate]).
  destruct (C31_float_accuracy tr q (tp_phase t) Q1 Ht Q3 Q50) as (ds' & HD' & A1 & A2). rewrite <- (arcs_unique _ _ _ _ HD HD') in A2. split; [exact A1|]. fold z in A2. rewrite INR_IZR_INZ in A2. fold (size q) in A2.
  rewrite EA. pose proof PI_RGT_0. replace (total ds / size q / PI) with (total ds / (size q * PI)) by (field; lra). exact A2.
Qed.
Definition toleranceOf (cfg : GCfg F) (q : list (Agent F)) (t : TargetPattern F) : F := @tolerance F NF cfg (Z.of_nat (length q)) t.
Lemma under_acc (ct tol : F) : in_unit ct -> is_finite tol = true -> 0 <= B2R tol <= 2 -> is_finite (fsub ct tol) = true /\ Rabs (B2R (fsub ct tol) - (B2R ct - B2R tol)) <= 4 / 2 ^ 51.
Proof using.
  intros [A B] C D. pose proof big1023 as BG. assert (P5 : 2 ^ 10 <= 2 ^ 500) by (apply Rle_pow; [lra|lia]).
  destruct (fsub_fin ct tol A C) as [G1 G2]; [apply Rabs_le; lra|]. split; [exact G1|]. rewrite G2. pose proof (rnd_abs (B2R ct - B2R tol)) as R. pose proof u_pos. pose proof tiny_le_u.
  assert (u53 * Rabs (B2R ct - B2R tol) <= u53 * 2) by (apply Rmult_le_compat_l; [lra|apply Rabs_le; lra]).
  replace (4 / 2 ^ 51) with (16 * u53) by (replace (2 ^ 51) with 2251799813685248 by (rewrite pow_Z; reflexivity); unfold u53; field). assert (u53 * u53 <= u53 * 1) by (apply Rmult_le_compat_l; lra). lra.
Qed.
(** The test passes when its exact counterparts hold with room for the errors ... *)
Theorem C94_accepts : forall (cfg : GCfg F) p p' q m m' rho rho' f arc A t, measurable p -> measurable p' -> measurable q -> aim t ->
  faces (exactly p) m rho -> faces (exactly p') m' rho' -> meanPeriodIs p f -> 4 * (e + (size p + 1) / 2 ^ 52) <= rho -> is_arc (B2R (tp_phase t)) m arc -> meanArc q t A ->
  is_finite (toleranceOf cfg q t) = true -> 0 <= B2R (toleranceOf cfg q t) <= 2 -> is_finite (gv_dist (g_conv cfg)) = true -> is_finite (gv_goal (g_conv cfg)) = true ->
  exactDistance arc f (tp_freq t) rho' (B2R (tp_coh t)) + slack p p' rho < B2R (gv_dist (g_conv cfg)) ->
  B2R (tp_coh t) - B2R (toleranceOf cfg q t) + (2 * e + (size p' + 9) / 2 ^ 51) <= rho' ->
  B2R (gv_goal (g_conv cfg)) + (size q + 8) / 2 ^ 50 <= 1 - A / PI ->
  @isPatternAchieved F NF cfg t q (@measureSystemPattern F NF p p') = true.
Proof using HS HA He.
  intros cfg p p' q m m' rho rho' f arc A t Hp Hp' Hq Ht Hf Hf' Hpe HE Harc HAq Tf Tb Df Gf H1 H2 H3.
  destruct (C94_distance p p' m m' rho rho' f arc t Hp Hp' Ht Hf Hf' Hpe HE Harc) as [D1 D2].
  destruct (coh_acc p' rho' m' Hp' Hf') as (C1 & C2 & C3). destruct (conv_acc q t A Hq (proj1 Ht) HAq) as [V1 V2]. destruct (under_acc (tp_coh t) _ (proj2 (proj2 Ht)) Tf Tb) as [U1 U2].
  unfold isPatternAchieved. cbv zeta. change (@nle F NF) with fle. change (@nlt F NF) with flt. change (@nsub F NF) with fsub. fold (toleranceOf cfg q t).
  assert (Ec : tp_coh (@measureSystemPattern F NF p p') = @swarmCoherence F NF p').
  { unfold measureSystemPattern. destruct Hp as [Hp _]. destruct p; [contradiction|]. reflexivity. }
  rewrite Ec. replace ((size p' + 9) / 2 ^ 51) with ((size p' + 5) / 2 ^ 51 + 4 / 2 ^ 51) in H2 by (field; apply pow_nonzero; lra).
  assert (K1 : fle (fsub (tp_coh t) (toleranceOf cfg q t)) (@swarmCoherence F NF p') = true).
  { apply fle_true. split; [now apply fin_nan|]. split; [now apply fin_nan|]. rewrite !ford_fin by assumption. apply Rabs_le_inv in U2. apply Rabs_le_inv in C3. lra. }
  assert (K2 : flt (@PatternDistance F NF (Some (@measureSystemPattern F NF p p')) (Some t)) (gv_dist (g_conv cfg)) = true).
  { apply flt_true. split; [now apply fin_nan|]. split; [now apply fin_nan|]. rewrite !ford_fin by assumption. apply Rabs_le_inv in D2. lra. }
  assert (K3 : fle (gv_goal (g_conv cfg)) (@MeasurePhaseConvergence F NF q (tp_phase t)) = true).
  { apply fle_true. split; [now apply fin_nan|]. split; [now apply fin_nan|]. rewrite !ford_fin by assumption. apply Rabs_le_inv in V2. lra. }
  rewrite K1, K2, K3. now destruct (fle (gt_high _) _).
Qed.
(** ... and fails when one of them is missed by more than the errors. *)
Theorem C94_rejects : forall (cfg : GCfg F) p p' q m m' rho rho' f arc A t, measurable p -> measurable p' -> measurable q -> aim t ->
  faces (exactly p) m rho -> faces (exactly p') m' rho' -> meanPeriodIs p f -> 4 * (e + (size p + 1) / 2 ^ 52) <= rho -> is_arc (B2R (tp_phase t)) m arc -> meanArc q t A ->
  is_finite (toleranceOf cfg q t) = true -> 0 <= B2R (toleranceOf cfg q t) <= 2 -> is_finite (gv_dist (g_conv cfg)) = true -> is_finite (gv_goal (g_conv cfg)) = true ->
  B2R (gv_dist (g_conv cfg)) <= exactDistance arc f (tp_freq t) rho' (B2R (tp_coh t)) - slack p p' rho \/
  rho' < B2R (tp_coh t) - B2R (toleranceOf cfg q t) - (2 * e + (size p' + 9) / 2 ^ 51) \/
  fle (gt_high (g_thr cfg)) (tp_coh t) = true /\ 1 - A / PI < B2R (gv_goal (g_conv cfg)) - (size q + 8) / 2 ^ 50 ->
  @isPatternAchieved F NF cfg t q (@measureSystemPattern F NF p p') = false.
Proof using HS HA He.
  intros cfg p p' q m m' rho rho' f arc A t Hp Hp' Hq Ht Hf Hf' Hpe HE Harc HAq Tf Tb Df Gf H.
  destruct (C94_distance p p' m m' rho rho' f arc t Hp Hp' Ht Hf Hf' Hpe HE Harc) as [D1 D2].
  destruct (coh_acc p' rho' m' Hp' Hf') as (C1 & C2 & C3). destruct (conv_acc q t A Hq (proj1 Ht) HAq) as [V1 V2]. destruct (under_acc (tp_coh t) _ (proj2 (proj2 Ht)) Tf Tb) as [U1 U2].
  unfold isPatternAchieved. cbv zeta. change (@nle F NF) with fle. change (@nlt F NF) with flt. change (@nsub F NF) with fsub. fold (toleranceOf cfg q t).
  assert (Ec : tp_coh (@measureSystemPattern F NF p p') = @swarmCoherence F NF p').
  { unfold measureSystemPattern. destruct Hp as [Hp _]. destruct p; [contradiction|]. reflexivity. }
  rewrite Ec. replace ((size p' + 9) / 2 ^ 51) with ((size p' + 5) / 2 ^ 51 + 4 / 2 ^ 51) in H by (field; apply pow_nonzero; lra).
  destruct H as [H|[H|[HH H]]].
  - assert (K2 : flt (@PatternDistance F NF (Some (@measureSystemPattern F NF p p')) (Some t)) (gv_dist (g_conv cfg)) = false).
    { apply not_true_is_false. intros K. apply flt_true in K as (_ & _ & K). rewrite !ford_fin in K by assumption. apply Rabs_le_inv in D2. lra. }
    rewrite K2, andb_false_r. now destruct (fle (gt_high _) _).
  - assert (K1 : fle (fsub (tp_coh t) (toleranceOf cfg q t)) (@swarmCoherence F NF p') = false).
    { apply not_true_is_false. intros K. apply fle_true in K as (_ & _ & K). rewrite !ford_fin in K by assumption. apply Rabs_le_inv in U2. apply Rabs_le_inv in C3. lra. }
    rewrite K1. now destruct (fle (gt_high _) _).
  - assert (K3 : fle (gv_goal (g_conv cfg)) (@MeasurePhaseConvergence F NF q (tp_phase t)) = false).
    { apply not_true_is_false. intros K. apply fle_true in K as (_ & _ & K). rewrite !ford_fin in K by assumption. apply Rabs_le_inv in V2. lra. }
    rewrite HH, K3. apply andb_false_r.
Qed.

(** ** Standing at the goal *)
Definition arrived (t : TargetPattern F) (p : list (Agent F)) : Prop := Forall (fun a => phaseOf a = tp_phase t /\ freqOf a = tp_freq t) p.
Lemma arrived_perm t p q : Permutation q p -> arrived t p -> arrived t q.
Proof. intros P H. unfold arrived in *. rewrite Forall_forall in *. intros a Ha. apply H. eapply Permutation_in; eassumption. Qed.
Definition crowd (t : TargetPattern F) (p : list (Agent F)) : Prop := p <> [] /\ (Z.of_nat (length p) <= 2 ^ 40)%Z /\ (Z.of_nat (length p) * tp_freq t < 2 ^ 63)%Z /\ arrived t p.
Lemma crowd_perm t p q : Permutation q p -> crowd t p -> crowd t q.
Proof. intros P (A & B & C & D). pose proof (Permutation_length P) as L. unfold crowd. rewrite L. split; [intros ->; destruct p; [contradiction|discriminate]|]. split; [exact B|]. split; [exact C|]. now apply (arrived_perm _ p). Qed.
Lemma crowd_measurable t p : in_turn (tp_phase t) -> crowd t p -> measurable p.
Proof. intros Ht (A & B & _ & D). split; [exact A|]. split; [exact B|]. eapply Forall_impl; [|exact D]. intros a [E _]. now rewrite E. Qed.
Lemma crowd_faces t p : crowd t p -> faces (exactly p) (B2R (tp_phase t)) 1.
Proof.
  intros (A & _ & _ & D). split; [destruct p; [contradiction|discriminate]|]. split; [lra|]. unfold P_AccuracySwarm.exactly. rewrite map_length, !fold_rs, !rsum_map, Rmult_1_r.
  clear A. assert (G : forall g : R -> R, rsum (fun a : Agent F => g (B2R (phaseOf a))) p = IZR (Z.of_nat (length p)) * g (B2R (tp_phase t))).
  { intros g. induction D as [|a l [E _] D IH]; [cbn; lra|]. cbn [rsum length]. rewrite IH, E, Nat2Z.inj_succ, succ_IZR. lra. }
  split; apply G.
Qed.
Lemma crowd_period t p : (0 < tp_freq t <= 2 ^ 53)%Z -> crowd t p -> meanPeriodIs p (tp_freq t).
Proof.
  intros Ht (A & _ & C & D). unfold meanPeriodIs. assert (G : fold_right Z.add 0%Z (map freqOf p) = (Z.of_nat (length p) * tp_freq t)%Z).
  { clear A C. induction D as [|a l [_ E] D IH]; [reflexivity|]. cbn [map fold_right length]. rewrite IH, E, Nat2Z.inj_succ. lia. }
  assert (L : (0 < Z.of_nat (length p))%Z) by (destruct p; [contradiction|cbn [length]; lia]).
  rewrite G. split; [nia|]. split; [lia|]. rewrite Z.mul_comm, Z.div_mul by lia. reflexivity.
Qed.
Lemma crowd_arc t p : crowd t p -> meanArc p t 0.
Proof.
  intros (A & _ & _ & D). exists (repeat 0 (length p)). split.
  - clear A. induction D as [|a l [E _] D IH]; [constructor|]. cbn [length repeat]. constructor; [|exact IH]. rewrite E. apply is_arc_0. exists 0%Z. lra.
  - replace (total (repeat 0 (length p))) with 0; [unfold Rdiv; ring|]. clear. induction p as [|a l IH]; [reflexivity|]. cbn [length repeat total fold_right]. unfold total in IH. lra.
Qed.
Lemma same_distance c f : (0 < f)%Z -> 0 <= c <= 1 -> exactDistance 0 f f 1 c = 3 / 10 * (1 - c).
Proof.
  intros Hf Hc. unfold exactDistance. rewrite Rminus_diag_eq, Rabs_R0 by reflexivity. pose proof PI_RGT_0. assert (0 < IZR f) by now apply (IZR_lt 0).
  replace (0 / IZR f) with 0 by (unfold Rdiv; ring). rewrite Rmin_left by lra. rewrite <- Rabs_Ropp, Rabs_pos_eq by lra. field. lra.
Qed.
(** The errors for a crowd. *)
Definition crowdSlack (n : R) : R := 4 * e + (3 * n + 12) / 2 ^ 52 + 1 / 10 ^ 9.
Lemma crowd_slack p p' : size p' = size p -> slack p p' 1 <= crowdSlack (size p).
Proof. intros E. unfold slack, crowdSlack. rewrite E. replace (2 ^ 51) with (2251799813685248) by (rewrite pow_Z; reflexivity). replace (2 ^ 52) with 4503599627370496 by (rewrite pow_Z; reflexivity). lra. Qed.
End Arrived.

(** ** Runs *)
Section Runs.
Variables (tr : Trig) (e : R).
Hypothesis HS : trig_sane tr.
Hypothesis HA : trig_acc tr e.
Hypothesis He : 0 <= e <= 1 / 16.
Local Notation NF := (FNum tr).

Lemma tol_ok (cfg : GCfg F) q t lo : 0 <= lo -> in_unit (gv_tolS (g_conv cfg)) -> in_unit (gv_tolM (g_conv cfg)) -> in_unit (gv_tolL (g_conv cfg)) ->
  lo <= B2R (gv_tolS (g_conv cfg)) -> lo <= B2R (gv_tolM (g_conv cfg)) -> lo <= B2R (gv_tolL (g_conv cfg)) ->
  is_finite (toleranceOf tr cfg q t) = true /\ lo <= B2R (toleranceOf tr cfg q t) <= 2.
Proof using.
  intros L0 US UM UL LS LM LL. unfold toleranceOf, tolerance. cbv zeta. set (b := if (_ <? 10)%Z then _ else _).
  assert (B : in_unit b /\ lo <= B2R b) by (unfold b; destruct (_ <? _)%Z; [auto|]; destruct (_ <? _)%Z; auto). clearbody b. destruct B as [[B1 B2] B3].
  destruct (nle _ _); [|split; [exact B1|lra]]. change (@nmul F NF) with fmul. change (@nofZ F NF) with fofZ. destruct (fofZ_fin 2 ltac:(lia)) as [F2 V2].
  pose proof big1023 as BG. assert (P5 : 2 ^ 10 <= 2 ^ 500) by (apply Rle_pow; [lra|lia]).
  destruct (fmul_fin b (fofZ 2) B1 F2) as [Fm Vm]; [rewrite V2; apply Rabs_le; lra|]. split; [exact Fm|]. rewrite Vm, V2. split.
  - apply Rle_trans with (B2R b); [exact B3|]. apply rnd_ge_fmt; [apply fmt_B2R|lra].
  - apply rnd_le_fmt; [apply (fmt_IZR 2); lia|lra].
Qed.

(** A swarm that stands at the goal is done after one look, when the goal asks for enough coherence: [c] is the coherence asked
    for, cut to what the library holds possible for the size. *)
Theorem C94_arrived : forall (cfg : GCfg F) target (en : Env F) evs (s : SyncState F), (forall k l, Permutation (ev_view en k l) l) ->
  let n := Z.of_nat (length (ss_agents s)) in let t := @adjustTarget F NF n target in let c := B2R (tp_coh t) in
  aim t -> crowd t (ss_agents s) -> (0 < gs_upd (g_str cfg))%Z -> (0 < budget tr cfg n (tp_coh t))%Z ->
  in_unit (gv_tolS (g_conv cfg)) -> in_unit (gv_tolM (g_conv cfg)) -> in_unit (gv_tolL (g_conv cfg)) -> in_unit (gv_dist (g_conv cfg)) -> in_unit (gv_goal (g_conv cfg)) ->
  (let lo := 2 * e + (IZR n + 9) / 2 ^ 51 in lo <= B2R (gv_tolS (g_conv cfg)) /\ lo <= B2R (gv_tolM (g_conv cfg)) /\ lo <= B2R (gv_tolL (g_conv cfg))) ->
  B2R (gv_goal (g_conv cfg)) + (IZR n + 8) / 2 ^ 50 <= 1 ->
  3 / 10 * (1 - c) + crowdSlack e (IZR n) < B2R (gv_dist (g_conv cfg)) ->
  exists s', AchieveSynchronization tr cfg target (Tick en :: evs) s = (SNil, 1%Z, s') /\ Permutation (ss_agents s') (ss_agents s).
Proof using HS HA He.
  intros cfg target en evs s HV n t c Ht Hc Hu Hb US UM UL UD UG [L1 [L2 L3]] HG HD.
  set (lo := 2 * e + (IZR n + 9) / 2 ^ 51) in *.
  assert (P0 : Permutation (ev_view en 0 (ss_agents s)) (ss_agents s)) by apply HV.
  set (p := ev_view en 0 (ss_agents s)) in *. assert (P1 : Permutation (ev_view en 1 p) (ss_agents s)) by (eapply Permutation_trans; [apply HV|exact P0]).
  set (p' := ev_view en 1 p) in *. assert (P2 : Permutation (ev_view en 2 p') (ss_agents s)) by (eapply Permutation_trans; [apply HV|exact P1]).
  set (p2 := ev_view en 2 p') in *. assert (P3 : Permutation (ev_view en 3 p2) (ss_agents s)) by (eapply Permutation_trans; [apply HV|exact P2]).
  set (q := ev_view en 3 p2) in *.
  pose proof (crowd_perm _ _ _ P0 Hc) as C0. pose proof (crowd_perm _ _ _ P1 Hc) as C1. pose proof (crowd_perm _ _ _ P3 Hc) as C3. destruct Ht as (T1 & T2 & T3).
  pose proof (crowd_measurable _ _ T1 C0) as M0. pose proof (crowd_measurable _ _ T1 C1) as M1. pose proof (crowd_measurable _ _ T1 C3) as M3.
  assert (Z0 : size p = IZR n) by (unfold size, n; now rewrite (Permutation_length P0)). assert (Z1 : size p' = IZR n) by (unfold size, n; now rewrite (Permutation_length P1)). assert (Z3 : size q = IZR n) by (unfold size, n; now rewrite (Permutation_length P3)).
  destruct (meas_len p M0) as [[N1 N2] N0]. rewrite Z0 in N1, N2, N0.
  assert (LO : 0 <= lo) by (unfold lo; assert (0 <= (IZR n + 9) / 2 ^ 51) by (apply Rmult_le_pos; [lra|left; apply Rinv_0_lt_compat, pow_lt; lra]); lra).
  destruct (tol_ok cfg q t lo LO US UM UL L1 L2 L3) as [TF TB].
  assert (ACC : @isPatternAchieved F NF cfg t q (@measureSystemPattern F NF p p') = true).
  { apply (C94_accepts tr e HS HA He cfg p p' q (B2R (tp_phase t)) (B2R (tp_phase t)) 1 1 (tp_freq t) 0 0 t); auto.
    - repeat split; try apply T1; try apply T2; apply T3.
    - now apply crowd_faces.
    - now apply crowd_faces.
    - now apply crowd_period.
    - rewrite Z0. replace (2 ^ 52) with 4503599627370496 by (rewrite pow_Z; reflexivity). lra.
    - apply is_arc_0. exists 0%Z. lra.
    - now apply crowd_arc.
    - lra.
    - apply UD.
    - apply UG.
    - rewrite same_distance; [|lia|apply T3]. pose proof (crowd_slack e p p' ltac:(lra)) as SL. rewrite Z0 in SL. fold c. lra.
    - rewrite Z1. fold lo. destruct T3 as [_ T3]. lra.
    - rewrite Z3. replace (1 - 0 / PI) with 1 by (unfold Rdiv; ring). exact HG. }
  unfold AchieveSynchronization. cbv zeta. fold n. fold t. rewrite (proj2 (Z.leb_gt (gs_upd (g_str cfg)) 0)) by exact Hu.
  cbn [syncLoop]. rewrite (proj2 (Z.ltb_lt 0 (budget tr cfg n (tp_coh t)))) by exact Hb.
  unfold round. cbv zeta. cbn [ss_agents setMonTarget]. fold p. fold p'. fold p2. fold q. rewrite ACC. eexists. split; [reflexivity|]. exact P3.
Qed.

(** REFUTED: the same swarm is turned down, at every look, when the goal asks for much less coherence than it has. *)
Theorem C94_too_coherent_refuted : forall (cfg : GCfg F) (t : TargetPattern F) (en : Env F) (s s' : SyncState F) b, (forall k l, Permutation (ev_view en k l) l) ->
  let n := Z.of_nat (length (ss_agents s)) in aim t -> crowd t (ss_agents s) ->
  in_unit (gv_tolS (g_conv cfg)) -> in_unit (gv_tolM (g_conv cfg)) -> in_unit (gv_tolL (g_conv cfg)) -> in_unit (gv_dist (g_conv cfg)) -> in_unit (gv_goal (g_conv cfg)) ->
  B2R (gv_dist (g_conv cfg)) <= 3 / 10 * (1 - B2R (tp_coh t)) - crowdSlack e (IZR n) ->
  @round F NF cfg t en s = Some (s', b) -> b = false.
Proof using HS HA He.
  intros cfg t en s s' b HV n Ht Hc US UM UL UD UG HD.
  assert (P0 : Permutation (ev_view en 0 (ss_agents s)) (ss_agents s)) by apply HV.
  set (p := ev_view en 0 (ss_agents s)) in *. assert (P1 : Permutation (ev_view en 1 p) (ss_agents s)) by (eapply Permutation_trans; [apply HV|exact P0]).
  set (p' := ev_view en 1 p) in *. assert (P2 : Permutation (ev_view en 2 p') (ss_agents s)) by (eapply Permutation_trans; [apply HV|exact P1]).
  set (p2 := ev_view en 2 p') in *. assert (P3 : Permutation (ev_view en 3 p2) (ss_agents s)) by (eapply Permutation_trans; [apply HV|exact P2]).
  set (q := ev_view en 3 p2) in *.
  pose proof (crowd_perm _ _ _ P0 Hc) as C0. pose proof (crowd_perm _ _ _ P1 Hc) as C1. pose proof (crowd_perm _ _ _ P3 Hc) as C3. destruct Ht as (T1 & T2 & T3).
  pose proof (crowd_measurable _ _ T1 C0) as M0. pose proof (crowd_measurable _ _ T1 C1) as M1. pose proof (crowd_measurable _ _ T1 C3) as M3.
  assert (Z0 : size p = IZR n) by (unfold size, n; now rewrite (Permutation_length P0)). assert (Z1 : size p' = IZR n) by (unfold size, n; now rewrite (Permutation_length P1)).
  destruct (meas_len p M0) as [[N1 N2] N0]. rewrite Z0 in N1, N2, N0.
  destruct (tol_ok cfg q t 0 ltac:(lra) US UM UL (proj1 (proj2 US)) (proj1 (proj2 UM)) (proj1 (proj2 UL))) as [TF TB].
  assert (REJ : @isPatternAchieved F NF cfg t q (@measureSystemPattern F NF p p') = false).
  { apply (C94_rejects tr e HS HA He cfg p p' q (B2R (tp_phase t)) (B2R (tp_phase t)) 1 1 (tp_freq t) 0 0 t); auto.
    - repeat split; try apply T1; try apply T2; apply T3.
    - now apply crowd_faces.
    - now apply crowd_faces.
    - now apply crowd_period.
    - rewrite Z0. replace (2 ^ 52) with 4503599627370496 by (rewrite pow_Z; reflexivity). lra.
    - apply is_arc_0. exists 0%Z. lra.
    - now apply crowd_arc.
    - apply UD.
    - apply UG.
    - left. rewrite same_distance; [|lia|apply T3]. pose proof (crowd_slack e p p' ltac:(lra)) as SL. rewrite Z0 in SL. lra. }
  unfold round. cbv zeta. fold p. fold p'. fold p2. fold q. rewrite REJ.
  destruct (if ShouldSwitchStrategy _ then _ else _) as [[pf cu]|]; [|discriminate]. destruct (CompletePattern _ _ _); [|discriminate]. destruct (MeasurePhaseVariance _ _); [|discriminate].
  destruct (if IsStuck _ then _ else _); [|discriminate]. now intros [= _ <-].
Qed.
End Runs.

(** ** The presets *)
(** The distance each preset accepts, and what is left of it for coherence. *)
Definition presetDist (g : Goal) : R :=
  match g with MinimizeAPICalls => 5 / 100 | DistributeLoad => 2 / 10 | ReachConsensus => 3 / 100 | MinimizeLatency => 15 / 100 | SaveEnergy => 2 / 10
             | MaintainRhythm => 8 / 100 | RecoverFromFailure => 18 / 100 | AdaptToTraffic => 25 / 100 | OtherGoal => 1 / 10 end.

Lemma preset_numbers tr g : let v := g_conv (@For F (FNum tr) g) in
  (in_unit (gv_tolS v) /\ in_unit (gv_tolM v) /\ in_unit (gv_tolL v) /\ in_unit (gv_dist v) /\ in_unit (gv_goal v)) /\
  (1 / 1000 <= B2R (gv_tolS v) /\ 1 / 1000 <= B2R (gv_tolM v) /\ 1 / 1000 <= B2R (gv_tolL v)) /\ Rabs (B2R (gv_dist v) - presetDist g) <= 1 / 10 ^ 15 /\ B2R (gv_goal v) <= 96 / 100.
Proof.
  assert (L : forall n d, (0 < n <= d)%Z -> (d <= 1000)%Z -> Rabs (B2R (flit n d) - IZR n / IZR d) <= 1 / 10 ^ 15) by (intros n d A B; apply (lit_near n d A B)).
  assert (T : forall n d, (0 < n <= d)%Z -> (d <= 1000)%Z -> (2 * d <= 1000 * n)%Z -> 1 / 1000 <= B2R (flit n d)).
  { intros n d A B C. pose proof (L n d A B) as X. apply Rabs_le_inv in X. assert (0 < IZR d) by (apply (IZR_lt 0); lia). apply IZR_le in C. rewrite !mult_IZR in C. assert (2 / 1000 <= IZR n / IZR d) by (apply Rmult_le_reg_r with (IZR d); [lra|]; replace (IZR n / IZR d * IZR d) with (IZR n) by (field; lra); lra). lra. }
  assert (G : forall n d, (0 < n <= d)%Z -> (d <= 1000)%Z -> (100 * n <= 95 * d)%Z -> B2R (flit n d) <= 96 / 100).
  { intros n d A B C. pose proof (L n d A B) as X. apply Rabs_le_inv in X. assert (0 < IZR d) by (apply (IZR_lt 0); lia). apply IZR_le in C. rewrite !mult_IZR in C. assert (IZR n / IZR d <= 95 / 100) by (apply Rmult_le_reg_r with (IZR d); [lra|]; replace (IZR n / IZR d * IZR d) with (IZR n) by (field; lra); lra). lra. }
  intros v. split; [destruct g; repeat split; try (apply unit_fin; vm_compute; reflexivity)|].
  destruct g; (split; [repeat split; apply T; clear; lia|split; [apply L; clear; lia|apply G; clear; lia]]).
Qed.
Lemma fle_trans_false x y z : fle x y = true -> fle y z = true -> flt z x = false.
Proof. intros A B. apply not_true_is_false. intros C. apply fle_true in A as (_ & _ & A). apply fle_true in B as (_ & _ & B). apply flt_true in C as (_ & _ & C). lra. Qed.

(** For a preset and a coherence that New accepts, standing at the goal is recognised at the first look when 0.3 (1 - coherence) is
    under the preset's distance ... *)
Theorem C94_preset : forall tr e, trig_sane tr -> trig_acc tr e -> 0 <= e <= 1 / 10 ^ 6 -> forall g target (en : Env F) evs (s : SyncState F), (forall k l, Permutation (ev_view en k l) l) ->
  let n := Z.of_nat (length (ss_agents s)) in (n <= 2 ^ 20)%Z -> aim target -> crowd target (ss_agents s) ->
  fle (tp_coh target) (lim_prac (@GetCoherenceLimits F (FNum tr) n)) = true ->
  3 / 10 * (1 - B2R (tp_coh target)) + 1 / 10 ^ 5 < presetDist g ->
  exists s', AchieveSynchronization tr (@For F (FNum tr) g) target (Tick en :: evs) s = (SNil, 1%Z, s') /\ Permutation (ss_agents s') (ss_agents s).
Proof.
  intros tr e HS HA He g target en evs s HV n Hn Ht Hc Hl HD. destruct (preset_numbers tr g) as ((US & UM & UL & UD & UG) & (L1 & L2 & L3) & DD & GG).
  assert (N0 : (0 < n)%Z) by (unfold n; destruct Hc as [Hc _]; destruct (ss_agents s); [contradiction|cbn [length]; lia]).
  assert (N0' : 0 < IZR n <= 1048576) by (split; [now apply (IZR_lt 0)|now apply (IZR_le _ (2 ^ 20))]).
  assert (EA : @adjustTarget F (FNum tr) n target = target).
  { unfold adjustTarget. cbv zeta. change (@nlt F (FNum tr)) with flt. rewrite (fle_trans_false _ _ _ Hl (theo_ge_prac tr n N0)). reflexivity. }
  assert (E16 : 0 <= e <= 1 / 16) by lra. apply Rabs_le_inv in DD.
  refine (C94_arrived tr e HS HA E16 (@For F (FNum tr) g) target en evs s HV _ _ _ _ US UM UL UD UG _ _ _); fold n; rewrite ?EA.
  - exact Ht.
  - exact Hc.
  - destruct g; reflexivity.
  - now apply C27_budget_preset.
  - cbv zeta. replace (2 ^ 51) with 2251799813685248 by (rewrite pow_Z; reflexivity). repeat split; lra.
  - replace (2 ^ 50) with 1125899906842624 by (rewrite pow_Z; reflexivity). lra.
  - unfold crowdSlack. replace (2 ^ 52) with 4503599627370496 by (rewrite pow_Z; reflexivity). lra.
Qed.
(** ... and never while it stands there when it is over: MinimizeAPICalls at 0.83, ReachConsensus at 0.89, ... *)
Theorem C94_preset_refuted : forall tr e, trig_sane tr -> trig_acc tr e -> 0 <= e <= 1 / 10 ^ 6 -> forall g t (en : Env F) (s s' : SyncState F) b, (forall k l, Permutation (ev_view en k l) l) ->
  (Z.of_nat (length (ss_agents s)) <= 2 ^ 20)%Z -> aim t -> crowd t (ss_agents s) ->
  presetDist g + 1 / 10 ^ 5 < 3 / 10 * (1 - B2R (tp_coh t)) ->
  @round F (FNum tr) (@For F (FNum tr) g) t en s = Some (s', b) -> b = false.
Proof.
  intros tr e HS HA He g t en s s' b HV Hn Ht Hc HD. destruct (preset_numbers tr g) as ((US & UM & UL & UD & UG) & (L1 & L2 & L3) & DD & GG). assert (E16 : 0 <= e <= 1 / 16) by lra. apply Rabs_le_inv in DD.
  assert (N0' : IZR (Z.of_nat (length (ss_agents s))) <= 1048576) by now apply (IZR_le _ (2 ^ 20)).
  apply (C94_too_coherent_refuted tr e HS HA E16 (@For F (FNum tr) g) t en s s' b HV Ht Hc US UM UL UD UG).
  unfold crowdSlack. replace (2 ^ 52) with 4503599627370496 by (rewrite pow_Z; reflexivity). lra.
Qed.

(** ** A synchronised swarm that fails.  Two agents at the goal's phase 0 with the goal's period, every random factor in the middle of its range: with the preset for API
    calls and a goal coherence of 0.7 (which New accepts) the run ends with the error after its whole budget of 300 rounds; nothing moved. *)
Definition calmEnv (now : Z) (sdraw : nat -> Z) : Env F := mkEnv now (fun _ l => l) (fun l => l) sdraw (fun _ _ => (2 ^ 52)%Z) (fun _ => repeat 0%Z 8) (fun _ => (2 ^ 52)%Z) 4.
Definition modestGoal : State F := mkState (fofZ 0) 100000000 (flit 7 10).
Definition twoAt0 (l : list (Agent F)) : Prop := exists a b, l = [a; b] /\ Forall (fun x => phaseOf x = fofZ 0 /\ freqOf x = 100000000%Z) [a; b].
Definition working (s : SyncState F) : Prop := P_Strategies.complete (ss_perf s) /\ forall i, ss_cur s = Some i -> (i < 5)%nat.
Lemma Some_inj {A} (x y : A) : Some x = Some y -> x = y.
Proof. congruence. Qed.
Lemma calm_round tr now sd s : trig_zero tr -> twoAt0 (ss_agents s) -> working s ->
  exists s', @round F (FNum tr) (@For F (FNum tr) MinimizeAPICalls) (@goalPattern F (FNum tr) modestGoal) (calmEnv now sd) s = Some (s', false) /\ ss_agents s' = ss_agents s /\ working s'.
Proof.
  intros HZ (a & b & El & Hab) [W1 W2]. inversion Hab as [|? ? [A1 A2] Hb]; subst. inversion Hb as [|? ? [B1 B2] _]; subst. clear Hab Hb.
  destruct a as [ia [pa ga ea fa] ba xa za wa ca ra ta sa]. destruct b as [ib [pb gb eb fb] bb xb zb wb cb rb tb sb]. cbn in A1, A2, B1, B2. subst pa fa pb fb.
  unfold round. cbv zeta. cbn [ev_view calmEnv ev_now ev_sdraw ev_tmpl ev_fuel ev_draw ev_bytes ev_noise]. rewrite El. set (mon := GRecord _ _ _ _). clearbody mon. rewrite (at0_id tr HZ).
  set (l := [_; _]).
  assert (K1 : @isPatternAchieved F (FNum (at0 tr)) (@For F (FNum (at0 tr)) MinimizeAPICalls) (@goalPattern F (FNum (at0 tr)) modestGoal) l (@measureSystemPattern F (FNum (at0 tr)) l l) = false) by (unfold l; clear; vm_compute; reflexivity).
  rewrite K1. clear K1.
  assert (K2 : exists pf cu, (if @ShouldSwitchStrategy F (FNum (at0 tr)) mon then @switchStrategy F (FNum (at0 tr)) (@For F (FNum (at0 tr)) MinimizeAPICalls) now sd (ss_perf s) (ss_cur s) else Some (ss_perf s, ss_cur s)) = Some (pf, cu) /\ P_Strategies.complete pf /\ forall i, cu = Some i -> (i < 5)%nat).
  { destruct (@ShouldSwitchStrategy F (FNum (at0 tr)) mon); [|eauto]. apply P_Strategies.C33_never_crashes; assumption. }
  destruct K2 as (pf & cu & E2 & W1' & W2'). rewrite E2. clear E2. set (cur := @measureSystemPattern F (FNum (at0 tr)) l l).
  set (eng := mkEngine _ _). set (cp0 := @CompletePattern F _ _ _ _). set (va0 := @MeasurePhaseVariance F _ _ _).
  assert (K3 : match cp0 with Some cp => match va0 with Some va => Some (@applyPatternCompletion F (FNum (at0 tr)) (@For F (FNum (at0 tr)) MinimizeAPICalls) (@goalPattern F (FNum (at0 tr)) modestGoal) cp (@swarmCoherence F (FNum (at0 tr)) l) va (fun _ _ => (2 ^ 52)%Z) l) | None => None end | None => None end = Some l).
  { unfold cp0, va0, eng, cur, l. clear - tr. vm_compute. reflexivity. }
  destruct cp0 as [cp|]; [|discriminate]. destruct va0 as [va|]; [|discriminate]. apply Some_inj in K3. rewrite K3.
  assert (K4 : @resonanceLoop F (FNum (at0 tr)) (@For F (FNum (at0 tr)) MinimizeAPICalls) (fun _ l => l) (fun _ => repeat 0%Z 8) (fun _ => (2 ^ 52)%Z) 0 (Z.to_nat (@perturbCount F (FNum (at0 tr)) (@For F (FNum (at0 tr)) MinimizeAPICalls) (length l))) l = Some l).
  { unfold l. clear - tr. vm_compute. reflexivity. }
  rewrite K4. destruct (IsStuck mon); eexists; (split; [reflexivity|split; [reflexivity|split; assumption]]).
Qed.
Theorem C94_synchronised_fails_refuted : forall tr, trig_zero tr -> forall s evs, twoAt0 (ss_agents s) -> working s -> length evs = 300%nat -> Forall (fun x => exists now sd, x = Tick (calmEnv now sd)) evs ->
  exists s', Run tr (@For F (FNum tr) MinimizeAPICalls) modestGoal evs s = (SFail 300, 300%Z, s') /\ ss_agents s' = ss_agents s.
Proof.
  intros tr HZ s evs Ha Hw HL HE. unfold Run, AchieveSynchronization. cbv zeta.
  assert (L2 : Z.of_nat (length (ss_agents s)) = 2%Z) by (destruct Ha as (a & b & -> & _); reflexivity). rewrite L2.
  assert (EA : @adjustTarget F (FNum tr) 2 (@goalPattern F (FNum tr) modestGoal) = @goalPattern F (FNum tr) modestGoal).
  { unfold adjustTarget. cbv zeta. assert (X : @nlt F (FNum tr) (lim_theo (@GetCoherenceLimits F (FNum tr) 2)) (tp_coh (@goalPattern F (FNum tr) modestGoal)) = false) by (vm_compute; reflexivity). now rewrite X. }
  rewrite EA. change (gs_upd (g_str (@For F (FNum tr) MinimizeAPICalls)) <=? 0)%Z with false. cbv iota.
  assert (EB : budget tr (@For F (FNum tr) MinimizeAPICalls) 2 (tp_coh (@goalPattern F (FNum tr) modestGoal)) = 300%Z) by (vm_compute; reflexivity). rewrite EB.
  assert (G : forall evs k s, (0 <= k)%Z -> (k + Z.of_nat (length evs) = 300)%Z -> twoAt0 (ss_agents s) -> working s -> Forall (fun x => exists now sd, x = Tick (calmEnv now sd)) evs ->
    exists s', @syncLoop F (FNum tr) (@For F (FNum tr) MinimizeAPICalls) (@goalPattern F (FNum tr) modestGoal) 300 k evs s = (SFail 300, 300%Z, s') /\ ss_agents s' = ss_agents s).
  { clear - HZ. induction evs as [|ev evs IH]; intros k s Hk HL Ha Hw HE.
    - cbn [length] in HL. assert (k = 300%Z) by lia. subst k. exists s. split; reflexivity.
    - cbn [length] in HL. inversion HE as [|? ? (now & sd & ->) HE']; subst. cbn [syncLoop]. rewrite (proj2 (Z.ltb_lt k 300)) by lia.
      destruct (calm_round tr now sd s HZ Ha Hw) as (s1 & E1 & E2 & W). rewrite E1.
      destruct (IH (k + 1)%Z s1 ltac:(lia) ltac:(lia) ltac:(now rewrite E2) W HE') as (s2 & E3 & E4). exists s2. split; [exact E3|]. now rewrite E4. }
  assert (H300 : (0 + Z.of_nat (length evs) = 300)%Z) by (rewrite HL; reflexivity).
  apply (G evs 0%Z (setMonTarget (@goalPattern F (FNum tr) modestGoal) s) ltac:(lia) H300 Ha Hw HE).
Qed.

(** ** Cases *)
Definition standing (p : F) : Agent F := mkAgent String.EmptyString (mkSD p (fofZ 100) (fofZ 0) 100000000) (mkBD (flit 1 10) (flit 2 10)) (@M_Strategy.ctx0 F (FNum crTrig)) 0 0 true true None None.
Definition pairAt (p : F) (cm : M_Monitor.CM F) : SyncState F := @newSync F [standing p; standing p] cm.
Definition firmTarget (k d : Z) : TargetPattern F := mkTP (fofZ 1) 100000000 (fofZ 1) (flit k d) [] (flit 9 10).
Lemma turn1 : in_turn (fofZ 1).
Proof. destruct (fofZ_fin 1 ltac:(lia)) as [A B]. split; [exact A|]. rewrite B. pose proof f2pi_near. change (fhalfpi 4) with f2pi. pose proof PI_bounds. lra. Qed.
Lemma firm_aim k d : (0 < k <= d)%Z -> (d <= 1000)%Z -> aim (firmTarget k d).
Proof.
  intros A B. split; [exact turn1|]. split; [cbn; lia|]. destruct (lit_near k d A B) as [C D]. split; [exact C|]. cbn [tp_coh firmTarget].
  destruct (flit_fin k d ltac:(lia) ltac:(lia)) as [_ V]. rewrite V. assert (0 < IZR k <= IZR d) by (split; [apply (IZR_lt 0)|apply IZR_le]; lia).
  assert (Q : IZR k / IZR d * IZR d = IZR k) by (field; lra). assert (0 <= IZR k / IZR d) by (apply Rmult_le_pos; [lra|apply Rlt_le, Rinv_0_lt_compat; lra]).
  split; [apply rnd_ge_0; assumption|]. apply rnd_le_fmt; [apply (fmt_IZR 1); lia|]. apply Rmult_le_reg_r with (IZR d); lra.
Qed.
Lemma firm_crowd k d : crowd (firmTarget k d) [standing (fofZ 1); standing (fofZ 1)].
Proof. split; [discriminate|]. split; [cbn; lia|]. split; [cbn; lia|]. repeat constructor. Qed.
(** At 0.85 (the practical limit of two agents) API calls are fine, at 0.8 they never are. *)
Example C94_applies : forall cm en evs, (forall k l, Permutation (ev_view en k l) l) ->
  (exists s', AchieveSynchronization crTrig (@For F (FNum crTrig) MinimizeAPICalls) (firmTarget 85 100) (Tick en :: evs) (pairAt (fofZ 1) cm) = (SNil, 1%Z, s')) /\
  (forall s' b, @round F (FNum crTrig) (@For F (FNum crTrig) MinimizeAPICalls) (firmTarget 80 100) en (pairAt (fofZ 1) cm) = Some (s', b) -> b = false) /\
  (twoAt0 (ss_agents (pairAt (fofZ 0) cm)) /\ working (pairAt (fofZ 0) cm) /\ trig_zero crTrig).
Proof.
  intros cm en evs HV. assert (E : 0 <= / 2 ^ 51 <= 1 / 10 ^ 6) by (rewrite pow_Z; cbn; lra). split; [|split].
  - destruct (C94_preset crTrig _ cr_sane cr_acc E MinimizeAPICalls (firmTarget 85 100) en evs (pairAt (fofZ 1) cm) HV) as (s' & E' & _).
    + discriminate.
    + apply firm_aim; lia.
    + apply firm_crowd.
    + vm_compute. reflexivity.
    + cbn [tp_coh firmTarget presetDist]. destruct (lit_near 85 100 ltac:(lia) ltac:(lia)) as [_ L]. apply Rabs_le_inv in L. lra.
    + exists s'. exact E'.
  - intros s' b. apply (C94_preset_refuted crTrig _ cr_sane cr_acc E MinimizeAPICalls _ en _ s' b HV).
    + discriminate.
    + apply firm_aim; lia.
    + apply firm_crowd.
    + cbn [tp_coh firmTarget presetDist]. destruct (lit_near 80 100 ltac:(lia) ltac:(lia)) as [_ L]. apply Rabs_le_inv in L. lra.
  - split; [exists (standing (fofZ 0)), (standing (fofZ 0)); split; [reflexivity|repeat constructor]|]. split; [|exact cr_zero].
    split; [exact P_Strategies.C33_initial_complete|]. cbn. intros i [= <-]. lia.
Qed.

Print Assumptions C94_distance.
Print Assumptions C94_accepts.
Print Assumptions C94_rejects.
Print Assumptions C94_arrived.
Print Assumptions C94_too_coherent_refuted.
Print Assumptions C94_preset.
Print Assumptions C94_preset_refuted.
Print Assumptions C94_synchronised_fails_refuted.
Print Assumptions C94_applies.
