(** Property theorems C31 (phase convergence and variance). *)
From Coq Require Import ZArith Reals Psatz Bool List String Lia.
From Flocq Require Import Core.Core IEEE754.BinarySingleNaN.
From Verif Require Import Num F64 RealNum M_Core M_Agent M_Sync S_Circle S_Agent S_Sync L_F64 L_F64x L_Ford L_PhaseF L_Circle L_Coherence L_TrigZero P_ConvMonitor.
Import ListNotations.
Open Scope R_scope.

(** ** Exact reals. *)
Definition turn (p : R) : Prop := 0 <= p < 2 * PI.

Lemma npi_R : (npi : R) = PI. Proof. unfold npi. simpl. field. Qed.
Lemma n2pi_R : (n2pi : R) = 2 * PI. Proof. unfold n2pi. simpl. field. Qed.

Lemma Rle_div_l a b c : 0 < c -> a <= b * c -> a / c <= b.
Proof. intros H L. apply (Rmult_le_reg_r c); auto. unfold Rdiv. rewrite Rmult_assoc, Rinv_l by lra. lra. Qed.
Lemma Rle_div_r a b c : 0 < c -> a * c <= b -> a <= b / c.
Proof. intros H L. apply (Rmult_le_reg_r c); auto. unfold Rdiv. rewrite Rmult_assoc, Rinv_l by lra. lra. Qed.

Lemma gap_arc t p : turn t -> turn p -> is_arc p t (phaseGap t p).
Proof.
  intros Ht Hp. unfold phaseGap. rewrite npi_R, n2pi_R. cbn [nlt nabs nsub RNum]. cbv zeta.
  pose proof PI_pos. unfold turn in *.
  destruct (Rlt_bool_spec PI (Rabs (p - t))) as [L|L].
  - destruct (Rle_lt_dec 0 (p - t)) as [Q|Q].
    + rewrite Rabs_pos_eq in * by lra. replace (2 * PI - (p - t)) with (Rabs (p - t - 2 * PI)).
      * apply is_arc_of_rep; [lra|]. exists 1%Z. lra.
      * rewrite Rabs_left by lra. lra.
    + rewrite Rabs_left in * by lra. replace (2 * PI - - (p - t)) with (Rabs (p - t + 2 * PI)).
      * apply is_arc_of_rep; [lra|]. exists (-1)%Z. lra.
      * rewrite Rabs_pos_eq by lra. lra.
  - apply is_arc_of_rep; [|apply cong_refl]. split; [|pose proof (Rle_abs (p - t)); lra].
    pose proof (Rle_abs (- (p - t))) as A. rewrite Rabs_Ropp in A. lra.
Qed.

Lemma fold_total {A} (f : A -> R) l : forall a, fold_left (fun s x => s + f x) l a = a + total (map f l).
Proof. induction l as [|x l IH]; intros a; cbn; [lra|]. rewrite IH. unfold total. cbn. lra. Qed.

(** The convergence measure is one minus the mean arc distance to the target divided by pi. *)
Theorem C31_convergence_is_mean_distance : forall agents target, agents <> [] -> turn target ->
  Forall (fun a => turn (phaseOf a)) agents ->
  exists ds, Forall2 (fun a d => is_arc (phaseOf a) target d) agents ds /\
    MeasurePhaseConvergence agents target = 1 - total ds / (INR (List.length agents) * PI).
Proof.
  intros agents target NE Ht Ha. exists (map (fun a => phaseGap target (phaseOf a)) agents). split.
  { clear NE. induction Ha as [|a l H Hl IH]; constructor; auto. now apply gap_arc. }
  assert (L : 0 < INR (List.length agents)) by now apply INR_len_pos.
  assert (B : 0 <= total (map (fun a => phaseGap target (phaseOf a)) agents) <= INR (List.length agents) * PI).
  { clear NE L. induction Ha as [|a l H Hl IH]; cbn [map total fold_right List.length]; [cbn; lra|].
    pose proof (is_arc_bounds _ _ _ (gap_arc _ _ Ht H)). rewrite S_INR. unfold total in IH. lra. }
  assert (U : MeasurePhaseConvergence agents target =
     let c := 1 - total (map (fun a => phaseGap target (phaseOf a)) agents) / INR (List.length agents) / PI in
     if Rlt_bool c 0 then 0 else c).
  { destruct agents as [|a l]; [congruence|]. unfold MeasurePhaseConvergence. cbv zeta.
    rewrite npi_R. change (@n0 R RNum) with 0. change (@n1 R RNum) with 1.
    change (@nlt R RNum) with Rlt_bool. change (@nsub R RNum) with Rminus. change (@ndiv R RNum) with Rdiv.
    change (@nofZ R RNum) with IZR. rewrite <- INR_IZR_INZ.
    change (fold_left (fun (s : R) (a0 : Agent R) => (s + phaseGap target (phaseOf a0))%num) (a :: l) 0)
      with (fold_left (fun s a0 => s + (fun a0 => phaseGap target (phaseOf a0)) a0) (a :: l) 0).
    rewrite fold_total, Rplus_0_l. reflexivity. }
  rewrite U. cbv zeta. pose proof PI_pos as HP.
  replace (total _ / INR (List.length agents) / PI) with (total (map (fun a => phaseGap target (phaseOf a)) agents) / (INR (List.length agents) * PI)) by (field; lra).
  destruct (Rlt_bool_spec (1 - total (map (fun a => phaseGap target (phaseOf a)) agents) / (INR (List.length agents) * PI)) 0); auto.
  exfalso. assert (total (map (fun a => phaseGap target (phaseOf a)) agents) / (INR (List.length agents) * PI) <= 1); [|lra].
  apply Rle_div_l; [nra|lra].
Qed.

Lemma Forall2_total agents target ds : Forall2 (fun a d => is_arc (phaseOf a) target d) agents ds ->
  0 <= total ds <= INR (List.length agents) * PI /\ (total ds = 0 <-> Forall (fun a => cong (phaseOf a) target) agents).
Proof.
  induction 1 as [|a d l ds H F IH]; cbn [total fold_right List.length]; [cbn; split; [lra|split; auto]|].
  pose proof (is_arc_bounds _ _ _ H) as B. rewrite S_INR. unfold total in IH. destruct IH as [I1 I2]. split; [lra|]. split.
  - intros E. assert (d = 0) by lra. subst d. constructor; [now apply is_arc_0|]. apply I2. lra.
  - intros E. inversion E as [|? ? E1 E2]; subst. apply I2 in E2. apply is_arc_0 in E1.
    rewrite (is_arc_unique _ _ _ _ H E1). lra.
Qed.

(** It lies in [0,1] and is 1 exactly when every agent is at the target. *)
Theorem C31_convergence_range_and_one : forall agents target, agents <> [] -> turn target ->
  Forall (fun a => turn (phaseOf a)) agents ->
  0 <= MeasurePhaseConvergence agents target <= 1 /\
  (MeasurePhaseConvergence agents target = 1 <-> Forall (fun a => phaseOf a = target) agents).
Proof.
  intros agents target NE Ht Ha. destruct (C31_convergence_is_mean_distance agents target NE Ht Ha) as (ds & F & ->).
  apply Forall2_total in F. destruct F as [B Z]. assert (L : 0 < INR (List.length agents)) by now apply INR_len_pos.
  pose proof PI_pos as HP. assert (LP : 0 < INR (List.length agents) * PI) by nra.
  assert (Q : 0 <= total ds / (INR (List.length agents) * PI) <= 1).
  { split; [apply Rle_div_r; lra|apply Rle_div_l; lra]. }
  split; [lra|]. split.
  - intros E. assert (total ds = 0).
    { assert (total ds / (INR (List.length agents) * PI) = 0) by lra.
      apply (Rmult_eq_compat_r (INR (List.length agents) * PI)) in H. unfold Rdiv in H.
      rewrite Rmult_assoc, Rinv_l, Rmult_1_r, Rmult_0_l in H; lra. }
    apply Z in H. rewrite Forall_forall in *. intros a I. apply cong_unique_2pi; auto. now apply Ha.
  - intros E. assert (total ds = 0).
    { apply Z. rewrite Forall_forall in *. intros a I. rewrite (E a I). apply cong_refl. }
    rewrite H. unfold Rdiv. rewrite Rmult_0_l. lra.
Qed.

Example C31_convergence_example : exists (a : Agent R), turn (phaseOf a) /\
  MeasurePhaseConvergence [a] (PI / 2) = 1 /\ turn (PI / 2).
Proof.
  exists (SetPhase (PI / 2) (NewAgent "a" 0 0 0 [])). pose proof PI_pos as HP.
  assert (P : phaseOf (SetPhase (PI / 2) (NewAgent "a" 0 0 0 [])) = PI / 2).
  { unfold phaseOf, SetPhase, upd_sd, fPhase. cbn [ag_sd sd_phase]. apply RWrap_unique; [unfold turn; lra|apply cong_refl]. }
  split; [rewrite P; unfold turn; lra|]. split; [|unfold turn; lra].
  apply C31_convergence_range_and_one; [discriminate|unfold turn; lra| |]; constructor; auto. rewrite P; unfold turn; lra.
Qed.

(** ** Variance, exact reals. *)
Lemma Ratan2_dir y x : exists r, 0 <= r /\ - PI < Ratan2 y x <= PI /\ x = r * cos (Ratan2 y x) /\ y = r * sin (Ratan2 y x).
Proof.
  pose proof PI_pos as HP.
  destruct (Req_dec x 0) as [->|Hx]; [destruct (Req_dec y 0) as [->|Hy]|].
  - exists 0. assert (E : Ratan2 0 0 = 0).
    { unfold Ratan2. rewrite Rlt_bool_false by lra. reflexivity. }
    rewrite E. repeat split; lra.
  - destruct (polar 0 y (or_intror Hy)) as (r & t & Hr & Ht & Ex & Ey & _).
    assert (E : Ratan2 y 0 = t) by (rewrite Ex at 1; rewrite Ey; now apply Ratan2_polar). rewrite E. exists r. repeat split; try lra; auto.
  - destruct (polar x y (or_introl Hx)) as (r & t & Hr & Ht & Ex & Ey & _).
    assert (E : Ratan2 y x = t) by (rewrite Ex, Ey; now apply Ratan2_polar). rewrite E. exists r. repeat split; try lra; auto.
Qed.

Lemma down_up fuel m p : (2 <= fuel)%nat -> - PI < m <= PI -> turn p ->
  exists d, loopDown fuel (p - m) = Some d /\ loopUp fuel d = Some d /\ - PI <= d <= PI /\ cong d (p - m).
Proof.
  intros Hf Hm Hp. unfold turn in Hp. pose proof PI_pos as HP.
  destruct fuel as [|[|k]]; try lia.
  assert (U : forall d, - PI <= d <= PI -> loopUp (S (S k)) d = Some d).
  { intros d Hd. cbn [loopUp]. rewrite npi_R. cbn [nlt nneg RNum]. now rewrite Rlt_bool_false by lra. }
  cbn [loopDown]. rewrite npi_R, n2pi_R. cbn [nlt nsub RNum].
  destruct (Rlt_bool_spec PI (p - m)) as [L|L].
  - exists (p - m - 2 * PI). rewrite Rlt_bool_false by lra. split; auto. split; [apply U; lra|]. split; [lra|].
    exists (-1)%Z. lra.
  - exists (p - m). split; auto. split; [apply U; lra|]. split; [lra|apply cong_refl].
Qed.

Lemma var_loop fuel m agents : (2 <= fuel)%nat -> - PI < m <= PI -> Forall (fun a => turn (phaseOf a)) agents ->
  exists ds, Forall2 (fun a d => - PI <= d <= PI /\ cong d (phaseOf a - m)) agents ds /\
  forall acc, varLoop fuel m agents acc = Some (acc + total (map (fun d => d * d) ds)).
Proof.
  intros Hf Hm. induction 1 as [|a l H Hl IH].
  - exists []. split; [constructor|]. intros acc. cbn. f_equal. lra.
  - destruct IH as (ds & F & E). destruct (down_up fuel m (phaseOf a) Hf Hm H) as (d & E1 & E2 & Hd & C).
    exists (d :: ds). split; [constructor; auto|]. intros acc. cbn [varLoop].
    change (phaseOf a - m)%num with (phaseOf a - m). rewrite E1, E2, E. f_equal. unfold total. cbn. lra.
Qed.

(** The variance is the mean of the squared arc deviations from the direction of the mean vector. *)
Theorem C31_variance_is_mean_square : forall fuel agents, (2 <= fuel)%nat -> agents <> [] ->
  Forall (fun a => turn (phaseOf a)) agents ->
  exists m r ds, 0 <= r /\ total (map (fun a => cos (phaseOf a)) agents) = r * cos m /\
    total (map (fun a => sin (phaseOf a)) agents) = r * sin m /\
    Forall2 (fun a d => - PI <= d <= PI /\ cong d (phaseOf a - m)) agents ds /\
    MeasurePhaseVariance fuel agents = Some (total (map (fun d => d * d) ds) / INR (List.length agents)).
Proof.
  intros fuel agents Hf NE Ha. assert (L : 0 < INR (List.length agents)) by now apply INR_len_pos.
  set (C := total (map (fun a => cos (phaseOf a)) agents)). set (S := total (map (fun a => sin (phaseOf a)) agents)).
  assert (M : meanPhase agents = Ratan2 (S / INR (List.length agents)) (C / INR (List.length agents))).
  { unfold meanPhase. cbn [natan2 ndiv nadd nsin ncos nofZ RNum]. rewrite <- INR_IZR_INZ. change (@n0 R RNum) with 0.
    rewrite (fold_total (fun a => sin (phaseOf a))), (fold_total (fun a => cos (phaseOf a))), !Rplus_0_l. reflexivity. }
  destruct (Ratan2_dir (S / INR (List.length agents)) (C / INR (List.length agents))) as (r & Hr & Hm & EC & ES).
  rewrite <- M in *. destruct (var_loop fuel (meanPhase agents) agents Hf Hm Ha) as (ds & F & E).
  exists (meanPhase agents), (r * INR (List.length agents)), ds. split; [nra|].
  split; [transitivity (C / INR (List.length agents) * INR (List.length agents)); [field; lra|rewrite EC; ring]|].
  split; [transitivity (S / INR (List.length agents) * INR (List.length agents)); [field; lra|rewrite ES; ring]|].
  split; auto. unfold MeasurePhaseVariance. destruct agents as [|a l]; [congruence|].
  rewrite E. change (@n0 R RNum) with 0. cbn [ndiv nofZ RNum]. rewrite Rplus_0_l, INR_IZR_INZ. reflexivity.
Qed.

Lemma total_sq ds : 0 <= total (map (fun d => d * d) ds) /\ (total (map (fun d => d * d) ds) = 0 <-> Forall (fun d => d = 0) ds).
Proof.
  induction ds as [|d ds [I1 I2]]; cbn; [split; [lra|split; auto]|]. unfold total in *. split; [nra|]. split.
  - intros E. assert (d = 0) by nra. constructor; auto. apply I2. nra.
  - intros E. inversion E; subst. rewrite (proj2 I2); auto. lra.
Qed.

(** It is non-negative, and 0 exactly when all phases agree. *)
Theorem C31_variance_nonneg_and_zero : forall fuel agents, (2 <= fuel)%nat -> agents <> [] ->
  Forall (fun a => turn (phaseOf a)) agents ->
  exists v, MeasurePhaseVariance fuel agents = Some v /\ 0 <= v /\
    (v = 0 <-> exists p, Forall (fun a => phaseOf a = p) agents).
Proof.
  intros fuel agents Hf NE Ha. destruct (C31_variance_is_mean_square fuel agents Hf NE Ha) as (m & r & ds & Hr & EC & ES & F & ->).
  eexists. split; [reflexivity|]. assert (L : 0 < INR (List.length agents)) by now apply INR_len_pos.
  destruct (total_sq ds) as [T1 T2]. split; [apply Rle_div_r; lra|].
  assert (Z : total (map (fun d => d * d) ds) / INR (List.length agents) = 0 <-> Forall (fun d => d = 0) ds).
  { rewrite <- T2. split; intros E.
    - apply (Rmult_eq_compat_r (INR (List.length agents))) in E. unfold Rdiv in E. rewrite Rmult_assoc, Rinv_l in E; lra.
    - rewrite E. unfold Rdiv. lra. }
  rewrite Z. clear Z T1 T2. split.
  - intros D. destruct agents as [|a l]; [congruence|]. exists (phaseOf a).
    assert (Q : Forall (fun a => cong (phaseOf a) m) (a :: l)).
    { revert F D. generalize (a :: l). clear. intros L0 F D. induction F as [|x d l ds [_ C] F IH]; constructor; inversion D; subst; auto.
      destruct C as [k C]. exists (- k)%Z. rewrite opp_IZR. lra. }
    rewrite Forall_forall in *. intros x I. apply cong_unique_2pi; [now apply Ha|apply Ha; now left|].
    apply cong_trans with m; [now apply Q|apply cong_sym, Q; now left].
  - intros [p Hp].
    assert (EC' : INR (List.length agents) * cos p = r * cos m).
    { rewrite <- EC. clear -Hp. induction Hp as [|x l H Hl IH]; [cbn; lra|]. cbn [List.length map total fold_right]. rewrite S_INR, H. unfold total in IH. lra. }
    assert (ES' : INR (List.length agents) * sin p = r * sin m).
    { rewrite <- ES. clear -Hp. induction Hp as [|x l H Hl IH]; [cbn; lra|]. cbn [List.length map total fold_right]. rewrite S_INR, H. unfold total in IH. lra. }
    assert (RR : r = INR (List.length agents)).
    { apply Rsqr_inj; try lra. unfold Rsqr.
      pose proof (sin2_cos2 p) as A. pose proof (sin2_cos2 m) as B. unfold Rsqr in A, B.
      transitivity (r * cos m * (r * cos m) + r * sin m * (r * sin m)); [transitivity (r * r * (sin m * sin m + cos m * cos m)); [rewrite B; ring|ring]|].
      rewrite <- EC', <- ES'. transitivity (INR (List.length agents) * INR (List.length agents) * (sin p * sin p + cos p * cos p)); [ring|rewrite A; ring]. }
    subst r. assert (cos p = cos m /\ sin p = sin m) as [Cc Cs] by (split; eapply Rmult_eq_reg_l; eauto; lra).
    assert (K : cong (p - m) 0).
    { apply cos_1_cong. rewrite cos_minus, Cc, Cs. pose proof (sin2_cos2 m) as B. unfold Rsqr in B. lra. }
    clear -F Hp K. induction F as [|x d l ds [B C] F IH]; constructor; inversion Hp as [|? ? E1 E2]; subst; auto.
    assert (cong d 0) as [k E] by (eapply cong_trans; eauto).
    pose proof PI_pos. assert (k = 0)%Z as -> by (apply IZR_small_0; nra). lra.
Qed.
Example C31_variance_example : exists (a b : Agent R), turn (phaseOf a) /\ turn (phaseOf b) /\ phaseOf a = phaseOf b /\ a <> b.
Proof.
  exists (NewAgent "a" 0 0 0 []), (NewAgent "b" 0 0 0 []).
  assert (P : phaseOf (NewAgent "a" 0 0 0 [] : Agent R) = 0 /\ phaseOf (NewAgent "b" 0 0 0 [] : Agent R) = 0).
  { unfold phaseOf, NewAgent, M_Random.RandPhase, M_Random.Float64. cbn. split; lra. }
  destruct P as [Pa Pb]. rewrite Pa, Pb. pose proof PI_pos. unfold turn. repeat split; try lra. discriminate.
Qed.

(** ** float64. *)
Section Float.
Variable tr : Trig.
Local Instance NF : Num F := FNum tr.

Lemma fadd_nonneg x y : fle (fofZ 0) x = true -> fle (fofZ 0) y = true -> fle (fofZ 0) (fadd x y) = true.
Proof.
  intros A B. apply fle_true in A, B. rewrite ford_fofZ in * by lia. destruct A as (_ & Nx & A), B as (_ & Ny & B).
  apply fle_true. split; [reflexivity|]. rewrite ford_fofZ by lia.
  destruct (not_nan_cases x Nx) as [Fx|[s ->]]; destruct (not_nan_cases y Ny) as [Fy|[s' ->]].
  - destruct (fadd_ord x y Fx Fy) as [N E]. split; auto. rewrite E. rewrite !ford_fin in * by auto. apply sat_ge_0, rnd_ge_0. lra.
  - destruct s'; cbn in B; [pose proof BIG_pos; lra|]. destruct x; try discriminate; cbn; split; auto; pose proof BIG_pos; lra.
  - destruct s; cbn in A; [pose proof BIG_pos; lra|]. destruct y; try discriminate; cbn; split; auto; pose proof BIG_pos; lra.
  - destruct s; cbn in A; [pose proof BIG_pos; lra|]. destruct s'; cbn in B; [pose proof BIG_pos; lra|]. cbn; split; auto; pose proof BIG_pos; lra.
Qed.
Lemma fdiv_nonneg x y : fle (fofZ 0) x = true -> is_finite y = true -> 0 < B2R y -> fle (fofZ 0) (fdiv x y) = true.
Proof.
  intros A Fy Py. pose proof (fdiv_mono _ _ y A Fy Py) as D. eapply fle_trans; [|exact D].
  destruct (fofZ_fin 0 ltac:(lia)) as [F0 V0]. destruct (fdiv_ord (fofZ 0) y F0 Fy ltac:(lra)) as [N E].
  apply fle_true. split; [reflexivity|]. split; auto. rewrite E, V0, ford_fofZ by lia. unfold Rdiv. rewrite Rmult_0_l, rnd_0. apply sat_ge_0. lra.
Qed.
Lemma fabs_fin (x : F) : is_finite x = true -> is_finite (fabs x) = true /\ B2R (fabs x) = Rabs (B2R x).
Proof. intros H. split; [now destruct x|]. apply B2R_Babs. Qed.

Lemma fpi_pos : is_finite (fhalfpi 2) = true /\ 0 < B2R (fhalfpi 2) /\ B2R (fhalfpi 2) = r2pi / 2.
Proof. destruct fpi_val as [A B]. pose proof r2pi_bounds. rewrite B. repeat split; auto; lra. Qed.
Lemma fmt_r2pi : fmt r2pi. Proof. rewrite <- f2pi_val. apply fmt_B2R. Qed.

Lemma gap_float t p : is_finite t = true -> 0 <= B2R t <= r2pi -> is_finite p = true -> 0 <= B2R p <= r2pi ->
  is_finite (phaseGap t p) = true /\ 0 <= B2R (phaseGap t p).
Proof.
  intros Ft Ht Fp Hp. unfold phaseGap. cbv zeta. change (@nabs F NF) with fabs. change (@nsub F NF) with fsub.
  change (@nlt F NF) with flt. change (@npi F NF) with (fhalfpi 2). change (@n2pi F NF) with f2pi.
  pose proof r2pi_bounds as RB.
  assert (S : Rabs (B2R p - B2R t) <= r2pi) by (apply Rabs_le; lra).
  pose proof bpow1023_big as BB.
  destruct (fsub_fin p t Fp Ft) as [FS VS]; [lra|].
  destruct (fabs_fin _ FS) as [FA VA].
  assert (RA : 0 <= B2R (fabs (fsub p t)) <= r2pi).
  { rewrite VA, VS. split; [apply Rabs_pos|]. apply Rabs_le_inv in S. apply Rabs_le. split.
    - apply rnd_ge_fmt; [apply fmt_opp, fmt_r2pi|lra].
    - apply rnd_le_fmt; [apply fmt_r2pi|lra]. }
  destruct (flt (fhalfpi 2) (fabs (fsub p t))) eqn:E; [|split; auto; lra].
  destruct (fsub_fin f2pi (fabs (fsub p t))) as [FG VG]; auto using f2pi_fin.
  { rewrite f2pi_val. apply Rabs_le. lra. }
  split; auto. rewrite VG, f2pi_val. apply rnd_ge_0. lra.
Qed.

Lemma fold_gap_nonneg t agents : is_finite t = true -> 0 <= B2R t <= r2pi -> Forall (fun a => in_turn (phaseOf a)) agents ->
  forall s, fle (fofZ 0) s = true ->
  fle (fofZ 0) (fold_left (fun s a => nadd s (phaseGap t (phaseOf a))) agents s) = true.
Proof.
  intros Ft Ht. induction 1 as [|a l H Hl IH]; intros s Hs; cbn [fold_left]; auto. apply IH.
  change (@nadd F NF) with fadd. apply fadd_nonneg; auto.
  destruct H as [Fp Hp]. change (fhalfpi 4) with f2pi in Hp. rewrite f2pi_val in Hp.
  destruct (gap_float t (phaseOf a) Ft Ht Fp ltac:(lra)) as [FG VG].
  apply fle_true. rewrite ford_fofZ, ford_fin by (auto; lia). repeat split; auto using fin_nan.
Qed.

(** For every population with phases in [0,2pi) and every normalised target the measure is in [0,1] (never NaN). *)
Theorem C31_convergence_float : forall agents target, is_finite target = true -> 0 <= B2R target <= B2R (fhalfpi 4) ->
  Forall (fun a => in_turn (phaseOf a)) agents -> (Z.of_nat (List.length agents) <= 2 ^ 53)%Z ->
  fle (fofZ 0) (MeasurePhaseConvergence agents target) = true /\
  fle (MeasurePhaseConvergence agents target) (fofZ 1) = true.
Proof.
  intros agents target Ft Ht Ha HL. change (fhalfpi 4) with f2pi in Ht. rewrite f2pi_val in Ht.
  destruct agents as [|a l]; [split; vm_compute; reflexivity|].
  unfold MeasurePhaseConvergence. cbv zeta. set (tot := fold_left _ _ _).
  assert (T0 : fle (fofZ 0) tot = true) by (apply fold_gap_nonneg; auto; vm_compute; reflexivity).
  set (n := Z.of_nat (List.length (a :: l))) in *.
  assert (Hn : (1 <= n <= 2 ^ 53)%Z) by (unfold n in *; cbn [List.length] in *; lia).
  destruct (fofZ_fin n ltac:(lia)) as [Fn Vn].
  change (@nofZ F NF) with fofZ. change (@ndiv F NF) with fdiv. change (@nsub F NF) with fsub. change (@nlt F NF) with flt.
  change (@npi F NF) with (fhalfpi 2). change (@n0 F NF) with (fofZ 0). change (@n1 F NF) with (fofZ 1).
  destruct fpi_pos as (Fpi & Ppi & _).
  assert (D : fle (fofZ 0) (fdiv (fdiv tot (fofZ n)) (fhalfpi 2)) = true).
  { apply fdiv_nonneg; auto. apply fdiv_nonneg; auto. rewrite Vn. apply (IZR_lt 0). lia. }
  set (q := fdiv (fdiv tot (fofZ n)) (fhalfpi 2)) in *.
  pose proof (one_sub_anti _ _ D) as A. assert (A1 : fle (fsub (fofZ 1) q) (fofZ 1) = true).
  { eapply fle_trans; [exact A|]. vm_compute. reflexivity. }
  destruct (flt (fsub (fofZ 1) q) (fofZ 0)) eqn:E; [split; vm_compute; reflexivity|]. split; auto.
  apply not_lt_fle; auto. apply fle_true in A1. tauto.
Qed.

(** REFUTED for goal phases as the validator accepts them (any finite phase): at target 4*pi the measure of an agent at
    phase 0 is 3. *)
Theorem C31_convergence_unnormalised_refuted : exists (g : State F) (a : Agent F), Validate g = true /\ in_turn (phaseOf a) /\
  flt (fofZ 2) (MeasurePhaseConvergence [a] (st_phase g)) = true.
Proof.
  exists (mkState (fhalfpi 8) 100000000 (flit 9 10)), (SetPhase (fofZ 0) (NewAgent "a" 0 0 0 [])).
  split; [vm_compute; reflexivity|]. split; [|vm_compute; reflexivity].
  assert (E : B2SF (phaseOf (SetPhase (fofZ 0) (NewAgent "a" 0 0 0 []))) = SpecFloat.S754_zero false) by (vm_compute; reflexivity).
  unfold in_turn. change (fhalfpi 4) with f2pi. rewrite f2pi_val. pose proof r2pi_bounds.
  destruct (phaseOf _) as [s| | |]; try discriminate E. cbn. repeat split; lra.
Qed.

(** ** Variance in float64: terminates after at most three corrections per agent and is never negative or NaN. *)
Lemma add_near (x y : F) : is_finite x = true -> is_finite y = true -> Rabs (B2R x + B2R y) < 16 ->
  is_finite (fadd x y) = true /\ Rabs (B2R (fadd x y) - (B2R x + B2R y)) <= bpow radix2 (-50).
Proof.
  intros Fx Fy H. pose proof bpow1023_big. destruct (fadd_fin x y Fx Fy) as [A B]; [lra|]. split; auto. rewrite B. now apply rnd_err16.
Qed.
Lemma sub_near (x y : F) : is_finite x = true -> is_finite y = true -> Rabs (B2R x - B2R y) < 16 ->
  is_finite (fsub x y) = true /\ Rabs (B2R (fsub x y) - (B2R x - B2R y)) <= bpow radix2 (-50).
Proof.
  intros Fx Fy H. pose proof bpow1023_big. destruct (fsub_fin x y Fx Fy) as [A B]; [lra|]. split; auto. rewrite B. now apply rnd_err16.
Qed.
Lemma e50 : 0 < bpow radix2 (-50) < 1 / 1000.
Proof. split; [apply bpow_gt_0|]. change (bpow radix2 (-50)) with (/ IZR (2 ^ 50)). replace (1 / 1000) with (/ 1000) by lra.
  apply Rinv_lt_contravar; [apply Rmult_lt_0_compat; [lra|apply (IZR_lt 0); reflexivity]|apply (IZR_lt 1000); reflexivity]. Qed.

Lemma loops_float fuel p m : (3 <= fuel)%nat -> in_turn p -> is_finite m = true -> Rabs (B2R m) <= B2R (fhalfpi 2) ->
  exists d d', loopDown fuel (nsub p m) = Some d /\ loopUp fuel d = Some d' /\ is_finite d' = true /\ Rabs (B2R d') < 16.
Proof.
  intros Hf [Fp Hp] Fm Hm. change (fhalfpi 4) with f2pi in Hp. rewrite f2pi_val in Hp.
  destruct fpi_pos as (Fpi & Ppi & Vpi). rewrite Vpi in Hm. apply Rabs_le_inv in Hm. pose proof r2pi_bounds as RB. pose proof e50 as E50.
  change (@nsub F NF) with fsub.
  destruct (sub_near p m Fp Fm) as [F0 V0]; [apply Rabs_def1; lra|]. apply Rabs_le_inv in V0. set (d0 := fsub p m) in *.
  assert (LT : forall x, is_finite x = true -> (flt (fhalfpi 2) x = true <-> r2pi / 2 < B2R x)).
  { intros x Fx. rewrite flt_true, !ford_fin by auto. rewrite Vpi. split; [tauto|]. intros; repeat split; auto using fin_nan. }
  assert (LT' : forall x, is_finite x = true -> (flt x (fneg (fhalfpi 2)) = true <-> B2R x < - (r2pi / 2))).
  { assert (Fn : is_finite (fneg (fhalfpi 2)) = true) by (vm_compute; reflexivity).
    assert (Vn : B2R (fneg (fhalfpi 2)) = - (r2pi / 2)) by (rewrite <- Vpi; apply B2R_Bopp).
    intros x Fx. rewrite flt_true, !ford_fin by auto. rewrite Vn. split; [tauto|]. intros; repeat split; auto using fin_nan. }
  destruct fuel as [|[|[|k]]]; try lia.
  assert (UP : forall x, is_finite x = true -> - 10 < B2R x < 10 -> - (r2pi / 2) - 1 < B2R x ->
     exists d', loopUp (S (S (S k))) x = Some d' /\ is_finite d' = true /\ Rabs (B2R d') < 16).
  { intros x Fx Bx Lx. cbn [loopUp]. change (@nlt F NF) with flt. change (@nneg F NF) with fneg. change (@npi F NF) with (fhalfpi 2).
    change (@nadd F NF) with fadd. change (@n2pi F NF) with f2pi.
    destruct (flt x (fneg (fhalfpi 2))) eqn:E.
    - apply LT' in E; auto. destruct (add_near x f2pi Fx f2pi_fin) as [F1 V1]; [rewrite f2pi_val; apply Rabs_def1; lra|].
      rewrite f2pi_val in V1. apply Rabs_le_inv in V1.
      destruct (flt (fadd x f2pi) (fneg (fhalfpi 2))) eqn:E2; [apply LT' in E2; auto; exfalso; lra|].
      exists (fadd x f2pi). repeat split; auto. apply Rabs_def1; lra.
    - exists x. repeat split; auto. apply Rabs_def1; lra. }
  cbn [loopDown]. change (@nlt F NF) with flt. change (@npi F NF) with (fhalfpi 2).
  change (@nsub F NF) with fsub. change (@n2pi F NF) with f2pi.
  destruct (flt (fhalfpi 2) d0) eqn:E0.
  - apply LT in E0; auto. destruct (sub_near d0 f2pi F0 f2pi_fin) as [F1 V1]; [rewrite f2pi_val; apply Rabs_def1; lra|].
    rewrite f2pi_val in V1. apply Rabs_le_inv in V1. set (d1 := fsub d0 f2pi) in *.
    destruct (flt (fhalfpi 2) d1) eqn:E1.
    + apply LT in E1; auto. destruct (sub_near d1 f2pi F1 f2pi_fin) as [F2 V2]; [rewrite f2pi_val; apply Rabs_def1; lra|].
      rewrite f2pi_val in V2. apply Rabs_le_inv in V2. set (d2 := fsub d1 f2pi) in *.
      destruct (flt (fhalfpi 2) d2) eqn:E2; [apply LT in E2; auto; exfalso; lra|].
      destruct (UP d2 F2 ltac:(lra) ltac:(lra)) as (d' & U & Q). exists d2, d'. tauto.
    + destruct (UP d1 F1 ltac:(lra) ltac:(lra)) as (d' & U & Q). exists d1, d'. tauto.
  - destruct (UP d0 F0 ltac:(lra) ltac:(lra)) as (d' & U & Q). exists d0, d'. tauto.
Qed.

Lemma var_loop_float fuel m agents : (3 <= fuel)%nat -> is_finite m = true -> Rabs (B2R m) <= B2R (fhalfpi 2) ->
  Forall (fun a => in_turn (phaseOf a)) agents ->
  forall acc, fle (fofZ 0) acc = true -> exists v, varLoop fuel m agents acc = Some v /\ fle (fofZ 0) v = true.
Proof.
  intros Hf Fm Hm. induction 1 as [|a l H Hl IH]; intros acc Hacc; cbn [varLoop]; [eauto|].
  destruct (loops_float fuel (phaseOf a) m Hf H Fm Hm) as (d & d' & E1 & E2 & Fd & Bd). rewrite E1, E2. apply IH.
  change (@nadd F NF) with fadd. change (@nmul F NF) with fmul. apply fadd_nonneg; auto.
  pose proof bpow1023_big as BB. apply Rabs_def2 in Bd.
  destruct (fmul_fin d' d' Fd Fd) as [FM VM]; [rewrite Rabs_pos_eq by nra; nra|].
  apply fle_true. rewrite ford_fofZ, ford_fin by (auto; lia). rewrite VM. repeat split; auto using fin_nan. apply rnd_ge_0. nra.
Qed.

Lemma sum_bounded (f : F -> F) : (forall x, is_finite x = true -> is_finite (f x) = true /\ Rabs (B2R (f x)) <= 1) ->
  forall agents, Forall (fun a => in_turn (phaseOf a)) agents -> forall s k, (0 <= k)%Z -> (k + Z.of_nat (List.length agents) <= 2 ^ 53)%Z ->
  is_finite s = true -> Rabs (B2R s) <= IZR k ->
  is_finite (fold_left (fun s a => fadd s (f (phaseOf a))) agents s) = true /\
  Rabs (B2R (fold_left (fun s a => fadd s (f (phaseOf a))) agents s)) <= IZR (k + Z.of_nat (List.length agents)).
Proof.
  intros Hf agents. induction 1 as [|a l [H _] Hl IH]; intros s k K0 K Fs Bs; cbn [fold_left List.length] in *.
  - rewrite Z.add_0_r. auto.
  - destruct (Hf _ H) as [F1 B1]. rewrite Nat2Z.inj_succ in K.
    assert (P : Rabs (B2R s + B2R (f (phaseOf a))) <= IZR (k + 1)).
    { rewrite plus_IZR. eapply Rle_trans; [apply Rabs_triang|]. lra. }
    assert (KB : IZR (k + 1) <= bpow radix2 1023).
    { apply Rle_trans with (IZR (2 ^ 53)); [apply IZR_le; lia|apply bpow1023_ge; lia]. }
    destruct (fadd_fin s (f (phaseOf a)) Fs F1) as [FA VA]; [lra|].
    specialize (IH (fadd s (f (phaseOf a))) (k + 1)%Z ltac:(lia) ltac:(lia) FA).
    rewrite Nat2Z.inj_succ. replace (k + Z.succ (Z.of_nat (List.length l)))%Z with (k + 1 + Z.of_nat (List.length l))%Z by lia.
    apply IH. rewrite VA. apply Rabs_le_inv in P. apply Rabs_le. split.
    + apply rnd_ge_fmt; [apply fmt_opp, fmt_IZR; lia|lra].
    + apply rnd_le_fmt; [apply fmt_IZR; lia|lra].
Qed.

Lemma div_bounded x n : is_finite x = true -> (1 <= n <= 2 ^ 53)%Z -> Rabs (B2R x) <= IZR n ->
  is_finite (fdiv x (fofZ n)) = true /\ Rabs (B2R (fdiv x (fofZ n))) <= 1.
Proof.
  intros Fx Hn B. destruct (fofZ_fin n ltac:(lia)) as [Fn Vn].
  assert (P : 1 <= IZR n) by (apply IZR_le; lia).
  assert (Q : Rabs (B2R x / IZR n) <= 1).
  { unfold Rdiv. rewrite Rabs_mult, (Rabs_pos_eq (/ IZR n)) by (left; apply Rinv_0_lt_compat; lra). apply Rle_div_l; lra. }
  pose proof bpow1023_big. destruct (fdiv_fin x (fofZ n) Fx Fn ltac:(lra)) as [FD VD]; [rewrite Vn; lra|].
  split; auto. rewrite VD, Vn. apply Rabs_le_inv in Q. apply Rabs_le. split.
  - apply rnd_ge_fmt; [apply (fmt_IZR (-1)); lia|lra].
  - apply rnd_le_fmt; [apply (fmt_IZR 1); lia|lra].
Qed.

Lemma mean_sane agents : trig_sane tr -> agents <> [] -> Forall (fun a => in_turn (phaseOf a)) agents ->
  (Z.of_nat (List.length agents) <= 2 ^ 53)%Z ->
  is_finite (meanPhase agents) = true /\ Rabs (B2R (meanPhase agents)) <= B2R (fhalfpi 2).
Proof.
  intros S NE H L. unfold meanPhase. cbv zeta. change (@natan2 F NF) with (tatan2 tr).
  change (@nadd F NF) with fadd. change (@nsin F NF) with (tsin tr). change (@ncos F NF) with (tcos tr).
  change (@ndiv F NF) with fdiv. change (@nofZ F NF) with fofZ. change (@n0 F NF) with (fofZ 0).
  destruct (fofZ_fin 0 ltac:(lia)) as [F0 V0]. assert (B0 : Rabs (B2R (fofZ 0)) <= IZR 0) by (rewrite V0, Rabs_R0; lra).
  destruct (sum_bounded (tsin tr) (sane_sin tr S) agents H (fofZ 0) 0 ltac:(lia) ltac:(lia) F0 B0) as [FS BS].
  destruct (sum_bounded (tcos tr) (sane_cos tr S) agents H (fofZ 0) 0 ltac:(lia) ltac:(lia) F0 B0) as [FC BC].
  rewrite Z.add_0_l in *.
  assert (L1 : (1 <= Z.of_nat (List.length agents) <= 2 ^ 53)%Z) by (destruct agents; [congruence|cbn [List.length] in *; lia]).
  apply (sane_atan2 tr S); apply div_bounded; auto.
Qed.

Theorem C31_variance_float : forall fuel agents, trig_sane tr -> (3 <= fuel)%nat ->
  Forall (fun a => in_turn (phaseOf a)) agents -> (Z.of_nat (List.length agents) <= 2 ^ 53)%Z ->
  exists v, MeasurePhaseVariance fuel agents = Some v /\ fle (fofZ 0) v = true.
Proof.
  intros fuel agents S Hf H L. destruct agents as [|a l]; [exists (fofZ 0); split; [reflexivity|vm_compute; reflexivity]|].
  destruct (mean_sane (a :: l) S ltac:(discriminate) H L) as [Fm Bm].
  destruct (var_loop_float fuel _ _ Hf Fm Bm H (fofZ 0) ltac:(vm_compute; reflexivity)) as (v & E & V).
  unfold MeasurePhaseVariance. change (@n0 F NF) with (fofZ 0). rewrite E. eexists. split; [reflexivity|].
  change (@ndiv F NF) with fdiv. change (@nofZ F NF) with fofZ.
  destruct (fofZ_fin (Z.of_nat (List.length (a :: l))) ltac:(lia)) as [Fn Vn]. apply fdiv_nonneg; auto.
  rewrite Vn. apply (IZR_lt 0). cbn [List.length]. lia.
Qed.
End Float.
Example C31_float_example : exists tr, trig_sane tr /\ exists a : Agent F, in_turn (phaseOf a) /\
  is_finite (fhalfpi 3) = true /\ 0 <= B2R (fhalfpi 3) <= B2R (fhalfpi 4).
Proof.
  exists flatTrig. split; [exact flat_sane|].
  exists (@NewAgent F (FNum flatTrig) "a" 0 0 0 []). split; [|split].
  - assert (E : B2SF (phaseOf (@NewAgent F (FNum flatTrig) "a" 0 0 0 [])) = SpecFloat.S754_zero false) by (vm_compute; reflexivity).
    unfold in_turn. change (fhalfpi 4) with f2pi. rewrite f2pi_val. pose proof r2pi_bounds.
    destruct (phaseOf _) as [s| | |]; try discriminate E. cbn. repeat split; lra.
  - vm_compute. reflexivity.
  - assert (A : fle (fofZ 0) (fhalfpi 3) = true /\ fle (fhalfpi 3) (fhalfpi 4) = true) by (split; vm_compute; reflexivity).
    destruct A as [A B]. apply fle_true in A, B. rewrite ford_fofZ in A by lia. rewrite !ford_fin in A, B by (vm_compute; reflexivity). tauto.
Qed.

Print Assumptions C31_convergence_is_mean_distance.
Print Assumptions C31_variance_nonneg_and_zero.
Print Assumptions C31_convergence_float.
Print Assumptions C31_variance_float.
Print Assumptions C31_convergence_range_and_one.
Print Assumptions C31_variance_is_mean_square.
Print Assumptions C31_convergence_unnormalised_refuted.
