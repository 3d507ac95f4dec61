(** Property theorems C01-C06 (emerge/core). *)
From Coq Require Import ZArith Reals Psatz Bool List Permutation.
From Flocq Require Import Core.Core IEEE754.BinarySingleNaN.
From Verif Require Import Num F64 RealNum S_Circle S_Pattern M_Core
  L_F64 L_PhaseF L_Circle L_Coherence L_State L_Pattern.
Import ListNotations.
Open Scope R_scope.

(* ------------------------------------------------------------------ C01 *)

(** Float level: any finite phase is mapped into [0, 2*math.Pi) (sign bit clear), a whole
    number of turns away up to one rounding (2^-50 < 1e-15). *)
Theorem C01_wrap_float : forall (tr : Trig) (x : F), is_finite x = true ->
  let r := @WrapPhase F (FNum tr) x in
  is_finite r = true /\ Bsign r = false /\ 0 <= B2R r < B2R (fhalfpi 4) /\
  exists k : Z, Rabs (B2R r - (B2R x - IZR k * B2R (fhalfpi 4))) <= bpow radix2 (-50).
Proof. intros tr x Hx. fold f2pi. rewrite f2pi_val. exact (wrap_spec tr x Hx). Qed.
Print Assumptions C01_wrap_float.

Theorem C01_wrap_float_nonfinite : forall (tr : Trig) (x : F), is_finite x = false ->
  @WrapPhase F (FNum tr) x = B754_nan.
Proof. exact wrap_nan. Qed.
Print Assumptions C01_wrap_float_nonfinite.

Theorem C01_wrap_float_stable : forall (tr : Trig) (x : F), is_finite x = true ->
  let w := @WrapPhase F (FNum tr) in w (w (w x)) = w (w x).
Proof. exact wrap_thrice. Qed.
Print Assumptions C01_wrap_float_stable.

(** Plain idempotence fails in floating point: -1 - 2^-50. *)
Theorem C01_wrap_float_idempotent_refuted : exists x : F, is_finite x = true /\
  forall tr, @WrapPhase F (FNum tr) (@WrapPhase F (FNum tr) x) <> @WrapPhase F (FNum tr) x.
Proof.
  exists (binary_normalize 53 1024 _ _ mode_NE (- (2 ^ 50 + 1)) (-50) false).
  split; [vm_compute; reflexivity|]. intros tr E. apply (f_equal B2SF) in E. vm_compute in E. discriminate.
Qed.
Print Assumptions C01_wrap_float_idempotent_refuted.

(** Exact arithmetic: the unique representative, hence idempotent. *)
Theorem C01_wrap_exact : forall x : R,
  0 <= @WrapPhase R RNum x < 2 * PI /\ cong (@WrapPhase R RNum x) x.
Proof. exact RWrap_spec. Qed.
Print Assumptions C01_wrap_exact.

Theorem C01_wrap_exact_unique : forall x r : R, 0 <= r < 2 * PI -> cong r x ->
  @WrapPhase R RNum x = r.
Proof. exact RWrap_unique. Qed.
Print Assumptions C01_wrap_exact_unique.

Theorem C01_wrap_exact_idempotent : forall x : R,
  @WrapPhase R RNum (@WrapPhase R RNum x) = @WrapPhase R RNum x.
Proof.
  intros x. apply RWrap_unique; [apply RWrap_spec|apply cong_refl].
Qed.
Print Assumptions C01_wrap_exact_idempotent.

Example C01_hyp : is_finite (fofZ (-7)) = true /\
  forall tr, flt (@WrapPhase F (FNum tr) (fofZ (-7))) (fhalfpi 4) = true.
Proof. split; vm_compute; reflexivity. Qed.
Example C01_exact_hyp : cong (PI / 2) (5 * PI / 2) /\ 0 <= PI / 2 < 2 * PI.
Proof. split; [exists (-1)%Z; simpl; field|pose proof PI_RGT_0; lra]. Qed.

(* ------------------------------------------------------------------ C02 *)

(** Outside the two 1e-10 windows special-cased by the source, PhaseDifference a b is the
    signed shortest arc from b to a. *)
Theorem C02_phase_difference : forall a b : R, ~ pd_special a b ->
  let d := @PhaseDifference R RNum a b in
  - PI < d <= PI /\ cong (b + d) a /\ is_arc a b (Rabs d).
Proof. exact RPD_spec. Qed.
Print Assumptions C02_phase_difference.

Theorem C02_phase_difference_range : forall a b : R,
  - PI <= @PhaseDifference R RNum a b <= PI.
Proof. exact RPD_range. Qed.
Print Assumptions C02_phase_difference_range.

(** Everywhere, windows included: the magnitude is the arc up to 2e-10. *)
Theorem C02_phase_difference_magnitude : forall a b d : R, is_arc a b d ->
  Rabs (Rabs (@PhaseDifference R RNum a b) - d) <= 2 / 10000000000.
Proof.
  intros a b d H. destruct (RPD_arc a b d H) as [->|[-> E]].
  - rewrite Rminus_diag_eq, Rabs_R0 by auto. lra.
  - rewrite Rabs_minus_sym. exact E.
Qed.
Print Assumptions C02_phase_difference_magnitude.

Lemma C02_antisym_lemma a b : ~ pd_special a b -> RPD a b <> PI -> RPD b a = - RPD a b.
Proof.
  intros H N. destruct (RPD_spec a b H) as (A & B & _).
  assert (H' : ~ pd_special b a) by (unfold pd_special in *; tauto).
  destruct (RPD_spec b a H') as (A' & B' & _).
  apply cong_unique_pi; try lra.
  destruct B as [k Hk]. destruct B' as [j Hj]. exists (k + j)%Z. rewrite plus_IZR. lra.
Qed.
Theorem C02_antisymmetric : forall a b : R, ~ pd_special a b ->
  @PhaseDifference R RNum a b <> PI ->
  @PhaseDifference R RNum b a = - @PhaseDifference R RNum a b.
Proof. exact C02_antisym_lemma. Qed.
Print Assumptions C02_antisymmetric.

(** At (0, 3*pi/2) the result is -pi/2, a quarter turn in the wrong direction. *)
Theorem C02_shortest_arc_refuted : exists a b : R,
  @PhaseDifference R RNum a b = - (PI / 2) /\ ~ cong (b + @PhaseDifference R RNum a b) a.
Proof.
  exists 0, (3 * PI / 2).
  assert (E : RPD 0 (3 * PI / 2) = - (PI / 2)).
  { apply RPD_special1; [rewrite Rabs_R0; lra|]. rewrite Rminus_diag_eq, Rabs_R0 by auto. lra. }
  split; [exact E|]. rewrite E. intros [k Hk]. pose proof PI_RGT_0.
  assert (E2 : 2 * IZR k = 1). { apply Rmult_eq_reg_r with PI; lra. }
  rewrite <- mult_IZR in E2. apply eq_IZR in E2. lia.
Qed.
Print Assumptions C02_shortest_arc_refuted.

(** The same at float level, whatever the library's sin/cos/atan2 are. *)
Theorem C02_shortest_arc_float_refuted : forall tr : Trig,
  @PhaseDifference F (FNum tr) (fofZ 0) (fhalfpi 3) = fhalfpi (-1).
Proof. intros tr. reflexivity. Qed.
Print Assumptions C02_shortest_arc_float_refuted.

(** Antisymmetry also fails at exact antipodes: both orders give +pi. *)
Theorem C02_antisymmetric_refuted : exists a b : R,
  @PhaseDifference R RNum b a <> - @PhaseDifference R RNum a b.
Proof.
  exists PI, 0. pose proof PI_RGT_0 as HP. pose proof PI_gt3 as H3.
  assert (N1 : ~ pd_special PI 0).
  { unfold pd_special. intros [[A B]|[A B]].
    - apply Rabs_def2 in A. lra.
    - apply Rabs_def2 in A. lra. }
  assert (N2 : ~ pd_special 0 PI) by (unfold pd_special in *; tauto).
  assert (E1 : RPD PI 0 = PI).
  { destruct (RPD_spec PI 0 N1) as (A & B & _). apply cong_unique_pi; try lra.
    destruct B as [k Hk]. exists k. lra. }
  assert (E2 : RPD 0 PI = PI).
  { destruct (RPD_spec 0 PI N2) as (A & B & _). apply cong_unique_pi; try lra.
    destruct B as [k Hk]. exists (k - 1)%Z. rewrite minus_IZR. simpl. lra. }
  rewrite E1, E2. lra.
Qed.
Print Assumptions C02_antisymmetric_refuted.

Example C02_hyp : ~ pd_special 1 2.
Proof. unfold pd_special. rewrite (Rabs_right 1), (Rabs_right 2) by lra. lra. Qed.

(* ------------------------------------------------------------------ C03 *)

Theorem C03_coherence_bounds : forall l : list R, 0 <= @MeasureCoherence R RNum l <= 1.
Proof. exact RMC_bounds. Qed.
Print Assumptions C03_coherence_bounds.

Theorem C03_coherence_empty : forall {T} (N : Num T), @MeasureCoherence T N [] = nofZ 0.
Proof. reflexivity. Qed.
Print Assumptions C03_coherence_empty.

Theorem C03_coherence_one_iff : forall l : list R, l <> [] ->
  (@MeasureCoherence R RNum l = 1 <-> forall p q, In p l -> In q l -> cong p q).
Proof. exact RMC_one_iff. Qed.
Print Assumptions C03_coherence_one_iff.

Theorem C03_coherence_single : forall p : R, @MeasureCoherence R RNum [p] = 1.
Proof.
  intros p. apply RMC_one_iff; [discriminate|]. intros x y [<-|[]] [<-|[]]. apply cong_refl.
Qed.
Print Assumptions C03_coherence_single.

Theorem C03_coherence_order : forall l l' : list R, Permutation l l' ->
  @MeasureCoherence R RNum l = @MeasureCoherence R RNum l'.
Proof. exact RMC_perm. Qed.
Print Assumptions C03_coherence_order.

Theorem C03_coherence_turns : forall l l' : list R, Forall2 cong l l' ->
  @MeasureCoherence R RNum l = @MeasureCoherence R RNum l'.
Proof. exact RMC_cong. Qed.
Print Assumptions C03_coherence_turns.

Theorem C03_coherence_rotation : forall (a : R) (l : list R),
  @MeasureCoherence R RNum (map (fun p => p + a) l) = @MeasureCoherence R RNum l.
Proof. exact RMC_rotate. Qed.
Print Assumptions C03_coherence_rotation.

Theorem C03_coherence_equally_spaced : forall (a : R) (n : nat), (2 <= n)%nat ->
  @MeasureCoherence R RNum (map (fun k => a + 2 * PI * INR k / INR n) (seq 0 n)) = 0.
Proof. exact RMC_equal_spacing. Qed.
Print Assumptions C03_coherence_equally_spaced.

Example C03_hyp : Permutation [1; 2; 3] [3; 1; 2] /\ Forall2 cong [0; 1] [2 * PI; 1].
Proof.
  split.
  - apply Permutation_sym. apply Permutation_cons_app with (l1 := [1; 2]) (l2 := []). reflexivity.
  - repeat constructor; [exists (-1)%Z; simpl; ring|apply cong_refl].
Qed.

(* ------------------------------------------------------------------ C04 *)

Theorem C04_weighted_bounds : forall ps ws : list R, (forall w, In w ws -> 0 <= w) ->
  0 <= @MeasureCoherenceWeighted R RNum ps ws <= 1.
Proof. exact RMCW_bounds. Qed.
Print Assumptions C04_weighted_bounds.

Theorem C04_weighted_excess : forall ps ws : list R,
  @MeasureCoherenceWeighted R RNum ps ws =
  @MeasureCoherenceWeighted R RNum (firstn (length ws) ps) (firstn (length ps) ws).
Proof. exact RMCW_excess. Qed.
Print Assumptions C04_weighted_excess.

Theorem C04_weighted_zero : forall ps ws : list R,
  fold_right Rplus 0 (firstn (length ps) ws) = 0 -> @MeasureCoherenceWeighted R RNum ps ws = 0.
Proof.
  intros ps ws H. apply RMCW_zero. rewrite <- H. clear H. revert ws.
  induction ps as [|p ps IH]; intros [|w ws]; simpl; auto. now rewrite IH.
Qed.
Print Assumptions C04_weighted_zero.

Theorem C04_weighted_equal : forall (ps : list R) (c : R), 0 < c ->
  @MeasureCoherenceWeighted R RNum ps (repeat c (length ps)) = @MeasureCoherence R RNum ps.
Proof. exact RMCW_equal. Qed.
Print Assumptions C04_weighted_equal.

Theorem C04_weighted_scale : forall (c : R) (ps ws : list R), 0 < c ->
  @MeasureCoherenceWeighted R RNum ps (map (fun w => c * w) ws) =
  @MeasureCoherenceWeighted R RNum ps ws.
Proof. exact RMCW_scale. Qed.
Print Assumptions C04_weighted_scale.

(** The doc comment does not exclude negative weights; with them the bound fails. *)
Theorem C04_negative_weights_refuted : exists ps ws : list R,
  @MeasureCoherenceWeighted R RNum ps ws > 1.
Proof. exact RMCW_negative. Qed.
Print Assumptions C04_negative_weights_refuted.

Example C04_hyp : forall w, In w [1; 0; 3] -> 0 <= w.
Proof. simpl. intros w H. intuition lra. Qed.
Example C04_zero_hyp : fold_right Rplus 0 (firstn (length [1; 2]) [0; 0; 5]) = 0.
Proof. simpl. lra. Qed.

(* ------------------------------------------------------------------ C05 *)

(** A nil error leaves phase in [0,2*math.Pi), coherence in [0,1], positive frequency, and a
    state Validate accepts. *)
Theorem C05_normalize_ok : forall (tr : Trig) (fuel : nat) (s s' : State F),
  @NormalizeAndValidate F (FNum tr) fuel s = Some (s', true) ->
  (is_finite (st_phase s') = true /\ 0 <= B2R (st_phase s') < B2R (fhalfpi 4)) /\
  (is_finite (st_coh s') = true /\ 0 <= B2R (st_coh s') <= 1) /\
  (0 < st_freq s')%Z /\ @Validate F (FNum tr) s' = true.
Proof. intros tr k s s'. fold f2pi. rewrite f2pi_val. exact (nav_ok tr k s s'). Qed.
Print Assumptions C05_normalize_ok.

(** When it returns, it reports an error exactly for a non-finite phase or NaN coherence. *)
Theorem C05_error_iff : forall (tr : Trig) (fuel : nat) (s s' : State F) (ok : bool),
  @NormalizeAndValidate F (FNum tr) fuel s = Some (s', ok) ->
  (ok = false <-> is_finite (st_phase s) = false \/ fisnan (st_coh s) = true).
Proof. exact nav_error_iff. Qed.
Print Assumptions C05_error_iff.

Theorem C05_in_range_unchanged : forall (tr : Trig) (fuel : nat) (s : State F),
  (is_finite (st_phase s) = true /\ 0 <= B2R (st_phase s) < B2R (fhalfpi 4)) ->
  (is_finite (st_coh s) = true /\ 0 <= B2R (st_coh s) <= 1) -> (0 < st_freq s)%Z ->
  @NormalizeAndValidate F (FNum tr) fuel s = Some (s, true).
Proof. intros tr k s. fold f2pi. rewrite f2pi_val. exact (nav_id tr k s). Qed.
Print Assumptions C05_in_range_unchanged.

(** Validate itself. *)
Theorem C05_validate_iff : forall (tr : Trig) (s : State F),
  @Validate F (FNum tr) s = true <->
  (0 < st_freq s)%Z /\ (is_finite (st_coh s) = true /\ 0 <= B2R (st_coh s) <= 1) /\
  is_finite (st_phase s) = true.
Proof. exact valid_iff. Qed.
Print Assumptions C05_validate_iff.

(** The loops terminate exactly for non-finite phases and |phase| <= 2^56. *)
Theorem C05_terminates_iff : forall (tr : Trig) (s : State F),
  (exists fuel, @NormalizeAndValidate F (FNum tr) fuel s <> None) <->
  (is_finite (st_phase s) = false \/ Rabs (B2R (st_phase s)) <= bpow radix2 56).
Proof. exact nav_terminates. Qed.
Print Assumptions C05_terminates_iff.

(** So "terminates for every finite phase" is false, e.g. for the phase 2^60. *)
Theorem C05_termination_refuted : exists s : State F,
  is_finite (st_phase s) = true /\ (0 < st_freq s)%Z /\
  forall tr fuel, @Validate F (FNum tr) s = true /\ @NormalizeAndValidate F (FNum tr) fuel s = None.
Proof.
  exists (mkState (fofZ (2 ^ 60)) 1000%Z (fofZ 1)). split; [vm_compute; reflexivity|]. split; [cbn; lia|].
  intros tr fuel. split; [vm_compute; reflexivity|].
  apply nav_none. rewrite norm_unfold. cbn [st_phase].
  assert (H : B2SF (fofZ (2 ^ 60)) = SpecFloat.S754_finite false 4503599627370496 8) by (vm_compute; reflexivity).
  apply B2R_of_B2SF in H. destruct H as [H1 H2]. rewrite H1.
  rewrite nup_unfold.
  assert (flt (fofZ (2 ^ 60)) (fofZ 0) = false) as -> by (vm_compute; reflexivity).
  rewrite ndown_div; auto. rewrite H2, P56_val. unfold F2R. simpl Fnum. simpl Fexp.
  change (bpow radix2 8) with (IZR (2 ^ 8)). rewrite <- mult_IZR. apply IZR_lt. simpl. lia.
Qed.
Print Assumptions C05_termination_refuted.

Example C05_hyp : forall tr,
  match @NormalizeAndValidate F (FNum tr) 5 (mkState (fofZ (-7)) 0 (fofZ 3)) with
  | Some (s', b) => b && (st_freq s' =? 100000000)%Z | None => false end = true.
Proof. intros tr. vm_compute. reflexivity. Qed.

(* ------------------------------------------------------------------ C06 *)

Theorem C06_distance_nil : forall {T} (N : Num T) p,
  @PatternDistance T N None p = nmaxfloat /\ @PatternDistance T N p None = nmaxfloat.
Proof. intros T N [p|]; split; reflexivity. Qed.
Print Assumptions C06_distance_nil.

Theorem C06_distance_range : forall c t : TargetPattern R,
  0 <= tp_coh c <= 1 -> 0 <= tp_coh t <= 1 ->
  0 <= @PatternDistance R RNum (Some c) (Some t) <= 1.
Proof. exact Rdist_range. Qed.
Print Assumptions C06_distance_range.

(** Zero distance = same phase on the circle, same coherence, same frequency (the latter is
    only looked at for a positive target frequency). *)
Theorem C06_distance_zero_iff : forall c t : TargetPattern R,
  @PatternDistance R RNum (Some c) (Some t) = 0 <->
  cong (tp_phase c) (tp_phase t) /\ ((0 < tp_freq t)%Z -> tp_freq c = tp_freq t) /\
  tp_coh c = tp_coh t.
Proof. exact Rdist_0_iff. Qed.
Print Assumptions C06_distance_zero_iff.

Theorem C06_gaps_exact : forall c t : TargetPattern R,
  (In GapPhase (map gap_type (@IdentifyGaps R RNum c t)) <-> phase_off (tp_phase c) (tp_phase t)) /\
  (In GapFrequency (map gap_type (@IdentifyGaps R RNum c t)) <-> freq_off (tp_freq c) (tp_freq t)) /\
  (In GapCoherence (map gap_type (@IdentifyGaps R RNum c t)) <-> coh_off (tp_coh c) (tp_coh t)) /\
  (exists b1 b2 b3 : bool, map gap_type (@IdentifyGaps R RNum c t) =
     (if b1 then [GapPhase] else []) ++ (if b2 then [GapFrequency] else []) ++
     (if b3 then [GapCoherence] else [])).
Proof. exact gaps_spec. Qed.
Print Assumptions C06_gaps_exact.

Theorem C06_gaps_empty_iff : forall c t : TargetPattern R,
  @IdentifyGaps R RNum c t = [] <->
  ~ phase_off (tp_phase c) (tp_phase t) /\ ~ freq_off (tp_freq c) (tp_freq t) /\
  ~ coh_off (tp_coh c) (tp_coh t).
Proof. exact gaps_empty. Qed.
Print Assumptions C06_gaps_empty_iff.

Theorem C06_gap_values : forall (c t : TargetPattern R) (g : PatternGap R),
  In g (@IdentifyGaps R RNum c t) ->
  match gap_type g with
  | GapPhase => gap_current g = tp_phase c /\ gap_target g = tp_phase t
  | GapFrequency => gap_current g = IZR (tp_freq c) /\ gap_target g = IZR (tp_freq t)
  | GapCoherence => gap_current g = tp_coh c /\ gap_target g = tp_coh t
  | _ => False
  end.
Proof. exact gaps_values. Qed.
Print Assumptions C06_gap_values.

(** Severities are in (0,1] except for a frequency gap whose current period is more than
    twice the target. *)
Theorem C06_gap_severity : forall (c t : TargetPattern R) (g : PatternGap R),
  0 <= tp_coh c <= 1 -> 0 <= tp_coh t <= 1 -> In g (@IdentifyGaps R RNum c t) ->
  0 < gap_severity g /\ (gap_type g <> GapFrequency -> gap_severity g <= 1) /\
  (gap_type g = GapFrequency -> (tp_freq c <= 2 * tp_freq t)%Z -> gap_severity g <= 1).
Proof. exact gaps_severity. Qed.
Print Assumptions C06_gap_severity.

Theorem C06_gap_severity_refuted : exists (c t : TargetPattern R) (g : PatternGap R),
  0 <= tp_coh c <= 1 /\ 0 <= tp_coh t <= 1 /\ In g (@IdentifyGaps R RNum c t) /\ gap_severity g = 9.
Proof. exact gaps_severity_freq_large. Qed.
Print Assumptions C06_gap_severity_refuted.

Theorem C06_sine_wave : forall n : nat,
  length (@GenerateSineWave R RNum n) = n /\
  (forall x, In x (@GenerateSineWave R RNum n) -> -1 <= x <= 1) /\
  (forall i, (i < n)%nat -> nth i (@GenerateSineWave R RNum n) 2 = sin (2 * PI * INR i / INR n)).
Proof. exact sine_wave. Qed.
Print Assumptions C06_sine_wave.

Example C06_hyp : exists c t : TargetPattern R,
  0 <= tp_coh c <= 1 /\ 0 <= tp_coh t <= 1 /\ coh_off (tp_coh c) (tp_coh t) /\
  freq_off (tp_freq c) (tp_freq t).
Proof.
  exists (mkTP 0 100 0 (1/2) [] 0), (mkTP 0 50 0 1 [] 0). simpl. unfold coh_off, freq_off.
  repeat split; try lra; try lia. rewrite Rabs_right; lra.
Qed.
