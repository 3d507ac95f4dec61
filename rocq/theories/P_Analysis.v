(** Property theorems C57 (quality words), C58 (diagnosis), C59 (rate), C60 (clamping, smaller, larger). *)
From Coq Require Import ZArith Reals Psatz Bool List String Lia.
From Flocq Require Import Core.Core IEEE754.BinarySingleNaN.
From Verif Require Import Num F64 RealNum M_Analysis S_Analysis L_F64 L_F64x L_Ford.
Import ListNotations.
Open Scope R_scope.

Section S.
Variable tr : Trig.
Notation NF := (FNum tr).

(** ** C57 *)
Lemma marks_sorted : fle (flit 2 10) (flit 4 10) = true /\ fle (flit 4 10) (flit 6 10) = true /\ fle (flit 6 10) (flit 8 10) = true.
Proof. vm_compute; auto. Qed.
Lemma flip c t : fisnan c = false -> fisnan t = false -> flt c t = negb (fle t c).
Proof.
  intros Hc Ht. destruct (flt c t) eqn:E.
  - now rewrite (flt_not_le _ _ E).
  - now rewrite (not_lt_fle _ _ Ht Hc E).
Qed.
Lemma band_rank {A} (c : F) (a0 a1 a2 a3 a4 d : A) : fisnan c = false ->
  @band F NF A c a0 a1 a2 a3 a4 = nth (rank c) [a0; a1; a2; a3; a4] d.
Proof.
  intros H. unfold band. cbn [nlt nlit FNum]. rewrite !flip by (assumption || (vm_compute; reflexivity)).
  unfold rank, marks. destruct marks_sorted as (M1 & M2 & M3). cbn [filter].
  destruct (fle (flit 8 10) c) eqn:E8.
  { rewrite (fle_trans _ _ _ M3 E8), (fle_trans _ _ _ M2 (fle_trans _ _ _ M3 E8)),
      (fle_trans _ _ _ M1 (fle_trans _ _ _ M2 (fle_trans _ _ _ M3 E8))). reflexivity. }
  destruct (fle (flit 6 10) c) eqn:E6.
  { rewrite (fle_trans _ _ _ M2 E6), (fle_trans _ _ _ M1 (fle_trans _ _ _ M2 E6)). reflexivity. }
  destruct (fle (flit 4 10) c) eqn:E4.
  { rewrite (fle_trans _ _ _ M1 E4). reflexivity. }
  destruct (fle (flit 2 10) c) eqn:E2; reflexivity.
Qed.
(** The word is the one whose place is the number of marks reached. *)
Theorem C57_level : forall c : F, fisnan c = false ->
  @InterpretCoherenceLevel F NF c = nth (rank c) levelWords ""%string.
Proof. intros c H. unfold InterpretCoherenceLevel. now rewrite (band_rank c _ _ _ _ _ ""%string). Qed.
Theorem C57_sync_words : forall (c : F) mode, fisnan c = false -> mode <> "batch"%string ->
  @DescribeSyncQuality F NF c mode false = nth (rank c) syncWords ""%string.
Proof.
  intros c mode H Hm. unfold DescribeSyncQuality. apply String.eqb_neq in Hm. rewrite Hm.
  destruct (String.eqb mode "sync"); unfold describeSyncMode; now rewrite (band_rank c _ _ _ _ _ ""%string).
Qed.
Theorem C57_batch_words : forall c : F, fisnan c = false ->
  @DescribeSyncQuality F NF c "batch" false = nth (rank c) batchWords ""%string.
Proof.
  intros c H. unfold DescribeSyncQuality. cbn [String.eqb Ascii.eqb Bool.eqb].
  unfold describeBatchMode. now rewrite (band_rank c _ _ _ _ _ ""%string).
Qed.
(** A better coherence never gets a lower place. *)
Theorem C57_monotone : forall c c' : F, fle c c' = true -> (rank c <= rank c')%nat.
Proof.
  intros c c' H. unfold rank. generalize marks. induction l as [|t l IH]; cbn [filter]; [auto|].
  destruct (fle t c) eqn:E.
  - rewrite (fle_trans _ _ _ E H). cbn [List.length]. lia.
  - destruct (fle t c'); cbn [List.length]; lia.
Qed.
(** The emoji only decorates: with or without it two coherences are told apart in the same way. *)
Theorem C57_emoji : forall (c c' : F) mode, fisnan c = false -> fisnan c' = false ->
  (@DescribeSyncQuality F NF c mode true = @DescribeSyncQuality F NF c' mode true <->
   @DescribeSyncQuality F NF c mode false = @DescribeSyncQuality F NF c' mode false).
Proof.
  intros c c' mode H H'. unfold DescribeSyncQuality, describeSyncMode, describeBatchMode.
  assert (R : forall x, (rank x < 5)%nat).
  { intros x. unfold rank. apply Nat.lt_succ_r. change 4%nat with (List.length marks).
    generalize marks. induction l as [|t l IH]; cbn [filter]; [auto|]. destruct (fle t x); cbn [List.length]; lia. }
  pose proof (R c) as Rc. pose proof (R c') as Rc'.
  rewrite !(band_rank c _ _ _ _ _ ""%string), !(band_rank c' _ _ _ _ _ ""%string) by assumption.
  destruct (rank c) as [|[|[|[|[|]]]]], (rank c') as [|[|[|[|[|]]]]]; try lia;
    destruct (String.eqb mode "sync"), (String.eqb mode "batch"); cbn [nth]; split; intros E; try reflexivity; discriminate E.
Qed.
(** A coherence that is not a number is called excellent. *)
Theorem C57_nan_refuted : exists c : F, fle (flit 8 10) c = false /\
  @InterpretCoherenceLevel F NF c = "Excellent"%string.
Proof. exists fnan. split; reflexivity. Qed.
Example C57_applies : fisnan (flit 65 100) = false /\ rank (flit 65 100) = 3%nat /\
  @InterpretCoherenceLevel F NF (flit 65 100) = "Good"%string.
Proof. repeat split; vm_compute; reflexivity. Qed.

(** ** C58 *)
(** Success is reported exactly when the target is reached, and then there is nothing to suggest. *)
Theorem C58_success : forall s target mode,
  (fle target (rs_final s) = true <-> fst (@Diagnose F NF s target mode) = SumOK (rs_final s)) /\
  (fle target (rs_final s) = true <-> snd (@Diagnose F NF s target mode) = []).
Proof.
  intros s t mode. unfold Diagnose. cbn [nle FNum]. destruct (fle t (rs_final s)).
  - split; split; reflexivity.
  - destruct (_ <? _)%Z; [|destruct (nlt _ _); [|destruct (nlt _ _)]]; split; split; intros E; discriminate E.
Qed.
(** A run that missed its target gets at least two suggestions; being stuck in batch mode gives two more. *)
Theorem C58_suggestions : forall s target mode, fle target (rs_final s) = false ->
  (2 <= List.length (snd (@Diagnose F NF s target mode)) <= 5)%nat /\
  (forall x y, fst (@Diagnose F NF s target mode) = SumStuck x y ->
     List.length (snd (@Diagnose F NF s target mode)) = if String.eqb mode "batch" then 5%nat else 3%nat).
Proof.
  intros s t mode H. unfold Diagnose. cbn [nle FNum]. rewrite H.
  destruct (_ <? _)%Z; [|destruct (nlt _ _); [|destruct (nlt _ _)]]; cbn [fst snd].
  - rewrite app_length. destruct (String.eqb mode "batch"); cbn; split; try lia; reflexivity.
  - cbn; split; [lia|discriminate].
  - cbn; split; [lia|discriminate].
  - cbn; split; [lia|discriminate].
Qed.
(** Which diagnosis a missed run gets: stuck when it did not move for more than a third of its iterations,
    else minimal progress when it gained less than a tenth, else close when it is within a tenth. *)
Theorem C58_diagnosis : forall (s : RunStats R) target mode, rs_final s < target -> (0 <= rs_max s)%Z ->
  let d := fst (@Diagnose R RNum s target mode) in
  ((rs_max s < 3 * rs_stuck s)%Z -> d = SumStuck (rs_final s) target) /\
  ((3 * rs_stuck s <= rs_max s)%Z ->
     (rs_final s < rs_initial s + 1 / 10 -> d = SumMinimal (rs_initial s) (rs_final s)) /\
     (rs_initial s + 1 / 10 <= rs_final s ->
        (target < rs_final s + 1 / 10 -> d = SumClose (rs_final s) target) /\
        (rs_final s + 1 / 10 <= target -> d = SumFailed (rs_final s) target))).
Proof.
  intros s t mode H Hm. cbv zeta. unfold Diagnose. cbn [nle nlt nsub nabs nlit RNum].
  rewrite Rle_bool_false by assumption. rewrite Z.quot_div_nonneg by lia. rewrite Rabs_pos_eq by lra. split.
  - intros L. assert (Q : (rs_max s / 3 < rs_stuck s)%Z) by (apply Z.div_lt_upper_bound; lia).
    apply Z.ltb_lt in Q. now rewrite Q.
  - intros L. assert (Q0 : (rs_stuck s <= rs_max s / 3)%Z) by (apply Z.div_le_lower_bound; lia).
    rewrite (proj2 (Z.ltb_ge _ _) Q0). split.
    + intros G. rewrite Rlt_bool_true by lra. reflexivity.
    + intros G. rewrite Rlt_bool_false by lra. split; intros Q.
      * rewrite Rlt_bool_true by lra. reflexivity.
      * rewrite Rlt_bool_false by lra. reflexivity.
Qed.
Example C58_applies :
  fle (flit 9 10) (flit 85 100) = false /\
  fst (@Diagnose R RNum (mkStats (2 / 10) (85 / 100) 100 100 5) (9 / 10) "batch") = SumClose (85 / 100) (9 / 10).
Proof.
  split; [vm_compute; reflexivity|].
  destruct (C58_diagnosis (mkStats (2 / 10) (85 / 100) 100 100 5) (9 / 10) "batch") as [_ H]; cbn [rs_final rs_max]; [lra|lia|].
  cbn [rs_stuck rs_max rs_final rs_initial] in H. destruct H as [_ H]; [lia|].
  destruct H as [H _]; [lra|]. apply H. lra.
Qed.

(** ** C60 *)
Theorem C60_clamp : forall v : F, fisnan v = false ->
  fle (fofZ 0) (@Clamp01 F NF v) = true /\ fle (@Clamp01 F NF v) (fofZ 1) = true /\
  (fle (fofZ 0) v = true -> fle v (fofZ 1) = true -> @Clamp01 F NF v = v) /\
  (flt v (fofZ 0) = true -> @Clamp01 F NF v = fofZ 0) /\ (flt (fofZ 1) v = true -> @Clamp01 F NF v = fofZ 1).
Proof.
  intros v H. unfold Clamp01, n0, n1. cbn [nlt nofZ FNum].
  assert (Z01 : fle (fofZ 0) (fofZ 1) = true) by (vm_compute; reflexivity).
  assert (N0 : fisnan (fofZ 0) = false) by reflexivity. assert (N1 : fisnan (fofZ 1) = false) by (vm_compute; reflexivity).
  destruct (flt v (fofZ 0)) eqn:E0.
  { refine (conj (fle_refl _ N0) (conj Z01 (conj _ (conj (fun _ => eq_refl) _)))).
    - intros A. rewrite (fle_not_lt _ _ A) in E0. discriminate.
    - intros A. pose proof (flt_fle_trans _ _ _ E0 Z01) as B. rewrite (fle_not_lt _ _ (flt_le _ _ B)) in A. discriminate. }
  destruct (flt (fofZ 1) v) eqn:E1.
  { refine (conj Z01 (conj (fle_refl _ N1) (conj _ (conj _ (fun _ => eq_refl))))).
    - intros _ A. rewrite (fle_not_lt _ _ A) in E1. discriminate.
    - discriminate. }
  refine (conj _ (conj _ (conj (fun _ _ => eq_refl) (conj _ _)))); try discriminate.
  - now apply not_lt_fle.
  - now apply not_lt_fle.
Qed.
Theorem C60_clamp_nan : @Clamp01 F NF fnan = fnan.
Proof. reflexivity. Qed.
(** The clamped value is the point of the unit interval nearest to the argument. *)
Theorem C60_clamp_nearest : forall v y : R, 0 <= y <= 1 ->
  0 <= @Clamp01 R RNum v <= 1 /\ Rabs (v - @Clamp01 R RNum v) <= Rabs (v - y).
Proof.
  intros v y Hy. unfold Clamp01, n0, n1. cbn [nlt nofZ RNum].
  destruct (Rlt_bool_spec v 0); [|destruct (Rlt_bool_spec 1 v)]; split; try lra;
    unfold Rabs; repeat destruct Rcase_abs; lra.
Qed.
(** The smaller and the larger of two numbers. *)
Theorem C60_min_max : forall a b : F, fisnan a = false -> fisnan b = false ->
  (fle (@SimMin F NF a b) a = true /\ fle (@SimMin F NF a b) b = true /\ (@SimMin F NF a b = a \/ @SimMin F NF a b = b)) /\
  (fle a (@SimMax F NF a b) = true /\ fle b (@SimMax F NF a b) = true /\ (@SimMax F NF a b = a \/ @SimMax F NF a b = b)).
Proof.
  intros a b Ha Hb. unfold SimMin, SimMax. cbn [nlt FNum].
  split.
  - destruct (flt a b) eqn:E; repeat split; auto using flt_le, fle_refl, not_lt_fle.
  - destruct (flt b a) eqn:E; repeat split; auto using flt_le, fle_refl, not_lt_fle.
Qed.
(** With a value that is not a number the order of the arguments decides. *)
Theorem C60_min_nan_refuted : exists a b : F, fisnan (@SimMin F NF a b) <> fisnan (@SimMin F NF b a) /\
  fisnan (@SimMax F NF a b) <> fisnan (@SimMax F NF b a).
Proof. exists fnan, (fofZ 1). vm_compute. split; discriminate. Qed.
Example C60_applies : fisnan (flit 15 10) = false /\ @Clamp01 F NF (flit 15 10) = fofZ 1 /\
  fle (@SimMin F NF (flit 2 10) (flit 15 10)) (flit 2 10) = true.
Proof.
  assert (H : fisnan (flit 15 10) = false) by (vm_compute; reflexivity).
  split; [exact H|]. split; [apply C60_clamp; [exact H|vm_compute; reflexivity]|vm_compute; reflexivity].
Qed.

(** ** C59 *)
(** [K/2^45] separates the fractions strictly below [n/10] from the rounded literal. *)
Lemma rate_step (i m n K W : Z) : (Z.abs i <= 2 ^ 40)%Z -> (0 < m <= 2 ^ 40)%Z -> (0 < n < 10)%Z ->
  (0 < K < 2 ^ 53)%Z -> (0 < W < 2 ^ 53)%Z ->
  (10 * (K + 2) >= n * 2 ^ 45)%Z -> (10 * W <= n * 2 ^ 50)%Z -> (K * 2 ^ 5 < W)%Z ->
  flt (fdiv (fofZ i) (fofZ m)) (flit n 10) = (10 * i <? n * m)%Z.
Proof.
  intros Hi Hm Hn HK HW H1 H2 H3.
  destruct (fofZ_fin i) as [Fi Vi]; [lia|]. destruct (fofZ_fin m) as [Fm Vm]; [lia|].
  destruct (flit_fin n 10) as [Fl Vl]; [lia|lia|].
  assert (Pm : 0 < IZR m) by (apply IZR_lt; lia).
  assert (Lm : IZR m <= IZR (2 ^ 40)) by (apply IZR_le; lia).
  assert (Ai : Rabs (IZR i / IZR m) <= IZR (2 ^ 40)).
  { unfold Rdiv. rewrite Rabs_mult, <- abs_IZR. rewrite (Rabs_pos_eq (/ IZR m)) by (apply Rlt_le, Rinv_0_lt_compat; lra).
    apply Rle_trans with (IZR (Z.abs i) * 1).
    - apply Rmult_le_compat_l; [apply IZR_le; lia|]. rewrite <- Rinv_1. apply Rinv_le; [lra|]. apply (IZR_le 1); lia.
    - rewrite Rmult_1_r. apply IZR_le. lia. }
  destruct (fdiv_fin (fofZ i) (fofZ m)) as [Fd Vd]; try assumption.
  { rewrite Vm. lra. }
  { rewrite Vi, Vm. eapply Rle_trans; [apply Ai|]. apply bpow1023_ge. lia. }
  rewrite Vi, Vm in Vd.
  pose proof (flt_true (fdiv (fofZ i) (fofZ m)) (flit n 10)) as T1.
  rewrite (ford_fin _ Fd), (ford_fin _ Fl), Vd, Vl in T1.
  destruct (Z.ltb_spec (10 * i) (n * m)) as [L|L].
  - apply T1. split; [now apply fin_nan|]. split; [now apply fin_nan|].
    set (z := IZR K * bpow radix2 (-45)). set (w := IZR W * bpow radix2 (-50)).
    assert (Fz : fmt z). { unfold z. change (IZR K * bpow radix2 (-45)) with (F2R (Float radix2 K (-45))). apply fmt_F2R; lia. }
    assert (Fw : fmt w). { unfold w. change (IZR W * bpow radix2 (-50)) with (F2R (Float radix2 W (-50))). apply fmt_F2R; lia. }
    assert (B45 : bpow radix2 (-45) = / IZR (2 ^ 45)) by reflexivity.
    assert (B50 : bpow radix2 (-50) = / IZR (2 ^ 50)) by reflexivity.
    assert (IL : IZR i / IZR m <= IZR n / 10 - / (10 * IZR m)).
    { assert (IZR (10 * i + 1) <= IZR (n * m)) by (apply IZR_le; lia). rewrite plus_IZR, !mult_IZR in H.
      apply Rmult_le_reg_r with (10 * IZR m); [lra|]. field_simplify; try lra. }
    assert (G : / (10 * IZR (2 ^ 40)) <= / (10 * IZR m)) by (apply Rinv_le; lra).
    assert (Zl : IZR i / IZR m <= z).
    { unfold z. rewrite B45.
      assert (IZR (n * 2 ^ 45) <= IZR (10 * (K + 2))) by (apply IZR_le; lia). rewrite !mult_IZR, plus_IZR in H.
      change (IZR (2 ^ 40)) with 1099511627776 in G. change (IZR (2 ^ 45)) with 35184372088832 in *. lra. }
    assert (Wl : w <= IZR n / 10).
    { unfold w. rewrite B50. assert (IZR (10 * W) <= IZR (n * 2 ^ 50)) by (apply IZR_le; lia). rewrite !mult_IZR in H.
      change (IZR (2 ^ 50)) with 1125899906842624 in *. lra. }
    assert (ZW : z < w).
    { unfold z, w. rewrite B45, B50. assert (IZR (K * 2 ^ 5) < IZR W) by (apply IZR_lt; lia). rewrite mult_IZR in H.
      change (IZR (2 ^ 5)) with 32 in H. change (IZR (2 ^ 45)) with 35184372088832. change (IZR (2 ^ 50)) with 1125899906842624. lra. }
    apply Rle_lt_trans with z; [now apply rnd_le_fmt|]. apply Rlt_le_trans with w; [assumption|]. now apply rnd_ge_fmt.
  - destruct (flt _ _); [|reflexivity]. destruct (proj1 T1 eq_refl) as (_ & _ & X). exfalso.
    assert (IZR n / 10 <= IZR i / IZR m).
    { assert (IZR (n * m) <= IZR (10 * i)) by (apply IZR_le; lia). rewrite !mult_IZR in H.
      apply Rmult_le_reg_r with (10 * IZR m); [lra|]. field_simplify; lra. }
    pose proof (rnd_le _ _ H). lra.
Qed.
(** The rate is decided by exact fractions of the iterations, for counts up to 2^40. *)
Theorem C59_rate : forall i m, (Z.abs i <= 2 ^ 40)%Z -> (0 < m <= 2 ^ 40)%Z ->
  @AnalyzeConvergenceRate F NF i m = rateWord i m.
Proof.
  intros i m Hi Hm. unfold AnalyzeConvergenceRate. cbn [nlt nlit ndiv nofZ FNum].
  rewrite (rate_step i m 3 10555311626649 337769972052787) by lia.
  rewrite (rate_step i m 6 21110623253298 675539944105574) by lia.
  rewrite (rate_step i m 9 31665934879948 1013309916158361) by lia.
  reflexivity.
Qed.
(** No iterations allowed at all: the worst word, whatever happened. *)
Theorem C59_no_iterations : forall i, (0 <= i <= 2 ^ 40)%Z ->
  @AnalyzeConvergenceRate F NF i 0 = "Very slow convergence"%string.
Proof.
  intros i Hi. unfold AnalyzeConvergenceRate. cbn [nlt nlit ndiv nofZ FNum].
  assert (E : fdiv (fofZ i) (fofZ 0) = if Z.eqb i 0 then fnan else B754_infinity false).
  { destruct (Z.eqb_spec i 0) as [->|Hn]; [reflexivity|].
    destruct (fofZ_fin i) as [Fi Vi]; [lia|]. assert (0 < B2R (fofZ i)) by (rewrite Vi; apply IZR_lt; lia).
    destruct (fofZ i) as [s|s| |s mm e He]; try discriminate; cbn in H; try lra.
    destruct s; [|reflexivity]. exfalso. apply (Rlt_not_le _ _ H). apply F2R_le_0. cbn. lia. }
  rewrite E. destruct (Z.eqb i 0); vm_compute; reflexivity.
Qed.
Example C59_applies : (Z.abs 29 <= 2 ^ 40)%Z /\ (0 < 97 <= 2 ^ 40)%Z /\ rateWord 29 97 = "Fast convergence"%string /\
  rateWord 30 100 = "Normal convergence"%string.
Proof. repeat split; try (cbn; lia); reflexivity. Qed.
End S.

Print Assumptions C57_level.
Print Assumptions C57_sync_words.
Print Assumptions C57_batch_words.
Print Assumptions C57_monotone.
Print Assumptions C57_emoji.
Print Assumptions C57_nan_refuted.
Print Assumptions C58_success.
Print Assumptions C58_suggestions.
Print Assumptions C58_diagnosis.
Print Assumptions C59_rate.
Print Assumptions C59_no_iterations.
Print Assumptions C60_clamp.
Print Assumptions C60_clamp_nan.
Print Assumptions C60_clamp_nearest.
Print Assumptions C60_min_max.
Print Assumptions C60_min_nan_refuted.
