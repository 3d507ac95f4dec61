(** Facts about the circle over exact reals. *)
From Coq Require Import ZArith Reals Psatz Bool List.
From Flocq Require Import Core.Core.
From Verif Require Import Num RealNum S_Circle M_Core.
Open Scope R_scope.

Lemma PI_pos : 0 < PI. Proof. exact PI_RGT_0. Qed.

Lemma sin_kper x (k : Z) : sin (x + IZR k * (2 * PI)) = sin x.
Proof.
  destruct (Z_le_gt_dec 0 k) as [H|H].
  - rewrite <- (Z2Nat.id k) by lia. rewrite <- INR_IZR_INZ.
    replace (x + INR (Z.to_nat k) * (2 * PI)) with (x + 2 * INR (Z.to_nat k) * PI) by ring.
    apply sin_period.
  - replace x with ((x + IZR k * (2 * PI)) + 2 * INR (Z.to_nat (- k)) * PI) at 2.
    + symmetry. apply sin_period.
    + rewrite INR_IZR_INZ, Z2Nat.id by lia. rewrite opp_IZR. ring.
Qed.
Lemma cos_kper x (k : Z) : cos (x + IZR k * (2 * PI)) = cos x.
Proof.
  destruct (Z_le_gt_dec 0 k) as [H|H].
  - rewrite <- (Z2Nat.id k) by lia. rewrite <- INR_IZR_INZ.
    replace (x + INR (Z.to_nat k) * (2 * PI)) with (x + 2 * INR (Z.to_nat k) * PI) by ring.
    apply cos_period.
  - replace x with ((x + IZR k * (2 * PI)) + 2 * INR (Z.to_nat (- k)) * PI) at 2.
    + symmetry. apply cos_period.
    + rewrite INR_IZR_INZ, Z2Nat.id by lia. rewrite opp_IZR. ring.
Qed.

Lemma cong_refl a : cong a a.
Proof. exists 0%Z. simpl. ring. Qed.
Lemma cong_sym a b : cong a b -> cong b a.
Proof. intros [k ->]. exists (- k)%Z. rewrite opp_IZR. ring. Qed.
Lemma cong_trans a b c : cong a b -> cong b c -> cong a c.
Proof. intros [k ->] [l ->]. exists (l + k)%Z. rewrite plus_IZR. ring. Qed.
Lemma cong_add a b c : cong a b -> cong (a + c) (b + c).
Proof. intros [k ->]. exists k. ring. Qed.
Lemma cong_opp a b : cong a b -> cong (- a) (- b).
Proof. intros [k ->]. exists (- k)%Z. rewrite opp_IZR. ring. Qed.
Lemma cong_sub a b c d : cong a b -> cong c d -> cong (a - c) (b - d).
Proof. intros [k ->] [l ->]. exists (k - l)%Z. rewrite minus_IZR. ring. Qed.
Lemma cong_sin a b : cong a b -> sin a = sin b.
Proof. intros [k ->]. apply sin_kper. Qed.
Lemma cong_cos a b : cong a b -> cos a = cos b.
Proof. intros [k ->]. apply cos_kper. Qed.

(** Canonical representatives. *)
Lemma cong_rep_pi d : exists t, - PI < t <= PI /\ cong d t.
Proof.
  pose proof PI_pos as HP.
  set (k := Zceil ((d - PI) / (2 * PI))).
  exists (d - IZR k * (2 * PI)).
  pose proof (Zceil_ub ((d - PI) / (2 * PI))) as Hu. fold k in Hu.
  pose proof (Zceil_lb ((d - PI) / (2 * PI))) as Hl. fold k in Hl.
  assert (E : (d - PI) / (2 * PI) * (2 * PI) = d - PI) by (field; lra).
  split.
  - split; nra.
  - exists k. ring.
Qed.
Lemma cong_rep_2pi d : exists t, 0 <= t < 2 * PI /\ cong d t.
Proof.
  pose proof PI_pos as HP.
  set (k := Zfloor (d / (2 * PI))).
  exists (d - IZR k * (2 * PI)).
  pose proof (Zfloor_ub (d / (2 * PI))) as Hu. fold k in Hu.
  pose proof (Zfloor_lb (d / (2 * PI))) as Hl. fold k in Hl.
  assert (E : d / (2 * PI) * (2 * PI) = d) by (field; lra).
  split.
  - split; nra.
  - exists k. ring.
Qed.
Lemma IZR_small_0 k : -1 < IZR k < 1 -> k = 0%Z.
Proof. intros [A B]. apply (lt_IZR (-1)) in A. apply (lt_IZR _ 1) in B. lia. Qed.
Lemma cong_unique_2pi a b : 0 <= a < 2 * PI -> 0 <= b < 2 * PI -> cong a b -> a = b.
Proof.
  intros Ha Hb [k E]. pose proof PI_pos.
  assert (k = 0)%Z as ->. { apply IZR_small_0. nra. }
  rewrite E. simpl. ring.
Qed.
Lemma cong_unique_pi a b : - PI < a <= PI -> - PI < b <= PI -> cong a b -> a = b.
Proof.
  intros Ha Hb [k E]. pose proof PI_pos.
  assert (k = 0)%Z as ->. { apply IZR_small_0. nra. }
  rewrite E. simpl. ring.
Qed.

(** atan2 *)
Lemma Ratan2_polar r t : 0 < r -> - PI < t <= PI -> Ratan2 (r * sin t) (r * cos t) = t.
Proof.
  intros Hr Ht. pose proof PI_pos as HP. unfold Ratan2.
  assert (Q : cos t <> 0 -> r * sin t / (r * cos t) = tan t).
  { intros Hc. unfold tan. field. split; auto; lra. }
  destruct (Rlt_or_le (Rabs t) (PI / 2)) as [H1|H1].
  - assert (- (PI/2) < t < PI/2) as Hb by (apply Rabs_def2 in H1; lra).
    assert (0 < cos t) by (apply cos_gt_0; lra).
    rewrite Rlt_bool_true by nra. rewrite Q by lra. apply atan_tan; lra.
  - destruct (Req_dec t (PI / 2)) as [->|N1].
    { rewrite cos_PI2, sin_PI2, Rmult_0_r.
      rewrite !Rlt_bool_false by lra. rewrite Rlt_bool_true by lra. reflexivity. }
    destruct (Req_dec t (- (PI / 2))) as [->|N2].
    { rewrite cos_neg, cos_PI2, sin_neg, sin_PI2, Rmult_0_r.
      rewrite !Rlt_bool_false by lra. rewrite Rlt_bool_true by lra. reflexivity. }
    destruct (Rle_or_lt 0 t) as [P|P].
    + rewrite Rabs_right in H1 by lra.
      assert (cos t < 0) as Hc by (apply cos_lt_0; lra).
      assert (0 <= sin t) by (apply sin_ge_0; lra).
      rewrite Rlt_bool_false by nra. rewrite Rlt_bool_true by nra.
      rewrite Rle_bool_true by nra. rewrite Q by lra.
      replace (tan t) with (tan (t - PI)).
      * rewrite atan_tan by lra. ring.
      * unfold tan. replace (t - PI) with (- (PI - t)) by ring.
        rewrite sin_neg, cos_neg, sin_PI_x, Rtrigo_facts.cos_pi_minus. field. lra.
    + rewrite Rabs_left in H1 by lra.
      assert (cos t < 0) as Hc.
      { rewrite <- cos_neg. apply cos_lt_0; lra. }
      assert (sin t < 0).
      { replace t with (- - t) by ring. rewrite sin_neg.
        assert (0 < sin (- t)) by (apply sin_gt_0; lra). lra. }
      rewrite Rlt_bool_false by nra. rewrite Rlt_bool_true by nra.
      rewrite Rle_bool_false by nra. rewrite Q by lra.
      replace (tan t) with (tan (t + PI)).
      * rewrite atan_tan by lra. ring.
      * unfold tan. rewrite neg_sin, neg_cos. field. lra.
Qed.

Lemma Ratan2_unit d : exists t, - PI < t <= PI /\ cong d t /\ Ratan2 (sin d) (cos d) = t.
Proof.
  destruct (cong_rep_pi d) as (t & Ht & C). exists t. repeat split; try lra; auto.
  rewrite (cong_sin _ _ C), (cong_cos _ _ C).
  rewrite <- (Rmult_1_l (sin t)), <- (Rmult_1_l (cos t)). apply Ratan2_polar; lra.
Qed.

(** every non-zero vector has polar coordinates *)
Lemma polar x y : (x <> 0 \/ y <> 0) ->
  exists r t, 0 < r /\ - PI < t <= PI /\ x = r * cos t /\ y = r * sin t /\ r = sqrt (x * x + y * y).
Proof.
  intros H. pose proof PI_pos as HP.
  assert (Hq : 0 < x * x + y * y) by (destruct H; nra).
  set (r := sqrt (x * x + y * y)).
  assert (Hr : 0 < r) by (apply sqrt_lt_R0; auto).
  assert (Hrr : r * r = x * x + y * y) by (apply sqrt_sqrt; lra).
  exists r.
  assert (Hx1 : -1 <= x / r <= 1).
  { assert (Rabs (x / r) <= 1).
    { unfold Rdiv. rewrite Rabs_mult, Rabs_inv, (Rabs_right r) by lra.
      apply Rmult_le_reg_r with r; auto. rewrite Rmult_assoc, Rinv_l by lra.
      rewrite Rmult_1_r, Rmult_1_l. apply Rsqr_incr_0_var; [|lra].
      rewrite <- Rsqr_abs. unfold Rsqr. nra. }
    now apply Rabs_le_inv. }
  pose proof (acos_bound (x / r)) as Hb.
  pose proof (cos_acos (x / r) Hx1) as Hc.
  assert (Hs : sin (acos (x / r)) = sqrt (1 - (x / r)²)) by (apply sin_acos; auto).
  assert (Hs2 : sqrt (1 - (x / r)²) = Rabs y / r).
  { replace (1 - (x / r)²) with ((Rabs y / r)²).
    - rewrite sqrt_Rsqr; auto. apply Rmult_le_pos; [apply Rabs_pos|]. left. apply Rinv_0_lt_compat; auto.
    - unfold Rsqr. replace (Rabs y / r * (Rabs y / r)) with (Rabs y * Rabs y / (r * r)) by (field; lra).
      replace (Rabs y * Rabs y) with (y * y) by (rewrite <- Rabs_mult, Rabs_right; nra).
      replace (x / r * (x / r)) with (x * x / (r * r)) by (field; lra).
      replace (y * y) with (r * r - x * x) by lra. field. lra. }
  destruct (Rle_or_lt 0 y) as [Hy|Hy].
  - rewrite Rabs_right in Hs2 by lra.
    destruct (Req_dec (acos (x / r)) (- PI)) as [E|E]; [lra|].
    exists (acos (x / r)). repeat split; auto; try lra.
    + rewrite Hc. field; lra.
    + rewrite Hs, Hs2. field; lra.
  - rewrite Rabs_left in Hs2 by lra.
    exists (- acos (x / r)). repeat split; auto; try lra.
    + destruct (Req_dec (acos (x / r)) PI) as [E|E]; [|lra].
      exfalso. rewrite E, sin_PI in Hs. rewrite Hs2 in Hs.
      assert (- y / r > 0) by (apply Rdiv_lt_0_compat; lra). lra.
    + rewrite cos_neg, Hc. field; lra.
    + rewrite sin_neg, Hs, Hs2. field; lra.
Qed.

(** shortest arcs *)
Lemma is_arc_of_rep a b t : - PI <= t <= PI -> cong (a - b) t -> is_arc a b (Rabs t).
Proof.
  intros Ht [k E]. pose proof PI_pos as HP. split.
  - exists (- k)%Z. rewrite E, opp_IZR. f_equal. ring.
  - intros j. rewrite E.
    replace (t + IZR k * (2 * PI) + IZR j * (2 * PI)) with (t + IZR (k + j) * (2 * PI))
      by (rewrite plus_IZR; ring).
    destruct (Z.eq_dec (k + j) 0) as [->|N].
    + simpl. rewrite Rmult_0_l, Rplus_0_r. lra.
    + apply Rle_trans with PI; [apply Rabs_le; lra|].
      assert (IZR (k + j) <= -1 \/ 1 <= IZR (k + j)) as [G|G].
      { destruct (Z_lt_ge_dec (k + j) 0) as [L|L].
        - left. apply (IZR_le _ (-1)). lia.
        - right. apply (IZR_le 1). lia. }
      * rewrite Rabs_left1 by nra. nra.
      * rewrite Rabs_right by nra. nra.
Qed.
Lemma is_arc_unique a b d d' : is_arc a b d -> is_arc a b d' -> d = d'.
Proof.
  intros [[k E] H] [[k' E'] H']. pose proof (H k'). pose proof (H' k).
  rewrite <- E' in *. rewrite <- E in *. lra.
Qed.
Lemma is_arc_bounds a b d : is_arc a b d -> 0 <= d <= PI.
Proof.
  intros A. destruct (cong_rep_pi (a - b)) as (t & Ht & C).
  assert (- PI <= t <= PI) as Ht' by lra.
  rewrite (is_arc_unique _ _ _ _ A (is_arc_of_rep _ _ _ Ht' C)).
  split; [apply Rabs_pos|]. apply Rabs_le. lra.
Qed.
Lemma is_arc_exists a b : exists d, is_arc a b d.
Proof.
  destruct (cong_rep_pi (a - b)) as (t & Ht & C). exists (Rabs t).
  apply is_arc_of_rep; [lra|auto].
Qed.
Lemma is_arc_sym a b d : is_arc a b d -> is_arc b a d.
Proof.
  intros [[k E] H]. split.
  - exists (- k)%Z. rewrite E. rewrite <- Rabs_Ropp. f_equal. rewrite opp_IZR. ring.
  - intros j. rewrite <- Rabs_Ropp.
    replace (- (b - a + IZR j * (2 * PI))) with (a - b + IZR (- j) * (2 * PI)) by (rewrite opp_IZR; ring).
    apply H.
Qed.
Lemma is_arc_cong a b a' b' d : cong a a' -> cong b b' -> is_arc a b d -> is_arc a' b' d.
Proof.
  intros Ca Cb A. destruct (cong_rep_pi (a - b)) as (t & Ht & C).
  assert (- PI <= t <= PI) as Ht' by lra.
  rewrite (is_arc_unique _ _ _ _ A (is_arc_of_rep _ _ _ Ht' C)).
  apply is_arc_of_rep; auto.
  apply cong_trans with (a - b); auto. apply cong_sub; now apply cong_sym.
Qed.
Lemma is_arc_0 a b : is_arc a b 0 <-> cong a b.
Proof.
  split.
  - intros [[k E] _]. symmetry in E. 
    destruct (Req_dec (a - b + IZR k * (2 * PI)) 0) as [Z|N].
    + exists (- k)%Z. rewrite opp_IZR. lra.
    + apply Rabs_no_R0 in N. contradiction.
  - intros C. replace 0 with (Rabs 0) by apply Rabs_R0.
    apply is_arc_of_rep; [pose proof PI_pos; lra|].
    destruct C as [k ->]. exists k. ring.
Qed.

(** WrapPhase over the reals *)
Lemma Rmod_spec x y : 0 < y ->
  Rabs (Rmod x y) < y /\ (exists k : Z, Rmod x y = x - IZR k * y) /\
  (0 <= x -> 0 <= Rmod x y) /\ (x <= 0 -> Rmod x y <= 0).
Proof.
  intros Hy. unfold Rmod.
  assert (E : x = x / y * y) by (field; lra).
  destruct (Rle_or_lt 0 x) as [Hx|Hx].
  - assert (0 <= x / y) as Hq by (apply Rmult_le_pos; [lra|left; apply Rinv_0_lt_compat; lra]).
    rewrite Ztrunc_floor by auto.
    pose proof (Zfloor_lb (x / y)). pose proof (Zfloor_ub (x / y)).
    repeat split.
    + apply Rabs_def1; nra.
    + exists (Zfloor (x / y)). ring.
    + nra.
    + intros Hx0. assert (x = 0) as -> by lra.
      replace (0 / y) with (IZR 0) by (simpl; field; lra). rewrite Zfloor_IZR. lra.
  - assert (x / y <= 0) as Hq.
    { apply Rmult_le_reg_r with y; auto. rewrite <- E. lra. }
    rewrite Ztrunc_ceil by auto.
    pose proof (Zceil_lb (x / y)). pose proof (Zceil_ub (x / y)).
    repeat split.
    + apply Rabs_def1; nra.
    + exists (Zceil (x / y)). ring.
    + intros; lra.
    + nra.
Qed.

Notation RWrap := (@WrapPhase R RNum).
Lemma RWrap_unfold x : RWrap x = Rmod (Rmod x (2 * PI) + 2 * PI) (2 * PI).
Proof.
  unfold WrapPhase, n2pi. simpl. replace (4 * PI / 2) with (2 * PI) by field. reflexivity.
Qed.
Lemma RWrap_spec x : 0 <= RWrap x < 2 * PI /\ cong (RWrap x) x.
Proof.
  rewrite RWrap_unfold. pose proof PI_pos as HP. assert (H2 : 0 < 2 * PI) by lra.
  destruct (Rmod_spec x _ H2) as (A & (k & B) & _).
  destruct (Rmod_spec (Rmod x (2 * PI) + 2 * PI) _ H2) as (A' & (k' & B') & P & _).
  apply Rabs_def2 in A. apply Rabs_def2 in A'.
  split; [split|].
  - apply P. lra.
  - lra.
  - exists (1 - k - k')%Z. rewrite B', B, !minus_IZR. ring.
Qed.
Lemma RWrap_unique x r : 0 <= r < 2 * PI -> cong r x -> RWrap x = r.
Proof.
  intros Hr C. destruct (RWrap_spec x) as [A B].
  apply cong_unique_2pi; auto. apply cong_trans with x; auto. now apply cong_sym.
Qed.

(** PhaseDifference over the reals *)
Notation RPD := (@PhaseDifference R RNum).
Definition pd_special (a b : R) : Prop :=
  (Rabs a < 1 / 10000000000 /\ Rabs (b - 3 * PI / 2) < 1 / 10000000000) \/
  (Rabs (a - 3 * PI / 2) < 1 / 10000000000 /\ Rabs b < 1 / 10000000000).
Lemma RPD_regular a b : ~ pd_special a b -> RPD a b = Ratan2 (sin (a - b)) (cos (a - b)).
Proof.
  intros H. unfold PhaseDifference, pd_eps. simpl.
  destruct (Rlt_bool_spec (Rabs a) (1 / 10000000000));
  destruct (Rlt_bool_spec (Rabs (b - 3 * PI / 2)) (1 / 10000000000)); simpl;
  try (exfalso; apply H; left; split; assumption);
  destruct (Rlt_bool_spec (Rabs (a - 3 * PI / 2)) (1 / 10000000000));
  destruct (Rlt_bool_spec (Rabs b) (1 / 10000000000)); simpl;
  try (exfalso; apply H; right; split; assumption); reflexivity.
Qed.
Lemma RPD_special1 a b : Rabs a < 1 / 10000000000 -> Rabs (b - 3 * PI / 2) < 1 / 10000000000 ->
  RPD a b = - (PI / 2).
Proof.
  intros A B. unfold PhaseDifference, pd_eps. simpl.
  rewrite !Rlt_bool_true by assumption. simpl. field.
Qed.
Lemma RPD_special2 a b : Rabs (a - 3 * PI / 2) < 1 / 10000000000 -> Rabs b < 1 / 10000000000 ->
  RPD a b = PI / 2.
Proof.
  intros A B. unfold PhaseDifference, pd_eps. simpl.
  assert (Rlt_bool (Rabs a) (1 / 10000000000) = false) as ->.
  { apply Rlt_bool_false. pose proof PI2_3_2 as H32. unfold PI2 in H32.
    apply Rabs_def2 in A. pose proof (Rle_abs a). lra. }
  simpl. rewrite !Rlt_bool_true by assumption. simpl. field.
Qed.
Lemma RPD_spec a b : ~ pd_special a b ->
  - PI < RPD a b <= PI /\ cong (b + RPD a b) a /\ is_arc a b (Rabs (RPD a b)).
Proof.
  intros H. rewrite (RPD_regular a b H).
  destruct (Ratan2_unit (a - b)) as (t & Ht & C & ->).
  repeat split; try lra.
  - destruct C as [k E]. exists (- k)%Z. rewrite opp_IZR. lra.
  - apply is_arc_of_rep; auto. lra.
  - apply is_arc_of_rep; auto. lra.
Qed.
Lemma RPD_range a b : - PI <= RPD a b <= PI.
Proof.
  pose proof PI_pos as HP.
  destruct (Rlt_or_le (Rabs a) (1 / 10000000000)) as [A|A];
  destruct (Rlt_or_le (Rabs (b - 3 * PI / 2)) (1 / 10000000000)) as [B|B].
  - rewrite RPD_special1 by assumption. lra.
  - destruct (Rlt_or_le (Rabs (a - 3 * PI / 2)) (1 / 10000000000)) as [A'|A'];
    destruct (Rlt_or_le (Rabs b) (1 / 10000000000)) as [B'|B'];
    [rewrite RPD_special2 by assumption; lra| | |];
    (assert (N : ~ pd_special a b) by (unfold pd_special; lra);
     destruct (RPD_spec a b N) as (Q & _); lra).
  - destruct (Rlt_or_le (Rabs (a - 3 * PI / 2)) (1 / 10000000000)) as [A'|A'];
    destruct (Rlt_or_le (Rabs b) (1 / 10000000000)) as [B'|B'];
    [rewrite RPD_special2 by assumption; lra| | |];
    (assert (N : ~ pd_special a b) by (unfold pd_special; lra);
     destruct (RPD_spec a b N) as (Q & _); lra).
  - destruct (Rlt_or_le (Rabs (a - 3 * PI / 2)) (1 / 10000000000)) as [A'|A'];
    destruct (Rlt_or_le (Rabs b) (1 / 10000000000)) as [B'|B'];
    [rewrite RPD_special2 by assumption; lra| | |];
    (assert (N : ~ pd_special a b) by (unfold pd_special; lra);
     destruct (RPD_spec a b N) as (Q & _); lra).
Qed.
