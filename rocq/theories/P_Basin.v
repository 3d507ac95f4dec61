(** Property theorems C43 (attractor basin). *)
From Coq Require Import ZArith Reals Psatz Bool List String Lia.
From Flocq Require Import Core.Core IEEE754.BinarySingleNaN.
From Verif Require Import Num F64 RealNum M_Core M_Basin S_Circle S_Agent S_Sync
  L_F64 L_F64x L_Ford L_PhaseF L_Circle L_Pattern L_Strategy P_Core P_Converge P_Patterns.
Open Scope R_scope.

(** ** Exact arithmetic *)
Definition boosted (b : Basin R) (s : State R) : Prop := st_phase s < 0 /\ 0 < st_phase (ba_target b).

(** The distance is the arc between the phases. *)
Theorem C43_distance_is_arc : forall (b : Basin R) s, is_arc (st_phase s) (st_phase (ba_target b)) (DistanceToTarget b s).
Proof.
  intros b s. unfold DistanceToTarget. cbn [nabs nrem nsub RNum]. rewrite n2pi_R. unfold Rrem.
  set (x := st_phase s - st_phase (ba_target b)). pose proof PI_RGT_0 as HP.
  pose proof (Znearest_half (fun x => negb (Z.even x)) (x / (2 * PI))) as H. set (k := ZnearestE (x / (2 * PI))) in *.
  assert (E : x - 2 * PI * IZR k = 2 * PI * (x / (2 * PI) - IZR k)) by (field; lra).
  apply is_arc_of_rep.
  - rewrite E. apply Rabs_le_inv in H. nra.
  - exists k. fold x. ring.
Qed.
(** The exact shape of the force. *)
Theorem C43_force_shape : forall (b : Basin R) s d, is_arc (st_phase s) (st_phase (ba_target b)) d ->
  (ba_radius b < d -> AttractionForce b s = 0) /\
  (d <= ba_radius b -> ~ boosted b s -> AttractionForce b s = ba_strength b * (1 - d / ba_radius b)) /\
  (d <= ba_radius b -> boosted b s -> AttractionForce b s = 2 * (ba_strength b * (1 - d / ba_radius b))).
Proof.
  intros b s d A. pose proof (is_arc_unique _ _ _ _ (C43_distance_is_arc b s) A) as E. unfold AttractionForce. rewrite E. unfold boosted. unfold n0, n1.
  cbn [nlt RNum nofZ nmul nsub ndiv]. split; [|split].
  - intros L. rewrite Rlt_bool_true by assumption. reflexivity.
  - intros L NB. rewrite Rlt_bool_false by assumption. destruct (Rlt_bool_spec (st_phase s) 0); [|reflexivity]. destruct (Rlt_bool_spec 0 (st_phase (ba_target b))); [|reflexivity]. tauto.
  - intros L [B1 B2]. rewrite Rlt_bool_false by assumption. rewrite !Rlt_bool_true by assumption. cbn [andb]. ring.
Qed.
(** A state is in the basin exactly when the arc to the target is at most the radius, the rim included; there, and only
    there, it is pulled, except on the rim itself. *)
Theorem C43_in_basin : forall (b : Basin R) s d, is_arc (st_phase s) (st_phase (ba_target b)) d ->
  (IsInBasin b s = true <-> d <= ba_radius b).
Proof.
  intros b s d A. unfold IsInBasin. rewrite (is_arc_unique _ _ _ _ (C43_distance_is_arc b s) A). cbn [nle RNum].
  destruct (Rle_bool_spec d (ba_radius b)); split; intros; auto; try discriminate; lra.
Qed.
Theorem C43_pulled_in_basin : forall (b : Basin R) s, 0 < ba_radius b -> 0 < ba_strength b ->
  (AttractionForce b s <> 0 -> IsInBasin b s = true) /\
  (IsInBasin b s = true -> ~ is_arc (st_phase s) (st_phase (ba_target b)) (ba_radius b) -> 0 < AttractionForce b s).
Proof.
  intros b s HR HS. destruct (is_arc_exists (st_phase s) (st_phase (ba_target b))) as [d A]. destruct (C43_force_shape b s d A) as (S1 & S2 & S3).
  split.
  - intros F. apply (C43_in_basin b s d A). destruct (Rlt_or_le (ba_radius b) d) as [L|L]; [exfalso; auto|exact L].
  - intros I NR. apply (C43_in_basin b s d A) in I. assert (NE : d <> ba_radius b) by (intros ->; auto).
    assert (Q : 0 < 1 - d / ba_radius b).
    { apply (Rmult_lt_reg_r (ba_radius b)); [assumption|]. unfold Rminus. rewrite Rmult_plus_distr_r, <- Ropp_mult_distr_l. unfold Rdiv.
      rewrite Rmult_assoc, Rinv_l by lra. lra. }
    destruct (Rlt_dec (st_phase s) 0) as [B1|B1], (Rlt_dec 0 (st_phase (ba_target b))) as [B2|B2];
      try (rewrite (S2 I) by (unfold boosted; tauto); apply Rmult_lt_0_compat; assumption).
    rewrite (S3 I (conj B1 B2)). pose proof (Rmult_lt_0_compat _ _ HS Q). lra.
Qed.
(** Between 0 and the strength, unless the state is boosted: then up to twice the strength. *)
Theorem C43_force_range : forall (b : Basin R) s, 0 < ba_radius b -> 0 <= ba_strength b ->
  0 <= AttractionForce b s <= 2 * ba_strength b /\ (~ boosted b s -> AttractionForce b s <= ba_strength b).
Proof.
  intros b s HR HS. destruct (is_arc_exists (st_phase s) (st_phase (ba_target b))) as [d A]. destruct (C43_force_shape b s d A) as (S1 & S2 & S3).
  destruct (is_arc_bounds _ _ _ A) as [D0 _]. destruct (Rlt_or_le (ba_radius b) d) as [L|L].
  - rewrite (S1 L). split; [|intros _]; lra.
  - assert (Q : 0 <= d / ba_radius b <= 1) by (split; [apply Rle_div_r; lra|apply Rle_div_l; lra]).
    destruct (Rlt_dec (st_phase s) 0) as [B1|B1], (Rlt_dec 0 (st_phase (ba_target b))) as [B2|B2];
    try (rewrite (S2 L) by (unfold boosted; tauto); split; [|intros _]; nra).
    rewrite (S3 L (conj B1 B2)). split; [nra|]. intros NB. exfalso. apply NB. split; assumption.
Qed.
(** Closer states of the same kind are pulled at least as strongly; the target itself with the full strength. *)
Theorem C43_force_largest_at_target : forall (b : Basin R) s s', 0 < ba_radius b -> 0 <= ba_strength b -> ~ boosted b s -> ~ boosted b s' ->
  (forall d d', is_arc (st_phase s) (st_phase (ba_target b)) d -> is_arc (st_phase s') (st_phase (ba_target b)) d' -> d <= d' -> AttractionForce b s' <= AttractionForce b s) /\
  (cong (st_phase s) (st_phase (ba_target b)) -> AttractionForce b s = ba_strength b).
Proof.
  intros b s s' HR HS NB NB'. split.
  - intros d d' A A' L. destruct (C43_force_shape b s d A) as (S1 & S2 & _). destruct (C43_force_shape b s' d' A') as (S1' & S2' & _).
    destruct (Rlt_or_le (ba_radius b) d') as [L'|L']; [rewrite (S1' L'); apply C43_force_range; assumption|].
    rewrite (S2' L' NB'), (S2 ltac:(lra) NB). apply Rmult_le_compat_l; [assumption|]. assert (d / ba_radius b <= d' / ba_radius b); [|lra].
    unfold Rdiv. apply Rmult_le_compat_r; [left; now apply Rinv_0_lt_compat|assumption].
  - intros C. apply is_arc_0 in C. destruct (C43_force_shape b s 0 C) as (_ & S2 & _). rewrite (S2 ltac:(lra) NB). field. lra.
Qed.
(** The clamp of the constructor. *)
Theorem C43_strength_clamped : forall t s r, 0 <= ba_strength (@NewBasin R RNum t s r) <= 1 /\ (0 <= s <= 1 -> ba_strength (@NewBasin R RNum t s r) = s).
Proof.
  intros t s r. unfold NewBasin. cbn [ba_strength]. unfold n0, n1. cbn [nlt RNum nofZ]. destruct (Rlt_bool_spec s 0); [split; lra|]. destruct (Rlt_bool_spec 1 s); split; lra.
Qed.
(** REFUTED: the force exceeds the strength: strength 1, phase -1/100, target 1/100, radius pi. *)
Definition boostBasin : Basin R := @NewBasin R RNum (mkState (1 / 100) 1 0) 1 PI.
Definition boostState : State R := mkState (- (1 / 100)) 1 0.
Lemma boost_force : AttractionForce boostBasin boostState = 2 * (1 - (2 / 100) / PI).
Proof.
  pose proof PI2_3_2 as H32. unfold PI2 in H32.
  assert (A : is_arc (- (1 / 100)) (1 / 100) (2 / 100)).
  { replace (2 / 100) with (Rabs (- (2 / 100))) by (rewrite Rabs_Ropp, Rabs_pos_eq; lra). apply is_arc_of_rep; [lra|]. exists 0%Z. lra. }
  assert (ES : ba_strength boostBasin = 1) by (apply C43_strength_clamped; lra).
  destruct (C43_force_shape boostBasin boostState (2 / 100) A) as (_ & _ & S3). rewrite S3.
  - rewrite ES. cbn [ba_radius boostBasin NewBasin]. ring.
  - cbn [ba_radius boostBasin NewBasin]. lra.
  - split; cbn [boostState boostBasin NewBasin st_phase ba_target]; lra.
Qed.
Theorem C43_force_above_strength_refuted : ba_strength boostBasin = 1 /\ 0 < ba_radius boostBasin /\ 3 / 2 < AttractionForce boostBasin boostState.
Proof.
  split; [apply C43_strength_clamped; lra|]. pose proof PI2_3_2 as H32. unfold PI2 in H32. split; [cbn; lra|]. rewrite boost_force.
  assert (2 / 100 / PI < 1 / 100) by (apply Rmult_lt_reg_r with PI; [lra|]; unfold Rdiv; rewrite Rmult_assoc, Rinv_l by lra; lra). lra.
Qed.
(** The share of the way that OptimalAdjustment suggests. *)
Definition share (b : Basin R) (s : State R) : R := if Req_bool (AttractionForce b s) 0 then 1 / 100 else AttractionForce b s.
(** OptimalAdjustment moves along the short arc by the share of the distance: toward the target, without overshoot when
    the share is at most 1 - in particular for every state that is not boosted. *)
Theorem C43_adjustment_toward : forall (b : Basin R) s d, 0 < ba_radius b -> 0 <= ba_strength b <= 1 -> ~ boosted b s -> ~ pd_special (st_phase (ba_target b)) (st_phase s) ->
  is_arc (st_phase (ba_target b)) (st_phase s) d -> exists r, 0 < r <= 1 /\
  is_arc (st_phase (ba_target b)) (WrapPhase (st_phase s + OptimalAdjustment b s)) ((1 - r) * d) /\ Rabs (OptimalAdjustment b s) = r * d.
Proof.
  intros b s d HR HS NB NS A. destruct (C43_force_range b s HR (proj1 HS)) as [[F0 _] F1]. specialize (F1 NB).
  assert (R01 : 0 < share b s <= 1). { unfold share. destruct (Req_bool_spec (AttractionForce b s) 0); lra. }
  assert (E : OptimalAdjustment b s = RPD (st_phase (ba_target b)) (st_phase s) * share b s).
  { unfold OptimalAdjustment, share. unfold n0. cbn [neqb nmul nofZ nlit RNum]. destruct (Req_bool (AttractionForce b s) 0); reflexivity. }
  exists (share b s). split; [exact R01|]. rewrite E. split.
  - apply (move_arc (st_phase s) (st_phase (ba_target b)) d (share b s) NS ltac:(lra) A).
  - destruct (RPD_spec _ _ NS) as (_ & _ & A'). rewrite Rabs_mult, (is_arc_unique _ _ _ _ A' A), (Rabs_pos_eq (share b s)) by lra. ring.
Qed.
(** REFUTED: the boosted adjustment overshoots: it is longer than the distance to the target. *)
Theorem C43_overshoot_refuted : is_arc (st_phase (ba_target boostBasin)) (st_phase boostState) (2 / 100) /\ 3 / 100 < OptimalAdjustment boostBasin boostState < 4 / 100.
Proof.
  pose proof PI2_3_2 as H32. unfold PI2 in H32.
  assert (A : is_arc (1 / 100) (- (1 / 100)) (2 / 100)).
  { replace (2 / 100) with (Rabs (2 / 100)) by (rewrite Rabs_pos_eq; lra). apply is_arc_of_rep; [lra|]. exists 0%Z. lra. }
  split; [exact A|].
  assert (NS : ~ pd_special (1 / 100) (- (1 / 100))) by (intros [[X _]|[X _]]; apply Rabs_def2 in X; lra).
  destruct (RPD_spec _ _ NS) as (B & C & _).
  assert (E : RPD (1 / 100) (- (1 / 100)) = 2 / 100).
  { apply cong_unique_pi; [exact B|lra|]. destruct C as [k Ck]. exists k. lra. }
  unfold OptimalAdjustment. cbn [st_phase ba_target boostBasin NewBasin boostState]. fold boostBasin. rewrite E.
  change (@mkState R (- (1 / 100)) 1 0) with boostState. 
  pose proof (proj2 (proj2 C43_force_above_strength_refuted)) as F1. 
  unfold n0. cbn [neqb nmul nofZ RNum]. rewrite Req_bool_false by lra. split; [lra|]. rewrite boost_force.
  assert (0 < 2 / 100 / PI) by (apply Rmult_lt_0_compat; [lra|apply Rinv_0_lt_compat; lra]). lra.
Qed.
(** REFUTED in the special-case window of PhaseDifference: from 3*pi/2 to the target 0 the adjustment points away. *)
Theorem C43_wrong_way_refuted : forall st r, 0 < st <= 1 -> PI / 2 < r -> let b := @NewBasin R RNum (mkState 0 1 0) st r in let s := mkState (3 * PI / 2) 1%Z 0 in
  is_arc 0 (3 * PI / 2) (PI / 2) /\ exists d, is_arc 0 (WrapPhase (3 * PI / 2 + OptimalAdjustment b s)) d /\ PI / 2 < d.
Proof.
  intros st r HS HR b s. pose proof PI_RGT_0 as HP.
  assert (EB : ba_strength b = st) by (apply C43_strength_clamped; lra).
  assert (NB : ~ boosted b s) by (intros [X _]; cbn in X; lra).
  assert (A : is_arc (3 * PI / 2) 0 (PI / 2)).
  { apply is_arc_sym. exact (proj1 (move_arc_window 1 ltac:(lra))). }
  destruct (C43_force_shape b s (PI / 2) A) as (_ & S2 & _). specialize (S2 ltac:(cbn; lra) NB). rewrite EB in S2. change (ba_radius b) with r in S2.
  assert (Q : 0 < PI / 2 / r < 1).
  { split; [apply Rmult_lt_0_compat; [lra|apply Rinv_0_lt_compat; lra]|]. apply Rmult_lt_reg_r with r; [lra|]. unfold Rdiv. rewrite Rmult_assoc, Rinv_l by lra. lra. }
  assert (G : 0 < AttractionForce b s <= 1) by (rewrite S2; nra).
  destruct (move_arc_window (AttractionForce b s) G) as [M1 M2]. split; [exact M1|]. exists ((1 + AttractionForce b s) * (PI / 2)). split; [|nra].
  unfold OptimalAdjustment. change (st_phase (ba_target b)) with 0. change (st_phase s) with (3 * PI / 2). unfold n0. cbn [neqb nmul nofZ RNum]. rewrite Req_bool_false by lra. exact M2.
Qed.
(** The convergence rate is between 0 and the force (frequencies not negative). *)
Theorem C43_rate_range : forall (b : Basin R) s, 0 < ba_radius b -> 0 <= ba_strength b -> (0 <= st_freq s)%Z -> (0 <= st_freq (ba_target b))%Z ->
  0 <= BasinRate b s <= AttractionForce b s.
Proof.
  intros b s HR HS H1 H2. destruct (C43_force_range b s HR HS) as [[F0 _] _]. unfold BasinRate. unfold n0. cbn [neqb nle nlt nofZ RNum]. rewrite Req_bool_false by lra.
  destruct (Rle_bool _ _); [lra|]. cbn [nmax nsub nabs ndiv nmul RNum]. apply IZR_le in H1, H2. rewrite minus_IZR. set (x := IZR (st_freq s)) in *. set (y := IZR (st_freq (ba_target b))) in *.
  pose proof (Rmax_l x y). pose proof (Rmax_r x y). unfold n1. cbn [nofZ RNum]. destruct (Rlt_bool_spec 0 (Rmax x y)) as [P|P]; [|lra].
  assert (Q : 0 <= Rabs (x - y) / Rmax x y <= 1).
  { split; [apply Rle_div_r; [lra|]; pose proof (Rabs_pos (x - y)); lra|]. apply Rle_div_l; [lra|]. apply Rabs_le. lra. }
  nra.
Qed.

(** ** Floating point *)
Section Floats.
Variable tr : Trig.
Local Instance NF : Num F := FNum tr.

Lemma frem_fin x y : is_finite x = true -> is_finite y = true -> B2R y <> 0 ->
  is_finite (frem x y) = true /\ 2 * Rabs (B2R (frem x y)) <= Rabs (B2R y) /\ exists k : Z, B2R (frem x y) = B2R x - IZR k * B2R y.
Proof.
  intros Hx Hy Hy0.
  destruct x as [sx|sx| |sx mx ex Bx]; try easy;
  destruct y as [sy|sy| |sy my ey By]; try easy; try (simpl in Hy0; lra).
  - unfold frem. split; [reflexivity|]. split.
    + simpl. rewrite Rabs_R0. pose proof (Rabs_pos (B2R (B754_finite sy my ey By))) as P. simpl in P. lra.
    + exists 0%Z. simpl. ring.
  - destruct (bounded_props _ _ Bx) as [Hmx Hex]. destruct (bounded_props _ _ By) as [Hmy Hey].
    unfold frem. set (e := Z.min ex ey).
    set (zx := (Z.pos mx * 2 ^ (ex - e))%Z). set (zy := (Z.pos my * 2 ^ (ey - e))%Z).
    assert (Hpx : (0 < 2 ^ (ex - e))%Z) by (apply Z.pow_pos_nonneg; lia).
    assert (Hpy : (0 < 2 ^ (ey - e))%Z) by (apply Z.pow_pos_nonneg; lia).
    assert (Hzx : (0 < zx)%Z) by (unfold zx; nia). assert (Hzy : (0 < zy)%Z) by (unfold zy; nia).
    pose proof (Z.mod_pos_bound zx zy Hzy) as Hm. assert (Hmle : (zx mod zy <= zx)%Z) by (apply Z.mod_le; lia).
    pose proof (Z.div_mod zx zy ltac:(lia)) as DM.
    set (r' := if ((2 * (zx mod zy) <? zy) || ((2 * (zx mod zy) =? zy) && Z.even (zx / zy)))%Z%bool then (zx mod zy)%Z else (zx mod zy - zy)%Z).
    assert (HR : (2 * Z.abs r' <= zy /\ Z.abs r' <= zx mod zy)%Z /\ exists k, r' = (zx - k * zy)%Z).
    { unfold r'. destruct (Z.ltb_spec (2 * (zx mod zy)) zy) as [L|L]; cbn [orb].
      - split; [lia|]. exists (zx / zy)%Z. lia.
      - destruct (_ && _)%bool eqn:Q.
        + apply andb_prop in Q. destruct Q as [Q _]. apply Z.eqb_eq in Q. split; [lia|]. exists (zx / zy)%Z. lia.
        + split; [lia|]. exists (zx / zy + 1)%Z. lia. }
    destruct HR as ([R2 R1] & k & Rk).
    assert (Hlt : (Z.abs r' < 2 ^ 53)%Z).
    { destruct (Z.min_spec ex ey) as [[A B]|[A B]]; fold e in B.
      - assert (zx = Z.pos mx) by (unfold zx; rewrite B, Z.sub_diag, Z.pow_0_r; lia). lia.
      - assert (zy = Z.pos my) by (unfold zy; rewrite B, Z.sub_diag, Z.pow_0_r; lia). lia. }
    assert (Habs : (Z.abs (cond_Zopp sx r') < 2 ^ 53)%Z) by (destruct sx; simpl; lia).
    destruct (normalize_exact (cond_Zopp sx r') e sx Habs ltac:(lia)) as (N1 & N2 & _).
    assert (Ex : B2R (B754_finite sx mx ex Bx) = F2R (Float radix2 (cond_Zopp sx zx) e)).
    { rewrite B2R_finite_F2R, (F2R_shift _ ex e) by lia. unfold zx. now rewrite cond_Zopp_mul. }
    assert (Ey : B2R (B754_finite sy my ey By) = F2R (Float radix2 (cond_Zopp sy zy) e)).
    { rewrite B2R_finite_F2R, (F2R_shift _ ey e) by lia. unfold zy. now rewrite cond_Zopp_mul. }
    split; [exact N1|]. split.
    + rewrite N2, Ey. rewrite <- !F2R_Zabs. unfold F2R. cbn [Fnum Fexp]. pose proof (bpow_gt_0 radix2 e).
      assert (2 * IZR (Z.abs (cond_Zopp sx r')) <= IZR (Z.abs (cond_Zopp sy zy))).
      { rewrite <- mult_IZR. apply IZR_le. rewrite !abs_cond_Zopp. lia. } nra.
    + exists (if xorb sx sy then (- k) else k)%Z. rewrite N2, Ex, Ey. unfold F2R. cbn [Fnum Fexp].
      replace (IZR (cond_Zopp sx r')) with (IZR (cond_Zopp sx zx) - IZR (if xorb sx sy then - k else k) * IZR (cond_Zopp sy zy)); [ring|].
      rewrite <- mult_IZR, <- minus_IZR. f_equal. rewrite Rk. generalize zx zy k; intros; destruct sx, sy; cbn [cond_Zopp xorb]; ring.
Qed.
Definition boostedF (b : Basin F) (s : State F) : Prop := flt (st_phase s) (fofZ 0) = true /\ flt (fofZ 0) (st_phase (ba_target b)) = true.
Lemma distance_float (b : Basin F) s : moderate (st_phase s) -> moderate (st_phase (ba_target b)) ->
  is_finite (@DistanceToTarget F NF b s) = true /\ 0 <= B2R (@DistanceToTarget F NF b s) <= B2R (fhalfpi 2).
Proof.
  intros [F1 B1] [F2 B2]. unfold DistanceToTarget. change (@nabs F NF) with fabs. change (@nrem F NF) with frem. change (@nsub F NF) with fsub. change (@n2pi F NF) with f2pi.
  assert (FD : is_finite (fsub (st_phase s) (st_phase (ba_target b))) = true).
  { apply fsub_fin; auto. replace (bpow radix2 1023) with (bpow radix2 1022 + bpow radix2 1022)%R.
    - unfold Rminus. eapply Rle_trans; [apply Rabs_triang|]. rewrite Rabs_Ropp. lra.
    - change 1023%Z with (1 + 1022)%Z. rewrite bpow_plus. change (bpow radix2 1) with 2%R. ring. }
  pose proof r2pi_bounds as RB. destruct (frem_fin _ f2pi FD f2pi_fin f2pi_nz) as (FR & BR & _). destruct (fabs_fin _ FR) as [FA VA]. split; [exact FA|]. rewrite VA.
  destruct fpi_pos as (_ & _ & ->). rewrite f2pi_val in BR. rewrite (Rabs_pos_eq r2pi) in BR by lra. split; [apply Rabs_pos|lra].
Qed.
(** The float force: in [0, strength] for states that are not boosted, exactly 0 outside. *)
Theorem C43_force_range_float : forall (b : Basin F) s, moderate (st_phase s) -> moderate (st_phase (ba_target b)) -> in_unit (ba_strength b) ->
  is_finite (ba_radius b) = true -> 0 < B2R (ba_radius b) -> ~ boostedF b s ->
  in_unit (@AttractionForce F NF b s) /\ fle (@AttractionForce F NF b s) (ba_strength b) = true /\
  (flt (ba_radius b) (@DistanceToTarget F NF b s) = true -> @AttractionForce F NF b s = fofZ 0).
Proof.
  intros b s M1 M2 [FS BS] FR PR NB. destruct (distance_float b s M1 M2) as [FD BD].
  destruct (fofZ_fin 0 ltac:(lia)) as [F0 V0]. destruct one_fin as [F1 V1].
  unfold AttractionForce. cbv zeta. revert FD BD. generalize (@DistanceToTarget F NF b s) as d. intros d FD BD. change (@nlt F NF) with flt. change (@n0 F NF) with (fofZ 0).
  destruct (flt (ba_radius b) d) eqn:L.
  - split; [split; [exact F0|rewrite V0; lra]|]. split; [|reflexivity]. apply fle_true. rewrite !ford_fin by assumption. rewrite V0. repeat split; auto using fin_nan. tauto.
  - apply flt_false in L; [|now apply fin_nan|now apply fin_nan]. rewrite !ford_fin in L by assumption.
    change (@ndiv F NF) with fdiv. change (@nsub F NF) with fsub. change (@nmul F NF) with fmul. change (@n1 F NF) with (fofZ 1).
    replace (flt (st_phase s) (fofZ 0) && flt (fofZ 0) (st_phase (ba_target b)))%bool with false by (symmetry; apply not_true_is_false; intros X; apply andb_prop in X; apply NB; exact X).
    destruct (unit_div d (ba_radius b) FD FR ltac:(lra) PR) as [FQ BQ].
    pose proof bpow1023_big. destruct (fsub_fin _ _ F1 FQ) as [FU VU]; [rewrite V1; apply Rabs_le; lra|].
    assert (BU : 0 <= B2R (fsub (fofZ 1) (fdiv d (ba_radius b))) <= 1).
    { rewrite VU, V1. split; [apply rnd_ge_0; lra|apply rnd_le_fmt; [apply (fmt_IZR 1); lia|lra]]. }
    assert (U : in_unit (fmul (ba_strength b) (fsub (fofZ 1) (fdiv d (ba_radius b))))) by (apply unit_mul; split; assumption).
    split; [exact U|]. split; [|discriminate]. destruct U as [FM _].
    destruct (fmul_fin _ _ FS FU) as [_ VM]; [apply Rabs_le; nra|]. apply fle_true. rewrite !ford_fin by assumption. rewrite VM. repeat split; auto using fin_nan.
    apply rnd_le_fmt; [apply fmt_B2R|nra].
Qed.
(** REFUTED for radius 0: at the target itself the force is NaN. *)
Theorem C43_zero_radius_refuted : forall t st, is_finite (st_phase t) = true -> flt (st_phase t) (fofZ 0) = false ->
  fisnan (@AttractionForce F NF (@NewBasin F NF t st (fofZ 0)) t) = true.
Proof.
  intros t st Ft P. unfold AttractionForce, DistanceToTarget. cbn [ba_radius ba_target NewBasin].
  change (@nsub F NF (st_phase t) (st_phase t)) with (fsub (st_phase t) (st_phase t)). rewrite (sub_self _ Ft).
  change (@nlt F NF (st_phase t) n0) with (flt (st_phase t) (fofZ 0)). rewrite P. cbn [andb].
  match goal with |- context [nlt (fofZ 0) ?d] => change (nlt (fofZ 0) d) with false; change (@nsub F NF n1 (d / fofZ 0)%num) with fnan end. 
  change (@nmul F NF) with fmul. unfold fmul. destruct (ba_strength _); reflexivity.
Qed.
(** A basin with a negative radius pulls nothing. *)
Theorem C43_negative_radius : forall (b : Basin F) s, moderate (st_phase s) -> moderate (st_phase (ba_target b)) -> flt (ba_radius b) (fofZ 0) = true -> @AttractionForce F NF b s = fofZ 0.
Proof.
  intros b s M1 M2 L. destruct (distance_float b s M1 M2) as [FD BD]. unfold AttractionForce. cbv zeta. change (@nlt F NF) with flt.
  rewrite (L_Ford.flt_fle_trans _ (fofZ 0) (DistanceToTarget b s)); [reflexivity|exact L|]. apply fle_true. rewrite ford_fofZ, ford_fin by (auto; lia). repeat split; auto using fin_nan. tauto.
Qed.
(** The constructor's clamp: any strength but NaN ends in [0,1]. *)
Theorem C43_strength_clamped_float : forall t st r, fisnan st = false -> in_unit (ba_strength (@NewBasin F NF t st r)).
Proof.
  intros t st r NS. unfold NewBasin. cbn [ba_strength]. change (@nlt F NF) with flt. change (@n0 F NF) with (fofZ 0). change (@n1 F NF) with (fofZ 1).
  destruct (fofZ_fin 0 ltac:(lia)) as [F0 V0]. destruct one_fin as [F1 V1].
  destruct (flt st (fofZ 0)) eqn:A; [split; [exact F0|rewrite V0; lra]|]. destruct (flt (fofZ 1) st) eqn:B; [split; [exact F1|rewrite V1; lra]|].
  apply flt_false in A, B; auto using fofZ_nan. rewrite ford_fofZ in A, B by lia. assert (FS : is_finite st = true) by (apply ford_fin_inv; auto; pose proof BIG_ge_1000; lra).
  rewrite ford_fin in A, B by assumption. split; [exact FS|lra].
Qed.
End Floats.
(** An instance of the hypotheses, with a force strictly between. *)
Example C43_force_example : let b := @NewBasin R RNum (mkState 1 1 0) (1 / 2) 2 in let s := mkState 2 1%Z 0 in
  0 < ba_radius b /\ 0 <= ba_strength b <= 1 /\ ~ boosted b s /\ ~ pd_special (st_phase (ba_target b)) (st_phase s) /\ AttractionForce b s = 1 / 4.
Proof.
  intros b s. assert (EB : ba_strength b = 1 / 2) by (apply C43_strength_clamped; lra). pose proof PI2_3_2 as H32. unfold PI2 in H32.
  assert (NB : ~ boosted b s) by (intros [X _]; cbn in X; lra).
  split; [cbn; lra|]. split; [lra|]. split; [exact NB|]. split; [intros [[_ X]|[_ X]]; cbn in X; apply Rabs_def2 in X; lra|].
  assert (A : is_arc 2 1 1). { replace 1 with (Rabs 1) at 2 by apply Rabs_R1. apply is_arc_of_rep; [lra|]. exists 0%Z. lra. }
  destruct (C43_force_shape b s 1 A) as (_ & S2 & _). rewrite (S2 ltac:(cbn; lra) NB), EB. cbn [ba_radius b NewBasin]. unfold b. cbn. field.
Qed.
Print Assumptions C43_distance_is_arc.
Print Assumptions C43_force_shape.
Print Assumptions C43_force_range.
Print Assumptions C43_force_largest_at_target.
Print Assumptions C43_strength_clamped.
Print Assumptions C43_force_above_strength_refuted.
Print Assumptions C43_adjustment_toward.
Print Assumptions C43_overshoot_refuted.
Print Assumptions C43_wrong_way_refuted.
Print Assumptions C43_rate_range.
Print Assumptions C43_force_range_float.
Print Assumptions C43_zero_radius_refuted.
Print Assumptions C43_negative_radius.
Print Assumptions C43_strength_clamped_float.
Print Assumptions C43_in_basin.
Print Assumptions C43_pulled_in_basin.
