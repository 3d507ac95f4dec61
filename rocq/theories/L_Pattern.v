(** Facts about PatternDistance / IdentifyGaps over exact reals. *)
From Coq Require Import ZArith Reals Psatz Bool List.
From Flocq Require Import Core.Core.
From Verif Require Import Num RealNum S_Circle S_Pattern M_Core L_Circle.
Import ListNotations.
Open Scope R_scope.

Notation RTP := (TargetPattern R).
Notation Rdist := (@PatternDistance R RNum).
Notation Rgaps := (@IdentifyGaps R RNum).

(** |PhaseDifference| against the true arc: equal outside the two windows; inside them the
    arc is within 2e-10 of the returned pi/2. *)
Lemma RPD_arc a b d : is_arc a b d ->
  Rabs (RPD a b) = d \/ (Rabs (RPD a b) = PI / 2 /\ Rabs (d - PI / 2) <= 2 / 10000000000).
Proof.
  intros A. pose proof PI_pos as HP. pose proof PI_4 as HP4.
  assert (W : forall a b d, is_arc a b d ->
     Rabs a < 1 / 10000000000 -> Rabs (b - 3 * PI / 2) < 1 / 10000000000 ->
     Rabs (d - PI / 2) <= 2 / 10000000000).
  { clear. intros a b d A Ha Hb. pose proof PI_pos as HP. pose proof PI2_3_2 as H32. unfold PI2 in H32.
    apply Rabs_def2 in Ha. apply Rabs_def2 in Hb.
    set (t := a - b + 2 * PI).
    assert (Ct : cong (a - b) t). { exists (-1)%Z. unfold t. simpl. ring. }
    assert (Ht : - PI <= t <= PI) by (unfold t; lra).
    rewrite (is_arc_unique _ _ _ _ A (is_arc_of_rep _ _ _ Ht Ct)).
    rewrite (Rabs_right t) by (unfold t; lra). apply Rabs_le. unfold t. lra. }
  destruct (Rlt_or_le (Rabs a) (1 / 10000000000)) as [H1|H1];
  destruct (Rlt_or_le (Rabs (b - 3 * PI / 2)) (1 / 10000000000)) as [H2|H2].
  - right. rewrite (RPD_special1 a b H1 H2). rewrite Rabs_Ropp, Rabs_right by lra. split; auto.
    apply (W a b d); auto.
  - destruct (Rlt_or_le (Rabs (a - 3 * PI / 2)) (1 / 10000000000)) as [H3|H3];
    destruct (Rlt_or_le (Rabs b) (1 / 10000000000)) as [H4|H4].
    + right. rewrite (RPD_special2 a b H3 H4). rewrite Rabs_right by lra. split; auto.
      apply (W b a d); auto. now apply is_arc_sym.
    + left. apply is_arc_unique with a b; auto. apply RPD_spec. unfold pd_special. lra.
    + left. apply is_arc_unique with a b; auto. apply RPD_spec. unfold pd_special. lra.
    + left. apply is_arc_unique with a b; auto. apply RPD_spec. unfold pd_special. lra.
  - destruct (Rlt_or_le (Rabs (a - 3 * PI / 2)) (1 / 10000000000)) as [H3|H3];
    destruct (Rlt_or_le (Rabs b) (1 / 10000000000)) as [H4|H4].
    + right. rewrite (RPD_special2 a b H3 H4). rewrite Rabs_right by lra. split; auto.
      apply (W b a d); auto. now apply is_arc_sym.
    + left. apply is_arc_unique with a b; auto. apply RPD_spec. unfold pd_special. lra.
    + left. apply is_arc_unique with a b; auto. apply RPD_spec. unfold pd_special. lra.
    + left. apply is_arc_unique with a b; auto. apply RPD_spec. unfold pd_special. lra.
  - destruct (Rlt_or_le (Rabs (a - 3 * PI / 2)) (1 / 10000000000)) as [H3|H3];
    destruct (Rlt_or_le (Rabs b) (1 / 10000000000)) as [H4|H4].
    + right. rewrite (RPD_special2 a b H3 H4). rewrite Rabs_right by lra. split; auto.
      apply (W b a d); auto. now apply is_arc_sym.
    + left. apply is_arc_unique with a b; auto. apply RPD_spec. unfold pd_special. lra.
    + left. apply is_arc_unique with a b; auto. apply RPD_spec. unfold pd_special. lra.
    + left. apply is_arc_unique with a b; auto. apply RPD_spec. unfold pd_special. lra.
Qed.

Lemma PI_gt3 : 3 < PI.
Proof. pose proof PI2_3_2 as H32. unfold PI2 in H32. lra. Qed.

Lemma RPD_abs_off a b : Rabs (RPD a b) > 1 / 10 <-> exists d, is_arc a b d /\ d > 1 / 10.
Proof.
  pose proof PI_gt3. destruct (is_arc_exists a b) as [d Hd].
  destruct (RPD_arc a b d Hd) as [E|[E1 E2]].
  - rewrite E. split; eauto. intros (d' & H1 & H2). now rewrite (is_arc_unique _ _ _ _ Hd H1).
  - apply Rabs_le_inv in E2. split; [|lra]. intros _. exists d. split; auto; lra.
Qed.
Lemma RPD_0_iff a b : RPD a b = 0 <-> cong a b.
Proof.
  pose proof PI_gt3. destruct (is_arc_exists a b) as [d Hd].
  destruct (RPD_arc a b d Hd) as [E|[E1 E2]].
  - split.
    + intros E0. rewrite E0, Rabs_R0 in E. subst. now apply is_arc_0.
    + intros C. apply is_arc_0 in C. pose proof (is_arc_unique _ _ _ _ Hd C). subst.
      destruct (Req_dec (RPD a b) 0) as [Z0|Z0]; auto. apply Rabs_no_R0 in Z0. lra.
  - apply Rabs_le_inv in E2. split.
    + intros E0. rewrite E0, Rabs_R0 in E1. lra.
    + intros C. apply is_arc_0 in C. pose proof (is_arc_unique _ _ _ _ Hd C). lra.
Qed.
Lemma RPD_abs_range a b : 0 <= Rabs (RPD a b) <= PI.
Proof.
  split; [apply Rabs_pos|]. pose proof (RPD_range a b). apply Rabs_le. lra.
Qed.

Definition freqDist (c t : Z) : R :=
  if (0 <? t)%Z then Rmin (Rabs (IZR (c - t)) / IZR t) 1 else 0.
Lemma Rdist_unfold c t : Rdist (Some c) (Some t) =
  4 / 10 * (Rabs (RPD (tp_phase t) (tp_phase c)) / PI) + 3 / 10 * freqDist (tp_freq c) (tp_freq t)
  + 3 / 10 * Rabs (tp_coh t - tp_coh c).
Proof.
  unfold PatternDistance, freqDist, npi. simpl. replace (2 * PI / 2) with PI by field. reflexivity.
Qed.
Lemma freqDist_range c t : 0 <= freqDist c t <= 1.
Proof.
  unfold freqDist. destruct (Z.ltb_spec 0 t); [|lra].
  assert (0 < IZR t) by (apply IZR_lt; auto).
  assert (0 <= Rabs (IZR (c - t)) / IZR t).
  { apply Rmult_le_pos; [apply Rabs_pos|left; now apply Rinv_0_lt_compat]. }
  unfold Rmin. destruct (Rle_dec _ _); lra.
Qed.
Lemma freqDist_0 c t : freqDist c t = 0 <-> (0 < t -> c = t)%Z.
Proof.
  unfold freqDist. destruct (Z.ltb_spec 0 t) as [H|H]; [|split; [lia|lra]].
  assert (0 < IZR t) by (apply IZR_lt; auto). split.
  - intros E _. unfold Rmin in E. destruct (Rle_dec _ _); [|lra].
    assert (E2 : Rabs (IZR (c - t)) = 0).
    { apply (f_equal (fun z => z * IZR t)) in E. unfold Rdiv in E.
      rewrite Rmult_assoc, Rinv_l in E by lra. lra. }
    destruct (Req_dec (IZR (c - t)) 0) as [Z0|Z0]; [apply eq_IZR_R0 in Z0; lia|].
    apply Rabs_no_R0 in Z0. lra.
  - intros E. rewrite (E H), Z.sub_diag, Rabs_R0. unfold Rdiv. rewrite Rmult_0_l.
    apply Rmin_left. lra.
Qed.

Lemma Rdist_range c t : 0 <= tp_coh c <= 1 -> 0 <= tp_coh t <= 1 ->
  0 <= Rdist (Some c) (Some t) <= 1.
Proof.
  intros Hc Ht. rewrite Rdist_unfold. pose proof PI_pos as HP.
  pose proof (RPD_abs_range (tp_phase t) (tp_phase c)) as Hp.
  pose proof (freqDist_range (tp_freq c) (tp_freq t)).
  assert (0 <= Rabs (tp_coh t - tp_coh c) <= 1) by (split; [apply Rabs_pos|apply Rabs_le; lra]).
  assert (0 <= Rabs (RPD (tp_phase t) (tp_phase c)) / PI <= 1).
  { split; [apply Rmult_le_pos; [lra|left; now apply Rinv_0_lt_compat]|].
    apply Rmult_le_reg_r with PI; auto. unfold Rdiv. rewrite Rmult_assoc, Rinv_l by lra. lra. }
  lra.
Qed.
Lemma Rdist_0_iff c t : Rdist (Some c) (Some t) = 0 <->
  cong (tp_phase c) (tp_phase t) /\ ((0 < tp_freq t)%Z -> tp_freq c = tp_freq t) /\
  tp_coh c = tp_coh t.
Proof.
  rewrite Rdist_unfold. pose proof PI_pos as HP.
  pose proof (RPD_abs_range (tp_phase t) (tp_phase c)) as Hp.
  pose proof (freqDist_range (tp_freq c) (tp_freq t)).
  pose proof (Rabs_pos (tp_coh t - tp_coh c)).
  assert (0 <= Rabs (RPD (tp_phase t) (tp_phase c)) / PI).
  { apply Rmult_le_pos; [lra|left; now apply Rinv_0_lt_compat]. }
  split.
  - intros E.
    assert (E1 : Rabs (RPD (tp_phase t) (tp_phase c)) / PI = 0) by lra.
    assert (E2 : freqDist (tp_freq c) (tp_freq t) = 0) by lra.
    assert (E3 : Rabs (tp_coh t - tp_coh c) = 0) by lra.
    split; [|split].
    + apply cong_sym, RPD_0_iff.
      assert (E1' : Rabs (RPD (tp_phase t) (tp_phase c)) = 0).
      { apply (f_equal (fun z => z * PI)) in E1. unfold Rdiv in E1.
        rewrite Rmult_assoc, Rinv_l in E1 by lra. lra. }
      destruct (Req_dec (RPD (tp_phase t) (tp_phase c)) 0) as [Z0|Z0]; auto.
      apply Rabs_no_R0 in Z0. congruence.
    + now apply freqDist_0.
    + destruct (Req_dec (tp_coh t - tp_coh c) 0) as [Z0|Z0]; [lra|].
      apply Rabs_no_R0 in Z0. congruence.
  - intros (C & Fr & Co). apply cong_sym, RPD_0_iff in C. apply freqDist_0 in Fr.
    rewrite C, Fr, Co, Rminus_diag_eq, Rabs_R0 by auto. unfold Rdiv. ring.
Qed.

(** IdentifyGaps. *)
Definition gphase (c t : RTP) : list (PatternGap R) :=
  if Rlt_bool (1 / 10) (Rabs (RPD (tp_phase t) (tp_phase c)))
  then [mkGap GapPhase (tp_phase c) (tp_phase t) (Rabs (RPD (tp_phase t) (tp_phase c)) / PI)] else [].
Definition gfreq (c t : RTP) : list (PatternGap R) :=
  if (0 <? tp_freq t)%Z && (0 <? tp_freq c)%Z then
    if Rlt_bool (5 / 100) (Rabs (IZR (tp_freq c) / IZR (tp_freq t) - 1))
    then [mkGap GapFrequency (IZR (tp_freq c)) (IZR (tp_freq t)) (Rabs (IZR (tp_freq c) / IZR (tp_freq t) - 1))]
    else []
  else [].
Definition gcoh (c t : RTP) : list (PatternGap R) :=
  if Rlt_bool (tp_coh c) (tp_coh t - 5 / 100)
  then [mkGap GapCoherence (tp_coh c) (tp_coh t) (tp_coh t - tp_coh c)] else [].
Lemma Rgaps_unfold c t : Rgaps c t = gphase c t ++ gfreq c t ++ gcoh c t.
Proof.
  unfold IdentifyGaps, gphase, gfreq, gcoh, npi. simpl.
  replace (2 * PI / 2) with PI by field. reflexivity.
Qed.

Lemma gphase_iff c t : gphase c t <> [] <-> phase_off (tp_phase c) (tp_phase t).
Proof.
  unfold gphase, phase_off. rewrite <- RPD_abs_off. case Rlt_bool_spec; intros H.
  - split; [lra|discriminate].
  - split; [congruence|lra].
Qed.
Lemma gfreq_iff c t : gfreq c t <> [] <-> freq_off (tp_freq c) (tp_freq t).
Proof.
  unfold gfreq, freq_off.
  destruct (Z.ltb_spec 0 (tp_freq t)) as [H1|H1]; destruct (Z.ltb_spec 0 (tp_freq c)) as [H2|H2]; simpl;
  try (split; [congruence|lia]).
  assert (Ht : 0 < IZR (tp_freq t)) by (apply IZR_lt; auto).
  assert (E : Rabs (IZR (tp_freq c) / IZR (tp_freq t) - 1) * IZR (tp_freq t) = Rabs (IZR (tp_freq c) - IZR (tp_freq t))).
  { rewrite <- (Rabs_right (IZR (tp_freq t))) at 2 by lra. rewrite <- Rabs_mult. f_equal. field. lra. }
  rewrite <- E. case Rlt_bool_spec; intros H.
  - split; [intros _; repeat split; auto; nra|discriminate].
  - split; [congruence|intros (_ & _ & G); exfalso; nra].
Qed.
Lemma gcoh_iff c t : gcoh c t <> [] <-> coh_off (tp_coh c) (tp_coh t).
Proof.
  unfold gcoh, coh_off. case Rlt_bool_spec; intros H.
  - split; [lra|discriminate].
  - split; [congruence|lra].
Qed.

Lemma gap_types c t :
  map gap_type (Rgaps c t) =
  map gap_type (gphase c t) ++ map gap_type (gfreq c t) ++ map gap_type (gcoh c t).
Proof. rewrite Rgaps_unfold, !map_app. reflexivity. Qed.
Lemma gphase_form c t : gphase c t = [] \/
  gphase c t = [mkGap GapPhase (tp_phase c) (tp_phase t) (Rabs (RPD (tp_phase t) (tp_phase c)) / PI)].
Proof. unfold gphase. destruct (Rlt_bool _ _); auto. Qed.
Lemma gfreq_form c t : gfreq c t = [] \/
  gfreq c t = [mkGap GapFrequency (IZR (tp_freq c)) (IZR (tp_freq t)) (Rabs (IZR (tp_freq c) / IZR (tp_freq t) - 1))].
Proof. unfold gfreq. destruct (_ && _); auto. destruct (Rlt_bool _ _); auto. Qed.
Lemma gcoh_form c t : gcoh c t = [] \/ gcoh c t = [mkGap GapCoherence (tp_coh c) (tp_coh t) (tp_coh t - tp_coh c)].
Proof. unfold gcoh. destruct (Rlt_bool _ _); auto. Qed.

Ltac gapcases c t :=
  destruct (gphase_form c t) as [Gp|Gp]; destruct (gfreq_form c t) as [Gf|Gf];
  destruct (gcoh_form c t) as [Gc|Gc].

(** Exactly the out-of-tolerance components, each once, in the order phase, frequency, coherence,
    carrying the current and the target value. *)
Lemma gaps_spec c t :
  (In GapPhase (map gap_type (Rgaps c t)) <-> phase_off (tp_phase c) (tp_phase t)) /\
  (In GapFrequency (map gap_type (Rgaps c t)) <-> freq_off (tp_freq c) (tp_freq t)) /\
  (In GapCoherence (map gap_type (Rgaps c t)) <-> coh_off (tp_coh c) (tp_coh t)) /\
  (exists b1 b2 b3 : bool, map gap_type (Rgaps c t) =
     (if b1 then [GapPhase] else []) ++ (if b2 then [GapFrequency] else []) ++ (if b3 then [GapCoherence] else [])).
Proof.
  rewrite <- gphase_iff, <- gfreq_iff, <- gcoh_iff, gap_types.
  gapcases c t; rewrite Gp, Gf, Gc; simpl;
  (split; [|split; [|split]];
   [ split; [intros ?; intuition congruence|intuition congruence]
   | split; [intros ?; intuition congruence|intuition congruence]
   | split; [intros ?; intuition congruence|intuition congruence]
   | ]).
  - exists false, false, false; reflexivity.
  - exists false, false, true; reflexivity.
  - exists false, true, false; reflexivity.
  - exists false, true, true; reflexivity.
  - exists true, false, false; reflexivity.
  - exists true, false, true; reflexivity.
  - exists true, true, false; reflexivity.
  - exists true, true, true; reflexivity.
Qed.
Lemma gaps_empty c t : Rgaps c t = [] <->
  ~ phase_off (tp_phase c) (tp_phase t) /\ ~ freq_off (tp_freq c) (tp_freq t) /\ ~ coh_off (tp_coh c) (tp_coh t).
Proof.
  rewrite <- gphase_iff, <- gfreq_iff, <- gcoh_iff, Rgaps_unfold.
  gapcases c t; rewrite Gp, Gf, Gc; simpl; split; intros; intuition congruence.
Qed.
Lemma gaps_values c t g : In g (Rgaps c t) ->
  match gap_type g with
  | GapPhase => gap_current g = tp_phase c /\ gap_target g = tp_phase t
  | GapFrequency => gap_current g = IZR (tp_freq c) /\ gap_target g = IZR (tp_freq t)
  | GapCoherence => gap_current g = tp_coh c /\ gap_target g = tp_coh t
  | _ => False
  end.
Proof.
  rewrite Rgaps_unfold.
  gapcases c t; rewrite Gp, Gf, Gc; simpl; intuition subst; simpl; auto.
Qed.
Lemma gaps_severity c t g : 0 <= tp_coh c <= 1 -> 0 <= tp_coh t <= 1 -> In g (Rgaps c t) ->
  0 < gap_severity g /\ (gap_type g <> GapFrequency -> gap_severity g <= 1) /\
  (gap_type g = GapFrequency -> (tp_freq c <= 2 * tp_freq t)%Z -> gap_severity g <= 1).
Proof.
  intros Hc Ht. rewrite Rgaps_unfold. pose proof PI_pos as HP.
  intros Hin. apply in_app_or in Hin. destruct Hin as [Hin|Hin]; [|apply in_app_or in Hin; destruct Hin as [Hin|Hin]].
  - unfold gphase in Hin. revert Hin. case Rlt_bool_spec; [|easy]. intros H [<-|[]]. simpl.
    pose proof (RPD_abs_range (tp_phase t) (tp_phase c)) as Hp. split; [|split; [intros _|discriminate]].
    + apply Rdiv_lt_0_compat; lra.
    + apply Rmult_le_reg_r with PI; auto. unfold Rdiv. rewrite Rmult_assoc, Rinv_l by lra. lra.
  - unfold gfreq in Hin. revert Hin.
    destruct (Z.ltb_spec 0 (tp_freq t)) as [H1|H1]; [|easy]; destruct (Z.ltb_spec 0 (tp_freq c)) as [H2|H2]; [|easy].
    cbn [andb]. case Rlt_bool_spec; [|easy]. intros H [<-|[]]. cbn [gap_severity gap_type]. split; [lra|]. split; [congruence|].
    intros _ L.
    assert (Ht' : 0 < IZR (tp_freq t)) by (apply IZR_lt; auto).
    assert (Hc' : 0 < IZR (tp_freq c)) by (apply IZR_lt; auto).
    apply IZR_le in L. rewrite mult_IZR in L.
    assert (0 < IZR (tp_freq c) / IZR (tp_freq t) <= 2).
    { split; [now apply Rdiv_lt_0_compat|]. apply Rmult_le_reg_r with (IZR (tp_freq t)); auto.
      unfold Rdiv. rewrite Rmult_assoc, Rinv_l by lra. lra. }
    apply Rabs_le. lra.
  - unfold gcoh in Hin. revert Hin. case Rlt_bool_spec; [|easy]. intros H [<-|[]]. simpl.
    split; [lra|]. split; [intros _; lra|discriminate].
Qed.
(** The frequency severity is an unclamped ratio. *)
Lemma gaps_severity_freq_large :
  exists c t g, 0 <= tp_coh c <= 1 /\ 0 <= tp_coh t <= 1 /\ In g (Rgaps c t) /\ gap_severity g = 9.
Proof.
  exists (mkTP 0 1000 0 0 [] 0), (mkTP 0 100 0 0 [] 0).
  exists (mkGap GapFrequency 1000 100 9). cbn [tp_coh gap_severity].
  split; [lra|]. split; [lra|]. split; [|reflexivity].
  rewrite Rgaps_unfold. apply in_or_app. right. apply in_or_app. left.
  unfold gfreq. simpl. replace (1000 / 100 - 1) with 9 by field.
  rewrite Rabs_right by lra. rewrite Rlt_bool_true by lra. left. reflexivity.
Qed.

(** GenerateSineWave. *)
Lemma sine_wave n : length (@GenerateSineWave R RNum n) = n /\
  (forall x, In x (@GenerateSineWave R RNum n) -> -1 <= x <= 1) /\
  (forall i, (i < n)%nat -> nth i (@GenerateSineWave R RNum n) 2 = sin (2 * PI * INR i / INR n)).
Proof.
  unfold GenerateSineWave, npi. split; [now rewrite map_length, seq_length|]. split.
  - intros x Hx. apply in_map_iff in Hx. destruct Hx as (i & <- & _). apply SIN_bound.
  - intros i Hi. set (f := fun i0 : nat => _).
    rewrite (nth_indep _ 2 (f 0%nat)) by now rewrite map_length, seq_length.
    rewrite map_nth, seq_nth by auto. unfold f.
    change (sin (IZR (Z.of_nat (0 + i)) * 2 * (2 * PI / 2) / IZR (Z.of_nat n)) = sin (2 * PI * INR i / INR n)).
    rewrite <- !INR_IZR_INZ. f_equal. simpl plus. unfold Rdiv. field. 
    apply not_0_INR. lia.
Qed.
