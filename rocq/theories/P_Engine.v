(** C41: the pattern completion engine. *)
From Coq Require Import ZArith Reals Psatz List Bool Lia String Permutation.
From Flocq Require Import Core.Core IEEE754.BinarySingleNaN.
From Verif Require Import Num GoBase F64 RealNum L_F64 L_F64x L_Ford M_Core S_Circle L_Circle L_Pattern L_Strategy M_Engine.
Import ListNotations.
Open Scope R_scope.

(* ------------------------------------------------------------------ best template *)
Section Best.
Variable tr : Trig.
Local Instance NFe : Num F := FNum tr.
Lemma flt_trans x y z : flt x y = true -> flt y z = true -> flt x z = true.
Proof. intros A B. apply (L_Ford.flt_fle_trans x y z A). now apply L_Ford.flt_le. Qed.
Definition best_inv (cur : option (TargetPattern F)) (thr : F) (p : list (string * option (TargetPattern F)))
    (acc : option (TargetPattern F) * F) : Prop :=
  (acc = (None, nmaxfloat) /\ forall q, In q p -> flt (PatternDistance cur (snd q)) thr = true -> flt (PatternDistance cur (snd q)) nmaxfloat = false) \/
  (exists n t, fst acc = Some t /\ In (n, Some t) p /\ snd acc = PatternDistance cur (Some t) /\
     flt (snd acc) thr = true /\ flt (snd acc) nmaxfloat = true /\ forall q, In q p -> flt (PatternDistance cur (snd q)) (snd acc) = false).
Lemma best_fold cur thr l : forall p acc, best_inv cur thr p acc -> best_inv cur thr (p ++ l) (fold_left (bestStep cur thr) l acc).
Proof.
  induction l as [|q l IH]; intros p acc H; [rewrite app_nil_r; exact H|].
  cbn [fold_left]. replace (p ++ q :: l) with ((p ++ [q]) ++ l) by now rewrite <- app_assoc. apply IH. clear IH.
  unfold bestStep. change (@nlt F NFe) with flt.
  destruct (flt (PatternDistance cur (snd q)) (snd acc) && flt (PatternDistance cur (snd q)) thr) eqn:E.
  - apply andb_true_iff in E. destruct E as [E1 E2]. right. destruct q as [n [t|]].
    + exists n, t. cbn [fst snd] in *.
      assert (M : flt (PatternDistance cur (Some t)) nmaxfloat = true).
      { destruct H as [[-> _]|(n' & t' & _ & _ & _ & _ & M & _)]; [exact E1|]. now apply flt_trans with (snd acc). }
      repeat match goal with |- _ /\ _ => split end; auto.
      * apply in_or_app. right. now left.
      * intros q' I. apply in_app_or in I. destruct (flt (PatternDistance cur (snd q')) (PatternDistance cur (Some t))) eqn:D; auto.
        destruct I as [I|[<-|[]]]; [|now rewrite flt_irr in D].
        destruct H as [[-> H]|(n' & t' & _ & _ & _ & _ & _ & H)].
        --
           assert (flt (PatternDistance cur (snd q')) nmaxfloat = true) by now apply flt_trans with (PatternDistance cur (Some t)).
           rewrite (H q' I) in H0; [discriminate|]. now apply flt_trans with (PatternDistance cur (Some t)).
        -- specialize (H q' I). rewrite (flt_trans _ _ _ D E1) in H. discriminate.
    + cbn [fst snd] in *. exfalso. assert (flt nmaxfloat (@nmaxfloat F NFe) = false) by apply flt_irr.
      assert (PD : PatternDistance cur None = @nmaxfloat F NFe) by (destruct cur; reflexivity). rewrite PD in *.
      destruct H as [[-> _]|(n' & t' & _ & _ & _ & _ & M & _)]; [cbn [snd] in E1; congruence|].
      rewrite (flt_trans _ _ _ E1 M) in H0. discriminate.
  - destruct H as [[-> H]|(n & t & A1 & A2 & A3 & A4 & A5 & H)].
    + left. split; auto. intros q' I. apply in_app_or in I. destruct I as [I|[<-|[]]]; auto.
      intros L. cbn [snd] in E. rewrite L, andb_true_r in E. exact E.
    + right. exists n, t. repeat match goal with |- _ /\ _ => split end; auto.
      * apply in_or_app. now left.
      * intros q' I. apply in_app_or in I. destruct I as [I|[<-|[]]]; auto.
        destruct (flt (PatternDistance cur (snd q)) (snd acc)) eqn:D; auto.
        rewrite (flt_trans _ _ _ D A4) in E. discriminate.
Qed.
(** The best template is a registered one below the threshold, no registered one is closer; none is returned exactly when
    none is below the threshold.  The order of the entries is arbitrary; distances may be NaN. *)
Theorem C41_best_template : forall (e : Engine F) cur, en_threshold e = flit 7 10 ->
  match findBestTemplate e cur with
  | Some t => (exists n, In (n, Some t) (en_templates e)) /\ flt (PatternDistance cur (Some t)) (flit 7 10) = true /\
      forall n t', In (n, t') (en_templates e) -> flt (PatternDistance cur t') (PatternDistance cur (Some t)) = false
  | None => forall n t', In (n, t') (en_templates e) -> flt (PatternDistance cur t') (flit 7 10) = false
  end.
Proof.
  intros e cur Ht. unfold findBestTemplate. rewrite Ht.
  pose proof (best_fold cur (flit 7 10) (en_templates e) [] (None, nmaxfloat)) as H.
  destruct H as [[E H]|(n & t & A1 & A2 & A3 & A4 & A5 & H)].
  - left. split; auto. intros q [].
  - rewrite E. cbn [fst]. intros n t' I. specialize (H (n, t') I). cbn [snd] in H.
    destruct (flt (PatternDistance cur t') (flit 7 10)) eqn:D; auto. specialize (H eq_refl).
    rewrite (flt_trans _ (flit 7 10) (@nmaxfloat F NFe) D) in H; [discriminate|]. vm_compute. reflexivity.
  - rewrite A1. cbn [app] in *. split; [eauto|]. rewrite <- A3. split; auto. intros n' t' I. apply (H (n', t') I).
Qed.
(** The distance of the best template does not depend on the iteration order. *)
Theorem C41_best_template_order : forall (e e' : Engine F) cur, en_threshold e = flit 7 10 -> en_threshold e' = flit 7 10 ->
  Permutation (en_templates e) (en_templates e') ->
  match findBestTemplate e cur, findBestTemplate e' cur with
  | Some t, Some t' => feq (PatternDistance cur (Some t)) (PatternDistance cur (Some t')) = true
  | None, None => True
  | _, _ => False
  end.
Proof.
  intros e e' cur H H' P. pose proof (C41_best_template e cur H) as A. pose proof (C41_best_template e' cur H') as B.
  destruct (findBestTemplate e cur) as [t|], (findBestTemplate e' cur) as [t'|]; auto.
  - destruct A as ([n A1] & A2 & A3), B as ([n' B1] & B2 & B3).
    pose proof (A3 n' (Some t') (Permutation_in _ (Permutation_sym P) B1)) as C. pose proof (B3 n (Some t) (Permutation_in _ P A1)) as D.
    apply flt_true in A2, B2. destruct A2 as (N1 & _ & _), B2 as (N2 & _ & _).
    apply flt_false in C, D; auto. apply feq_true. repeat split; auto. lra.
  - destruct A as ([n A1] & A2 & _). rewrite (B n (Some t) (Permutation_in _ P A1)) in A2. discriminate.
  - destruct B as ([n B1] & B2 & _). rewrite (A n (Some t') (Permutation_in _ (Permutation_sym P) B1)) in B2. discriminate.
Qed.
End Best.

(* ------------------------------------------------------------------ interpolation (exact reals) *)
Definition noType (k : GapType) (gs : list (PatternGap R)) : Prop := forall g, In g gs -> gap_type g <> k.
Lemma interp_other (gs : list (PatternGap R)) : forall c,
  (noType GapPhase gs -> cp_phase (fold_left interpolateGap gs c) = cp_phase c) /\
  (noType GapFrequency gs -> cp_freq (fold_left interpolateGap gs c) = cp_freq c) /\
  (noType GapCoherence gs -> cp_boost (fold_left interpolateGap gs c) = cp_boost c).
Proof.
  induction gs as [|g gs IH]; intros c; [auto|]. cbn [fold_left]. destruct (IH (interpolateGap c g)) as (A & B & C).
  assert (D : forall k, noType k (g :: gs) -> noType k gs /\ gap_type g <> k) by (intros k H; split; [intros x I; apply H; now right|apply H; now left]).
  unfold interpolateGap in *. repeat split; intros H; apply D in H; destruct H as [H N].
  - rewrite (A H). destruct (gap_type g); reflexivity || congruence.
  - rewrite (B H). destruct (gap_type g); reflexivity || congruence.
  - rewrite (C H). destruct (gap_type g); reflexivity || congruence.
Qed.
Definition wt (g : PatternGap R) : R := Rmin (gap_severity g) (5 / 10).
Lemma interp_last (cur : TargetPattern R) pre g post : noType (gap_type g) post ->
  let r := interpolatePattern cur (pre ++ g :: post) in
  (gap_type g = GapPhase -> cp_phase r = Some (@WrapPhase R RNum (gap_current g + RPD (gap_target g) (gap_current g) * wt g))) /\
  (gap_type g = GapFrequency -> cp_freq r = Some (Ztrunc (gap_current g + (gap_target g - gap_current g) * wt g))) /\
  (gap_type g = GapCoherence -> cp_boost r = Some ((gap_target g - gap_current g) * wt g)).
Proof.
  intros H. cbv zeta. unfold interpolatePattern. rewrite fold_left_app. cbn [fold_left].
  set (c := fold_left interpolateGap pre _). destruct (interp_other post (interpolateGap c g)) as (A & B & C).
  repeat split; intros E; rewrite E in H.
  - rewrite (A H). unfold interpolateGap. rewrite E. reflexivity.
  - rewrite (B H). unfold interpolateGap. rewrite E. reflexivity.
  - rewrite (C H). unfold interpolateGap. rewrite E. reflexivity.
Qed.
Lemma wt_range g : 0 <= gap_severity g -> 0 <= wt g <= 1 / 2 /\ (0 < gap_severity g -> 0 < wt g) /\ (1 / 2 <= gap_severity g -> wt g = 1 / 2).
Proof. intros H. unfold wt, Rmin. destruct Rle_dec; repeat split; lra. Qed.
(** Phase: the new phase is on the shorter arc from the current phase to the target, at most half way. *)
Theorem C41_interpolate_phase : forall (cur : TargetPattern R) pre g post d,
  gap_type g = GapPhase -> noType GapPhase post -> 0 <= gap_severity g ->
  ~ pd_special (gap_target g) (gap_current g) -> is_arc (gap_target g) (gap_current g) d ->
  exists p w, cp_phase (interpolatePattern cur (pre ++ g :: post)) = Some p /\ 0 <= p < 2 * PI /\
    0 <= w <= 1 / 2 /\ (0 < gap_severity g -> 0 < w) /\
    is_arc (gap_target g) p ((1 - w) * d) /\ is_arc (gap_current g) p (w * d).
Proof.
  intros cur pre g post d E N S Sp A. rewrite <- E in N. destruct (interp_last cur pre g post N) as [H _].
  destruct (wt_range g S) as (W1 & W2 & _).
  exists (@WrapPhase R RNum (gap_current g + RPD (gap_target g) (gap_current g) * wt g)), (wt g).
  destruct (move_arc (gap_current g) (gap_target g) d (wt g) Sp ltac:(lra) A) as [M1 M2].
  repeat match goal with |- _ /\ _ => split end; auto; try lra; apply RWrap_spec.
Qed.
(** Frequency (a whole number of nanoseconds): between current and target, at most half way up to the rounding. *)
Theorem C41_interpolate_frequency : forall (cur : TargetPattern R) pre g post a b,
  gap_type g = GapFrequency -> noType GapFrequency post -> 0 <= gap_severity g ->
  gap_current g = IZR a -> gap_target g = IZR b ->
  exists f, cp_freq (interpolatePattern cur (pre ++ g :: post)) = Some f /\
    (Z.min a b <= f <= Z.max a b)%Z /\ (2 * Z.abs (f - a) <= Z.abs (b - a) + 1)%Z.
Proof.
  intros cur pre g post a b E N S Ea Eb. rewrite <- E in N. destruct (interp_last cur pre g post N) as (_ & H & _).
  rewrite (H E). destruct (wt_range g S) as ((W0 & W1) & _). set (w := wt g) in *.
  exists (Ztrunc (gap_current g + (gap_target g - gap_current g) * w)). split; [reflexivity|]. rewrite Ea, Eb.
  set (x := IZR a + (IZR b - IZR a) * w).
  assert (T : (0 <= x /\ IZR (Ztrunc x) <= x < IZR (Ztrunc x) + 1 /\ 0 <= IZR (Ztrunc x)) \/ (x <= 0 /\ IZR (Ztrunc x) - 1 < x <= IZR (Ztrunc x) /\ IZR (Ztrunc x) <= 0)).
  { destruct (Rle_or_lt 0 x) as [L|L].
    - left. split; auto. rewrite Ztrunc_floor by auto. pose proof (Zfloor_lb x). pose proof (Zfloor_ub x).
      split; [lra|]. apply IZR_le. now apply Zfloor_lub.
    - right. split; [lra|]. rewrite Ztrunc_ceil by lra. pose proof (Zceil_ub x). pose proof (Zceil_glb 0 x ltac:(lra)).
      assert (IZR (Zceil x) - 1 < x). { unfold Zceil. rewrite opp_IZR. pose proof (Zfloor_ub (- x)). lra. }
      split; [lra|]. now apply IZR_le. }
  set (f := Ztrunc x) in *.
  assert (UP : forall z : Z, IZR z < IZR f + 1 -> (z <= f)%Z) by (intros z Hz; apply Zlt_succ_le, lt_IZR; unfold Z.succ; rewrite plus_IZR; lra).
  assert (DN : forall z : Z, IZR f - 1 < IZR z -> (f <= z)%Z) by (intros z Hz; apply Zlt_succ_le, lt_IZR; unfold Z.succ; rewrite plus_IZR; lra).
  assert (Bx : Rmin (IZR a) (IZR b) <= x <= Rmax (IZR a) (IZR b)).
  { unfold x, Rmin, Rmax. repeat destruct Rle_dec; nra. }
  assert (Hx : Rabs (x - IZR a) <= Rabs (IZR b - IZR a) / 2).
  { unfold x. replace (IZR a + (IZR b - IZR a) * w - IZR a) with ((IZR b - IZR a) * w) by ring. rewrite Rabs_mult, (Rabs_right w) by lra.
    pose proof (Rabs_pos (IZR b - IZR a)). nra. }
  split.
  - assert (Mn : IZR (Z.min a b) <= x <= IZR (Z.max a b)).
    { unfold Rmin, Rmax in Bx. destruct (Z.min_spec a b) as [[? ->]|[? ->]], (Z.max_spec a b) as [[? ->]|[? ->]];
      repeat (destruct Rle_dec); try lia; try (assert (IZR a < IZR b) by now apply IZR_lt); try (assert (IZR b <= IZR a) by now apply IZR_le); lra. }
    split.
    + destruct T as [(T1 & T2 & T3)|(T1 & T2 & T3)]; apply UP; lra.
    + destruct T as [(T1 & T2 & T3)|(T1 & T2 & T3)]; apply DN; lra.
  - assert (Rabs (IZR f - IZR a) < Rabs (IZR b - IZR a) / 2 + 1).
    { apply Rle_lt_trans with (Rabs (x - IZR a) + Rabs (IZR f - x)).
      - replace (IZR f - IZR a) with ((x - IZR a) + (IZR f - x)) by ring. apply Rabs_triang.
      - assert (Rabs (IZR f - x) < 1) by (apply Rabs_def1; lra). lra. }
    rewrite <- !minus_IZR, <- !abs_IZR in H0. enough (2 * Z.abs (f - a) < Z.abs (b - a) + 2)%Z by lia.
    apply lt_IZR. rewrite plus_IZR, mult_IZR. lra.
Qed.
(** Coherence: at most half of the gap, toward the target. *)
Theorem C41_interpolate_coherence : forall (cur : TargetPattern R) pre g post,
  gap_type g = GapCoherence -> noType GapCoherence post -> 0 <= gap_severity g ->
  exists b w, cp_boost (interpolatePattern cur (pre ++ g :: post)) = Some b /\
    0 <= w <= 1 / 2 /\ b = w * (gap_target g - gap_current g).
Proof.
  intros cur pre g post E N S. rewrite <- E in N. destruct (interp_last cur pre g post N) as (_ & _ & H).
  rewrite (H E). destruct (wt_range g S) as ((W0 & W1) & _). exists ((gap_target g - gap_current g) * wt g), (wt g).
  repeat split; auto. ring.
Qed.
(** In the windows where the code special-cases the phase difference it moves away from the target. *)
Theorem C41_interpolate_phase_refuted : exists (cur : TargetPattern R) g d d' p, gap_type g = GapPhase /\ 0 <= gap_severity g /\
  cp_phase (interpolatePattern cur [g]) = Some p /\
  is_arc (gap_target g) (gap_current g) d /\ is_arc (gap_target g) p d' /\ d < d'.
Proof.
  exists (mkTP (3 * PI / 2) 1%Z 1 1 [] 1), (mkGap GapPhase (3 * PI / 2) 0 (1 / 2)), (PI / 2), ((1 + 1 / 2) * (PI / 2)).
  destruct (interp_last (mkTP (3 * PI / 2) 1%Z 1 1 [] 1) [] (mkGap GapPhase (3 * PI / 2) 0 (1 / 2)) [] ltac:(intros ? [])) as [H _].
  eexists. split; [reflexivity|]. split; [cbn; lra|]. split; [apply H; reflexivity|].
  replace (wt (mkGap GapPhase (3 * PI / 2) 0 (1 / 2))) with (1 / 2) by (unfold wt, Rmin; cbn [gap_severity]; destruct Rle_dec; lra).
  cbn [gap_current gap_target]. destruct (move_arc_window (1 / 2) ltac:(lra)) as [A B].
  split; [exact A|]. split; [exact B|]. pose proof PI_RGT_0. lra.
Qed.

(** When a template matches, the adjustment is neither bounded by half of the gap nor by the target: with the default
    templates a swarm at 750ms whose goal is 250ms is told to use a period of -250ms. *)
Theorem C41_template_refuted : forall tr : Trig,
  let N := FNum tr in
  exists cur target : TargetPattern F,
    tp_freq cur = 750000000%Z /\ tp_freq target = 250000000%Z /\
    option_map cp_freq (@CompletePattern F N (@LoadDefaultTemplates F N (@NewEngine F N)) cur (@IdentifyGaps F N cur target)) =
      Some (Some (-250000000)%Z).
Proof.
  intros tr N. exists (mkTP (@nhalfpi F N 3) 750000000%Z (fofZ 1) (flit 9 10) [] (fofZ 0)), (mkTP (fofZ 0) 250000000%Z (fofZ 1) (flit 9 10) [] (fofZ 0)).
  split; [reflexivity|split; [reflexivity|vm_compute; reflexivity]].
Qed.

(* ------------------------------------------------------------------ waveforms *)
Section Morph.
Context {T : Type} {N : Num T}.
Lemma nthZ_in {A} (l : list A) i : (0 <= i < Z.of_nat (List.length l))%Z -> exists x, nthZ l i = Some x /\ nth_error l (Z.to_nat i) = Some x.
Proof.
  intros H. unfold nthZ. rewrite (proj2 (Z.ltb_ge _ _)) by lia.
  destruct (nth_error l (Z.to_nat i)) as [x|] eqn:E; [eauto|]. apply nth_error_None in E. lia.
Qed.
Lemma quot_range i m n : (0 <= i < m)%Z -> (0 < n <= m)%Z -> (0 <= Z.quot (i * n) m < n)%Z.
Proof. intros H1 H2. rewrite Z.quot_div_nonneg by nia. split; [apply Z.div_pos; nia|]. apply Z.div_lt_upper_bound; nia. Qed.
Lemma morph_loop (c t : list T) w m : (0 < Z.of_nat (List.length c) <= m)%Z -> (0 < Z.of_nat (List.length t) <= m)%Z ->
  forall k i, (0 <= i)%Z -> (i + Z.of_nat k <= m)%Z ->
  exists l, morphLoop c t w m i k = Some l /\ List.length l = k /\
    forall j v, nth_error l j = Some v -> exists a b,
      nth_error c (Z.to_nat ((i + Z.of_nat j) * Z.of_nat (List.length c) / m)) = Some a /\
      nth_error t (Z.to_nat ((i + Z.of_nat j) * Z.of_nat (List.length t) / m)) = Some b /\
      v = nadd (nmul a (nsub n1 w)) (nmul b w).
Proof.
  intros Hc Ht. induction k as [|k IH]; intros i Hi Hk.
  - exists []. split; [reflexivity|]. split; [reflexivity|]. intros [|j] v; discriminate.
  - destruct (IH (i + 1)%Z ltac:(lia) ltac:(lia)) as (l & E & L & G).
    pose proof (quot_range i m _ ltac:(lia) Hc) as Q1. pose proof (quot_range i m _ ltac:(lia) Ht) as Q2.
    destruct (nthZ_in c _ Q1) as (a & A1 & A2). destruct (nthZ_in t _ Q2) as (b & B1 & B2).
    cbn [morphLoop]. unfold morphAt. rewrite A1, B1, E. cbn [option_map]. eexists. split; [reflexivity|]. split; [cbn; now rewrite L|].
    intros [|j] v Hv.
    + cbn in Hv. injection Hv as <-. exists a, b. rewrite Z.add_0_r. rewrite Z.quot_div_nonneg in A2, B2 by nia. auto.
    + cbn in Hv. destruct (G j v Hv) as (a' & b' & X1 & X2 & X3). exists a', b'.
      replace (i + Z.of_nat (S j))%Z with (i + 1 + Z.of_nat j)%Z by lia. auto.
Qed.
(** Never out of range, length of the longer input, each value a blend of one value of each input (the sampled
    positions are proportional); an empty input gives the other one. *)
Theorem C41_morph : forall (c t : list T) w, exists l, morphWaveform c t w = Some l /\
  List.length l = Nat.max (List.length c) (List.length t) /\
  (c = [] -> l = t) /\ (t = [] -> c <> [] -> l = c) /\
  (c <> [] -> t <> [] -> forall j v, nth_error l j = Some v -> exists a b,
     nth_error c (j * List.length c / List.length l) = Some a /\
     nth_error t (j * List.length t / List.length l) = Some b /\ v = nadd (nmul a (nsub n1 w)) (nmul b w)).
Proof.
  intros c t w. destruct c as [|c0 c']; [exists t; repeat split; auto; try congruence|].
  destruct t as [|t0 t']; [exists (c0 :: c'); repeat split; auto; try congruence|].
  set (c := c0 :: c'). set (t := t0 :: t'). unfold morphWaveform. fold c t.
  assert (Lc : (0 < List.length c)%nat) by (cbn; lia). assert (Lt : (0 < List.length t)%nat) by (cbn; lia).
  change (match c with [] => Some t | _ :: _ => match t with [] => Some c | _ :: _ => _ end end) with
    (morphLoop c t w (Z.max (Z.of_nat (List.length c)) (Z.of_nat (List.length t))) 0 (Z.to_nat (Z.max (Z.of_nat (List.length c)) (Z.of_nat (List.length t))))).
  set (m := Z.max _ _). destruct (morph_loop c t w m ltac:(lia) ltac:(lia) (Z.to_nat m) 0%Z ltac:(lia) ltac:(lia)) as (l & E & L & G).
  exists l. split; [exact E|]. assert (Lm : List.length l = Nat.max (List.length c) (List.length t)) by (rewrite L; unfold m; lia).
  split; [exact Lm|]. split; [discriminate|]. split; [discriminate|]. intros _ _ j v Hj.
  destruct (G j v Hj) as (a & b & A & B & V). exists a, b. rewrite Z.add_0_l in A, B.
  assert (Em : m = Z.of_nat (List.length l)) by (rewrite Lm; unfold m; lia). rewrite Em in A, B.
  rewrite <- Nat2Z.inj_mul, <- Nat2Z.inj_div, Nat2Z.id in A, B. auto.
Qed.
End Morph.
(** Over the reals a weight in [0,1] keeps each value between the two sampled values. *)
Theorem C41_morph_between : forall (c t : list R) w, 0 <= w <= 1 -> c <> [] -> t <> [] ->
  exists l, morphWaveform c t w = Some l /\ forall j v, nth_error l j = Some v -> exists a b,
    In a c /\ In b t /\ Rmin a b <= v <= Rmax a b.
Proof.
  intros c t w Hw Hc Ht. destruct (C41_morph c t w) as (l & E & _ & _ & _ & G). exists l. split; auto. intros j v Hj.
  destruct (G Hc Ht j v Hj) as (a & b & A & B & ->). exists a, b.
  split; [eapply nth_error_In; eauto|]. split; [eapply nth_error_In; eauto|].
  change (Rmin a b <= a * (1 - w) + b * w <= Rmax a b). unfold Rmin, Rmax. destruct Rle_dec; nra.
Qed.
(** A weight above 1 (a gap severity) leaves the range, and rounding can leave it for weights inside [0,1]. *)
Theorem C41_morph_between_refuted :
  (exists (c t l : list R) w, 0 <= w /\ morphWaveform c t w = Some l /\ c = [0] /\ t = [1] /\ l = [w] /\ 1 < w) /\
  (forall tr, exists (c t l : list F) w, flt (fofZ 0) w = true /\ flt w (fofZ 1) = true /\
     @morphWaveform F (FNum tr) c t w = Some l /\ c = [flit 1 10] /\ t = [flit 1 10] /\
     exists v, l = [v] /\ flt (flit 1 10) v = true).
Proof.
  split.
  - exists [0], [1], [2], 2. repeat split; try lra. change (Some [0 * (1 - 2) + 1 * 2] = Some [2]). do 2 f_equal. lra.
  - intros tr. exists [flit 1 10], [flit 1 10], [fadd (fmul (flit 1 10) (fsub (fofZ 1) (flit 2 10))) (fmul (flit 1 10) (flit 2 10))], (flit 2 10).
    split; [vm_compute; reflexivity|]. split; [vm_compute; reflexivity|]. split; [reflexivity|]. split; [reflexivity|]. split; [reflexivity|].
    eexists. split; [reflexivity|]. vm_compute. reflexivity.
Qed.

(** Witnesses. *)
Example best_example : forall tr,
  match findBestTemplate (N := FNum tr) (@LoadDefaultTemplates F (FNum tr) (@NewEngine F (FNum tr)))
    (Some (mkTP (@nhalfpi F (FNum tr) 3) 250000000%Z (fofZ 1) (flit 6 10) [] (fofZ 0))) with
  | Some t => feq (tp_coh t) (flit 65 100) | None => false end = true.
Proof. intros tr. vm_compute. reflexivity. Qed.
Example interpolate_example : cp_boost (interpolatePattern (mkTP 0 1%Z 1 0 [] 1) [mkGap GapPhase 1 2 (1 / 4); mkGap GapCoherence 0 1 1]) = Some (1 / 2) /\
  ~ pd_special 2 1 /\ is_arc 2 1 1.
Proof.
  split; [|split].
  - destruct (interp_last (mkTP 0 1%Z 1 0 [] 1) [mkGap GapPhase 1 2 (1 / 4)] (mkGap GapCoherence 0 1 1) [] ltac:(intros ? [])) as (_ & _ & H).
    etransitivity; [apply H; reflexivity|]. f_equal. unfold wt, Rmin. cbn. destruct Rle_dec; lra.
  - unfold pd_special. rewrite (Rabs_right 2), (Rabs_right 1) by lra. lra.
  - replace 1 with (Rabs 1) at 2 by (apply Rabs_right; lra). apply is_arc_of_rep; [pose proof PI_gt3; lra|]. exists 0%Z. lra.
Qed.
Example morph_example : morphWaveform [0; 0] [1; 2; 3; 4] 1 = Some [0 * (1 - 1) + 1 * 1; 0 * (1 - 1) + 2 * 1; 0 * (1 - 1) + 3 * 1; 0 * (1 - 1) + 4 * 1].
Proof. reflexivity. Qed.

Print Assumptions C41_best_template. Print Assumptions C41_best_template_order. Print Assumptions C41_interpolate_phase.
Print Assumptions C41_interpolate_frequency. Print Assumptions C41_interpolate_coherence. Print Assumptions C41_interpolate_phase_refuted.
Print Assumptions C41_template_refuted. Print Assumptions C41_morph. Print Assumptions C41_morph_between. Print Assumptions C41_morph_between_refuted.
