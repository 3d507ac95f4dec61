(** C87: the periods (the field Frequency, a time.Duration) in a synchronisation round. *)
From Coq Require Import ZArith Reals Psatz Bool List String Lia Permutation.
From Flocq Require Import Core.Core IEEE754.BinarySingleNaN.
From Verif Require Import Num GoBase F64 RealNum M_Random M_Core M_Strategy M_Agent M_Limits M_GoalConfig M_Monitor M_ConvMonitor M_Engine M_Swarm M_Sync S_Sync L_F64 L_F64x L_Acc.
Import ListNotations.
Open Scope list_scope.
Open Scope Z_scope.

(** ** Vocabulary *)
Definition total (l : list Z) : Z := fold_right Z.add 0 l.
Definition in64 (z : Z) : Prop := - 2 ^ 63 <= z < 2 ^ 63.
Section Vocabulary.
Context {T : Type} {N : Num T}.
Open Scope num_scope.
(** The swarm is more coherent than a low target, or the agent is one of the two thirds left alone in a crowded swarm. *)
Definition leftOut (cfg : GCfg T) (target : TargetPattern T) (coh var : T) (i : nat) : bool :=
  ((tp_coh target <? nlit 4 10) && (coh >? tp_coh target)) ||
  (negb ((coh >=? gt_high (g_thr cfg)) && (var >? gt_var (g_thr cfg))) && (coh >? gt_very (g_thr cfg)) && (var <? gt_var (g_thr cfg)) && negb (Nat.eqb (Nat.modulo i 3) 0)).
(** A period after the adjustment [z]. *)
Definition shifted (z f : Z) : Z := if (nabs (durSeconds z) >? nlit 1 1000) && (0 <? wrap64 (f + z))%Z then wrap64 (f + z) else f.
(** The measured period [c] counts as equal to the target period [t]. *)
Definition periodNear (c t : Z) : bool := negb ((0 <? t)%Z && (0 <? c)%Z && (nabs (nofZ c / nofZ t - n1) >? nlit 5 100)).
End Vocabulary.

(** ** The measured period *)
Lemma wrap_in z : in64 z -> wrap64 z = z.
Proof. intros [A B]. unfold wrap64. rewrite Z.mod_small; lia. Qed.
Lemma wrap_wrap a b : wrap64 (wrap64 a + b) = wrap64 (a + b).
Proof. unfold wrap64. f_equal. replace ((a + 2 ^ 63) mod 2 ^ 64 - 2 ^ 63 + b + 2 ^ 63) with ((a + 2 ^ 63) mod 2 ^ 64 + b) by ring. rewrite Zplus_mod_idemp_l. f_equal. ring. Qed.
Lemma wrap_sum {T} (l : list (Agent T)) : forall s, fold_left (fun s a => wrap64 (s + freqOf a)) l (wrap64 s) = wrap64 (s + total (map freqOf l)).
Proof.
  induction l as [|a l IH]; intros s; cbn [fold_left map total fold_right]; [f_equal; ring|]. rewrite wrap_wrap, IH. f_equal. unfold total. ring.
Qed.
Lemma measured_freq {T} {N : Num T} (l l' : list (Agent T)) : l <> [] -> tp_freq (measureSystemPattern l l') = Z.quot (wrap64 (total (map freqOf l))) (Z.of_nat (List.length l)).
Proof. intros H. destruct l as [|a l]; [contradiction|]. unfold measureSystemPattern. cbv zeta. cbn [tp_freq]. change 0 with (wrap64 0) at 1. now rewrite wrap_sum. Qed.
(** The measured period is the mean of the periods cut towards zero, as long as the sum fits an int64. *)
Theorem C87_measured : forall T (N : Num T) (l l' : list (Agent T)), l <> [] -> in64 (total (map freqOf l)) ->
  let P := tp_freq (measureSystemPattern l l') in let n := Z.of_nat (List.length l) in
  n * Z.abs P <= Z.abs (total (map freqOf l)) < n * (Z.abs P + 1) /\ 0 <= P * total (map freqOf l).
Proof.
  intros T N l l' H S. cbv zeta. rewrite measured_freq, wrap_in by assumption. assert (0 < Z.of_nat (List.length l)) by (destruct l; [contradiction|cbn [List.length]; lia]).
  set (s := total _) in *. set (n := Z.of_nat _) in *. clearbody s n. clear S. split.
  - rewrite <- Z.quot_abs by lia. rewrite (Z.abs_eq n) by lia. rewrite Z.quot_div_nonneg by lia. pose proof (Z.div_mod (Z.abs s) n ltac:(lia)). pose proof (Z.mod_pos_bound (Z.abs s) n ltac:(lia)). lia.
  - destruct (Z.le_ge_cases 0 s).
    + assert (0 <= Z.quot s n) by (apply Z.quot_pos; lia). nia.
    + assert (0 <= Z.quot (- s) n) by (apply Z.quot_pos; lia). rewrite Z.quot_opp_l in H2 by lia. nia.
Qed.
Definition withPeriod {T} {N : Num T} (f : Z) : Agent T := mkAgent "a" (mkSD n0 n1 n0 f) (mkBD n0 n1) ctx0 0 0 true true None None.
(** REFUTED: "the measured period lies between the smallest and the largest period".  The sum of two long periods wraps. *)
Theorem C87_overflow_refuted : forall T (N : Num T), exists l l', (forall a, In a l -> 0 < freqOf a < 2 ^ 63) /\ tp_freq (@measureSystemPattern T N l l') < 0.
Proof.
  intros T N. exists [withPeriod (2 ^ 62); withPeriod (2 ^ 62)], []. split.
  - intros a [<-|[<-|[]]]; cbn; lia.
  - rewrite measured_freq by discriminate. reflexivity.
Qed.
Example measured_applies : forall T (N : Num T), [@withPeriod T N 100; withPeriod 301] <> [] /\ in64 (total (map freqOf [@withPeriod T N 100; withPeriod 301])) /\ tp_freq (measureSystemPattern [@withPeriod T N 100; withPeriod 301] []) = 200.
Proof. intros T N. split; [discriminate|]. split; [split; cbn; lia|reflexivity]. Qed.

(** ** One application *)
Lemma freq_setPhase {T} {N : Num T} p (a : Agent T) : freqOf (SetPhase p a) = freqOf a.
Proof. destruct a as [? []]. reflexivity. Qed.
Lemma freq_adjust {T} {N : Num T} z (a : Agent T) : freqOf (adjustFreq z a) = shifted z (freqOf a).
Proof.
  unfold adjustFreq, shifted. destruct (@nlt T N _ (nabs (durSeconds z))); [|reflexivity]. cbv zeta. cbn [andb]. destruct (0 <? _); [|reflexivity]. destruct a as [? []]. reflexivity.
Qed.
Ltac brk := match goal with |- context [if ?b then _ else _] => destruct b end.
Lemma freq_agent {T} {N : Num T} (cfg : GCfg T) target cp coh var n i d scale a :
  (nlt (tp_coh target) (nlit 4 10) && nlt (tp_coh target) coh)%bool = false ->
  freqOf (fst (applyAgent (applyCtx cfg target cp coh var n) i d scale a)) = if leftOut cfg target coh var i then freqOf a else shifted (GetFrequencyAdjustment cp) (freqOf a).
Proof.
  intros S. unfold leftOut. rewrite S. cbn [orb]. unfold applyAgent, phaseAlign. cbv zeta. cbn [applyCtx ax_cfg ax_target ax_tcoh ax_coh ax_var ax_padj ax_fadj ax_norm].
  destruct (nle _ coh && _)%bool eqn:A; cbn [negb andb].
  - brk; cbn [fst]; now rewrite freq_adjust, ?freq_setPhase.
  - destruct (nlt _ coh && nlt var _)%bool eqn:C; cbn [negb andb].
    + destruct (negb (Nat.eqb (i mod 3) 0)) eqn:M; cbn [fst]; [now rewrite freq_setPhase|]. brk; cbn [fst]; [now rewrite freq_adjust, freq_setPhase|]. brk; cbn [fst]; now rewrite freq_adjust, ?freq_setPhase.
    + brk; cbn [fst]; [now rewrite freq_adjust, freq_setPhase|]. brk; cbn [fst]; now rewrite freq_adjust, ?freq_setPhase.
Qed.
Lemma freq_loop {T} {N : Num T} (cfg : GCfg T) target cp coh var n d : (nlt (tp_coh target) (nlit 4 10) && nlt (tp_coh target) coh)%bool = false ->
  forall l k scale i, nth_error (map freqOf (applyLoop (applyCtx cfg target cp coh var n) k d scale l)) i =
    option_map (fun a => if leftOut cfg target coh var (k + i) then freqOf a else shifted (GetFrequencyAdjustment cp) (freqOf a)) (nth_error l i).
Proof.
  intros HS. induction l as [|a l IH]; intros k scale i; [now destruct i|]. cbn [applyLoop]. pose proof (freq_agent cfg target cp coh var n k (d k) scale a HS) as F.
  destruct (applyAgent _ k (d k) scale a) as [a' sc]. cbn [fst] in F. destruct i as [|i]; cbn [map nth_error option_map]; [now rewrite Nat.add_0_r, F|]. rewrite IH. replace (S k + i)%nat with (k + S i)%nat by lia. reflexivity.
Qed.
Lemma freq_scatter {T} {N : Num T} d : forall (l : list (Agent T)) k, map freqOf (scatterLoop k d l) = map freqOf l.
Proof. induction l as [|a l IH]; intros k; [reflexivity|]. cbn [scatterLoop map]. rewrite IH. unfold scatterAgent. now rewrite freq_setPhase. Qed.
(** Every period after the completed pattern has been applied: agents left out keep it, all others get the same shift. *)
Theorem C87_exact : forall T (N : Num T) (cfg : GCfg T) target cp coh var d l i,
  nth_error (map freqOf (applyPatternCompletion cfg target cp coh var d l)) i =
  option_map (fun a => if leftOut cfg target coh var i then freqOf a else shifted (GetFrequencyAdjustment cp) (freqOf a)) (nth_error l i).
Proof.
  intros. unfold applyPatternCompletion. destruct (nlt (tp_coh target) (nlit 4 10) && nlt (tp_coh target) coh)%bool eqn:S.
  - rewrite freq_scatter. unfold leftOut. rewrite S. cbn [orb]. rewrite nth_error_map. reflexivity.
  - cbv zeta. rewrite (freq_loop cfg target cp coh var (List.length l) d S). reflexivity.
Qed.
Theorem C87_positive : forall T (N : Num T) z f, 0 < f -> 0 < @shifted T N z f.
Proof. intros T N z f H. unfold shifted. destruct (@nlt T N _ _ && (0 <? _))%bool eqn:E; [|exact H]. apply andb_true_iff in E. destruct E as [_ E]. now apply Z.ltb_lt. Qed.
(** So, unless one of them is left out or would not stay positive, two agents keep the difference of their periods. *)
Theorem C87_keeps_difference : forall T (N : Num T) z f g, 0 < f + z < 2 ^ 63 -> 0 < g + z < 2 ^ 63 -> @shifted T N z f - @shifted T N z g = f - g.
Proof. intros T N z f g A B. unfold shifted. rewrite !wrap_in by (split; lia). rewrite (proj2 (Z.ltb_lt 0 (f + z))), (proj2 (Z.ltb_lt 0 (g + z))) by lia. rewrite andb_true_r. destruct (@nlt T N _ _); lia. Qed.

(** ** When nothing changes *)
Lemma gaps_near {T} {N : Num T} (c t : TargetPattern T) : periodNear (tp_freq c) (tp_freq t) = true -> Forall (fun g => gap_type g <> GapFrequency) (IdentifyGaps c t).
Proof.
  intros H. unfold periodNear in H. unfold IdentifyGaps. cbv zeta. apply Forall_app. split; [brk; repeat constructor; discriminate|]. apply Forall_app. split; [|brk; repeat constructor; discriminate].
  destruct ((0 <? tp_freq t) && (0 <? tp_freq c))%bool; [|constructor]. cbn [andb] in H. brk; [discriminate|constructor].
Qed.
Lemma complete_near {T} {N : Num T} e (cur : TargetPattern T) gaps cp : Forall (fun g => gap_type g <> GapFrequency) gaps -> CompletePattern e cur gaps = Some cp -> cp_freq cp = None.
Proof.
  intros H. unfold CompletePattern. destruct (findBestTemplate e (Some cur)) as [t|].
  - assert (K : forall c, match c with Some c => cp_freq c = None | None => True end -> fold_left (templateGap cur t) gaps c = Some cp -> cp_freq cp = None).
    { induction H as [|g r G Hr IH]; intros c C; cbn [fold_left]; [intros ->; exact C|]. apply IH. destruct c as [c|]; [|exact I]. unfold templateGap.
      destruct (gap_type g); try contradiction; try exact C. destruct (tp_wave t); [exact C|]. destruct (morphWaveform _ _ _); [exact C|exact I]. }
    apply K. reflexivity.
  - intros E. injection E as <-. unfold interpolatePattern.
    assert (K : forall c, cp_freq c = None -> cp_freq (fold_left interpolateGap gaps c) = None).
    { induction H as [|g r G Hr IH]; intros c C; cbn [fold_left]; [auto|]. apply IH. unfold interpolateGap. destruct (gap_type g); try contradiction; exact C. }
    now apply K.
Qed.
Lemma shifted_0 {T} {N : Num T} f : in64 f -> shifted 0 f = f.
Proof. intros H. unfold shifted. rewrite Z.add_0_r, wrap_in by exact H. now destruct (_ && _)%bool. Qed.
Lemma apply_near {T} {N : Num T} (cfg : GCfg T) target cp coh var d l : cp_freq cp = None -> Forall (fun a => in64 (freqOf a)) l ->
  map freqOf (applyPatternCompletion cfg target cp coh var d l) = map freqOf l.
Proof.
  intros HC H. assert (Z0 : GetFrequencyAdjustment cp = 0) by (unfold GetFrequencyAdjustment; now rewrite HC).
  assert (E : forall (A : Type) (x y : list A), (forall i, nth_error x i = nth_error y i) -> x = y).
  { intros A. induction x as [|u x IH]; intros [|v y] K; [reflexivity|specialize (K 0%nat); discriminate|specialize (K 0%nat); discriminate|]. f_equal; [specialize (K 0%nat); now injection K|]. apply IH. intros i. exact (K (S i)). }
  apply E. intros i. rewrite C87_exact, Z0, nth_error_map. destruct (nth_error l i) as [a|] eqn:G; [|reflexivity]. cbn [option_map]. f_equal. rewrite Forall_forall in H. specialize (H a (nth_error_In _ _ G)). rewrite shifted_0 by exact H. now destruct (leftOut _ _ _ _ _).
Qed.
Lemma setnth_freq {T} {N : Num T} v : forall (l q : list (Agent T)) k a, nth_error l k = Some a -> freqOf v = freqOf a -> setnth l k v = Some q -> map freqOf q = map freqOf l.
Proof.
  induction l as [|x l IH]; intros q [|k] a H F E; try discriminate.
  - cbn in H, E. injection H as ->. injection E as <-. cbn [map]. now rewrite F.
  - cbn in H, E. destruct (setnth l k v) as [r|] eqn:G; [|discriminate]. injection E as <-. cbn [map]. now rewrite (IH r k a H F G).
Qed.
(** The traversals of a round see every period, in any order. *)
Definition keepsPeriods {T} (e : Env T) : Prop := forall k l, Permutation (map freqOf (ev_view e k l)) (map freqOf l).
Lemma res_near {T} {N : Num T} (cfg : GCfg T) ord bytes noise : (forall k l, Permutation (map freqOf (ord k l)) (map freqOf l)) ->
  forall todo k l q, resonanceLoop cfg ord bytes noise k todo l = Some q -> Permutation (map freqOf q) (map freqOf l).
Proof.
  intros HO. induction todo as [|t IH]; intros k l q E; cbn [resonanceLoop] in E; [injection E as <-; reflexivity|]. cbv zeta in E.
  destruct (Intn _ _) as [idx| |] eqn:GI; try discriminate. apply IH in E. rewrite E. rewrite <- (HO k l). set (w := ord k l) in *.
  destruct (nthZ w idx) as [a|] eqn:GA; [|reflexivity]. destruct (setZ w idx _) as [r|] eqn:GS; [|reflexivity].
  unfold nthZ in GA. unfold setZ in GS. destruct (idx <? 0); [discriminate|]. erewrite setnth_freq; [reflexivity|exact GA| |exact GS]. unfold noiseAgent. now rewrite freq_setPhase.
Qed.
Lemma total_perm l l' : Permutation l l' -> total l = total l'.
Proof. induction 1; cbn; unfold total in *; lia. Qed.
(** The period a swarm with these periods is measured at. *)
Definition meanPeriod (l : list Z) : Z := Z.quot (wrap64 (total l)) (Z.of_nat (List.length l)).
Lemma meanPeriod_perm l l' : Permutation l l' -> meanPeriod l = meanPeriod l'.
Proof. intros H. unfold meanPeriod. now rewrite (total_perm _ _ H), (Permutation_length H). Qed.
Lemma measured_mean {T} {N : Num T} (l l' : list (Agent T)) : tp_freq (measureSystemPattern l l') = meanPeriod (map freqOf l).
Proof. destruct l as [|a l]; [reflexivity|]. rewrite measured_freq by discriminate. unfold meanPeriod. now rewrite map_length. Qed.
(** A round that measures a period near the target's changes no period. *)
Theorem C87_round_keeps : forall T (N : Num T) (cfg : GCfg T) target e s s' b, keepsPeriods e -> Forall in64 (map freqOf (ss_agents s)) ->
  periodNear (meanPeriod (map freqOf (ss_agents s))) (tp_freq target) = true -> round cfg target e s = Some (s', b) ->
  Permutation (map freqOf (ss_agents s')) (map freqOf (ss_agents s)).
Proof.
  intros T N cfg target e s s' b HV HI HN. unfold round. cbv zeta. set (ag0 := ev_view e 0 (ss_agents s)). set (ag1 := ev_view e 1 ag0). set (ag2 := ev_view e 2 ag1). set (ag3 := ev_view e 3 ag2).
  assert (P3 : Permutation (map freqOf ag3) (map freqOf (ss_agents s))) by (unfold ag3, ag2, ag1, ag0; rewrite !HV; reflexivity).
  assert (P0 : Permutation (map freqOf ag0) (map freqOf (ss_agents s))) by apply HV.
  destruct (isPatternAchieved _ _ _ _); [intros E; injection E as <- <-; exact P3|].
  destruct (if ShouldSwitchStrategy _ then _ else _) as [[pf c]|]; [|discriminate].
  destruct (CompletePattern _ _ _) as [cp|] eqn:CP; [|discriminate]. apply complete_near in CP.
  2: { apply gaps_near. rewrite measured_mean. rewrite (meanPeriod_perm _ _ P0). exact HN. }
  set (ag6 := ev_view e 6 _). destruct (MeasurePhaseVariance _ _) as [var|]; [|discriminate].
  assert (P7 : Permutation (map freqOf (ev_view e 7 ag6)) (map freqOf (ss_agents s))) by (unfold ag6; rewrite !HV; exact P3).
  set (ag7 := applyPatternCompletion _ _ _ _ _ _ _).
  assert (E7 : map freqOf ag7 = map freqOf (ev_view e 7 ag6)). { apply apply_near; [exact CP|]. apply (proj1 (Forall_map freqOf in64 _)). eapply Permutation_Forall; [symmetry; exact P7|exact HI]. }
  destruct (IsStuck _).
  - destruct (resonanceLoop _ _ _ _ _ _ _) as [q|] eqn:RL; [|discriminate]. intros E. injection E as <- <-. cbn [ss_agents]. apply res_near in RL; [|intros k l; apply HV]. rewrite RL, (HV 8%nat), E7. exact P7.
  - intros E. injection E as <- <-. cbn [ss_agents]. rewrite (HV 8%nat), E7. exact P7.
Qed.
(** Hence no period ever changes again: the measurement stays the same in every following round. *)
Theorem C87_frozen : forall T (N : Num T) (cfg : GCfg T) target es s s', Forall keepsPeriods es -> Forall in64 (map freqOf (ss_agents s)) ->
  periodNear (meanPeriod (map freqOf (ss_agents s))) (tp_freq target) = true -> rounds cfg target es s s' ->
  Permutation (map freqOf (ss_agents s')) (map freqOf (ss_agents s)).
Proof.
  intros T N cfg target es s s' HV HI HN HR. revert HV HI HN. induction HR as [s|e es s s1 s2 R1 R2 IH]; intros HV HI HN; [reflexivity|]. inversion HV as [|? ? V1 V2 E1]. subst.
  pose proof (C87_round_keeps T N cfg target e s s1 false V1 HI HN R1) as P. transitivity (map freqOf (ss_agents s1)); [|exact P]. apply IH; [exact V2| |].
  - eapply Permutation_Forall; [symmetry; exact P|exact HI].
  - rewrite (meanPeriod_perm _ _ P). exact HN.
Qed.

(** ** The size that counts *)
Section Exact.
Open Scope R_scope.
Lemma rsec z : @durSeconds R RNum z = IZR z / 1000000000.
Proof.
  unfold durSeconds. change (@nadd R RNum) with Rplus. change (@ndiv R RNum) with Rdiv. change (@nofZ R RNum) with IZR. rewrite (Z.quot_rem' z 1000000000) at 3. rewrite plus_IZR, mult_IZR. field.
Qed.
Theorem C87_significant : forall z f, in64 (f + z)%Z -> @shifted R RNum z f = (if (1000000 <? Z.abs z) && (0 <? f + z) then f + z else f)%Z.
Proof.
  intros z f H. unfold shifted. rewrite rsec, wrap_in by exact H. change (@nlt R RNum) with Rlt_bool. change (@nabs R RNum) with Rabs. change (@nlit R RNum 1 1000) with (1 / 1000).
  replace (Rlt_bool (1 / 1000) (Rabs (IZR z / 1000000000))) with (1000000 <? Z.abs z)%Z; [reflexivity|].
  assert (E : Rabs (IZR z / 1000000000) = IZR (Z.abs z) / 1000000000). { unfold Rdiv. rewrite Rabs_mult, (Rabs_pos_eq (/ 1000000000)) by lra. now rewrite abs_IZR. }
  rewrite E. destruct (Z.ltb_spec 1000000 (Z.abs z)) as [L|L].
  - apply IZR_lt in L. rewrite Rlt_bool_true by lra. reflexivity.
  - apply IZR_le in L. rewrite Rlt_bool_false by lra. reflexivity.
Qed.
Theorem C87_near : forall c t, @periodNear R RNum c t = true <-> (t <= 0 \/ c <= 0 \/ 95 * t <= 100 * c <= 105 * t)%Z.
Proof.
  intros c t. unfold periodNear. change (@nlt R RNum) with Rlt_bool. change (@nabs R RNum) with Rabs. change (@nlit R RNum 5 100) with (5 / 100). change (@nsub R RNum) with Rminus. change (@ndiv R RNum) with Rdiv. change (@nofZ R RNum) with IZR. change (@n1 R RNum) with 1.
  destruct (Z.ltb_spec 0 t) as [T1|T1]; [|cbn [andb negb]; split; [intros _; lia|reflexivity]]. destruct (Z.ltb_spec 0 c) as [C1|C1]; [|cbn [andb negb]; split; [intros _; lia|reflexivity]]. cbn [andb].
  assert (T2 := IZR_lt _ _ T1). set (q := IZR c / IZR t). assert (Q : IZR c = q * IZR t) by (unfold q; field; lra).
  destruct (Rlt_bool_spec (5 / 100) (Rabs (q - 1))) as [A|A]; cbn [negb]; split; intros H; try discriminate; try reflexivity.
  - exfalso. destruct H as [H|[H|[H1 H2]]]; [lia|lia|]. apply IZR_le in H1. apply IZR_le in H2. rewrite !mult_IZR in H1, H2. rewrite Q in H1, H2. assert (95 / 100 <= q) by nra. assert (q <= 105 / 100) by nra. revert A. apply Rle_not_lt. apply Rabs_le. lra.
  - right. right. apply Rabs_le_inv in A. split; apply le_IZR; rewrite !mult_IZR, Q; nra.
Qed.
End Exact.
(** REFUTED: "the run brings the periods together".  Two agents at 100 ms and 300 ms under a target of 200 ms keep their
    periods in every run, whatever the phases do. *)
Theorem C87_together_refuted : forall (cfg : GCfg R) coh ph es s s', (exists p q, ss_agents s = [p; q] /\ freqOf p = 100000000 /\ freqOf q = 300000000) -> Forall keepsPeriods es ->
  @rounds R RNum cfg (mkTP ph 200000000 1%R coh [] (9 / 10)%R) es s s' -> Permutation (map freqOf (ss_agents s')) [100000000; 300000000].
Proof.
  intros cfg coh ph es s s' (p & q & E & Fp & Fq) HV HR. assert (M : map freqOf (ss_agents s) = [100000000; 300000000]) by (rewrite E; cbn [map]; now rewrite Fp, Fq).
  rewrite <- M. eapply C87_frozen; [exact HV| | |exact HR]; rewrite M.
  - repeat constructor; unfold in64; lia.
  - apply C87_near. right. right. vm_compute. split; discriminate.
Qed.

(** The comparison in floats: an adjustment counts when it is more than one millisecond. *)
Section Float.
Open Scope R_scope.
Lemma fabs_fin x : is_finite x = true -> is_finite (fabs x) = true /\ B2R (fabs x) = Rabs (B2R x).
Proof. intros H. unfold fabs. split; [now rewrite is_finite_Babs|apply B2R_Babs]. Qed.
Theorem C87_float_significant : forall tr z, in64 z -> flt (flit 1 1000) (fabs (@durSeconds F (FNum tr) z)) = (1000000 <? Z.abs z)%Z.
Proof.
  intros tr z HZ. unfold durSeconds. change (@nofZ F (FNum tr)) with fofZ. change (@nadd F (FNum tr)) with fadd. change (@ndiv F (FNum tr)) with fdiv.
  pose proof (Z.quot_rem' z 1000000000) as QR. set (q := Z.quot z 1000000000) in *. set (r := Z.rem z 1000000000) in *.
  assert (BR : (Z.abs r < 1000000000)%Z) by (unfold r; pose proof (Z.rem_bound_abs z 1000000000 ltac:(lia)); lia).
  assert (SR : (0 <= r * z)%Z) by (unfold r; apply Z.rem_sign_mul; lia).
  assert (BQ : (Z.abs q <= 2 ^ 40)%Z) by (unfold in64 in HZ; lia). clearbody q r.
  destruct (fofZ_fin q ltac:(lia)) as [Fq Vq]. destruct (fofZ_fin r ltac:(lia)) as [Fr Vr]. destruct (fofZ_fin 1000000000 ltac:(lia)) as [F9 V9].
  assert (RB : -1 <= IZR r / 1000000000 <= 1) by (assert (-1000000000 <= IZR r <= 1000000000) by (split; apply IZR_le; lia); lra).
  pose proof big1023 as BG. assert (PB : 2 ^ 50 <= 2 ^ 500) by (apply Rle_pow; [lra|lia]). assert (P50 : 2 ^ 50 = 1125899906842624) by (rewrite pow_Z; reflexivity).
  destruct (fdiv_fin (fofZ r) (fofZ 1000000000) Fr F9) as [Fd Vd]; [rewrite V9; lra|rewrite Vr, V9; apply Rabs_le; lra|]. rewrite Vr, V9 in Vd.
  assert (DB : -1 <= B2R (fdiv (fofZ r) (fofZ 1000000000)) <= 1).
  { rewrite Vd. split; [rewrite <- (rnd_fmt (-1)) by (apply (fmt_IZR (-1)); lia)|rewrite <- (rnd_fmt 1) by (apply (fmt_IZR 1); lia)]; apply rnd_le; lra. }
  set (dd := fdiv (fofZ r) (fofZ 1000000000)) in *. clearbody dd.
  assert (QB : - 2 ^ 41 <= IZR q <= 2 ^ 41) by (rewrite pow_Z, <- opp_IZR; split; apply IZR_le; cbn; lia). assert (P41 : 2 ^ 41 = 2199023255552) by (rewrite pow_Z; reflexivity).
  destruct (fadd_fin (fofZ q) dd Fq Fd) as [Fs Vs]; [rewrite Vq; apply Rabs_le; lra|]. rewrite Vq in Vs. set (s := fadd (fofZ q) dd) in *. clearbody s.
  destruct (fabs_fin s Fs) as [Fa Va]. destruct (flit_fin 1 1000 ltac:(lia) ltac:(lia)) as [Fl Vl].
  unfold flt. rewrite Bltb_correct by assumption. rewrite Va, Vl, Vs.
  pose proof (rnd_abs (1 / 1000)) as EL. rewrite (Rabs_pos_eq (1 / 1000)) in EL by lra. apply Rabs_le_inv in EL. pose proof tiny_small as TS. assert (T1 : / 2 ^ 200 <= / 2 ^ 50) by (apply Rinv_le_contravar; [apply pow_lt; lra|apply Rle_pow; [lra|lia]]). rewrite P50 in T1. pose proof tiny_pos as TP.
  assert (U : 0 < u53 <= / 1000000000000000) by (unfold u53; lra).
  destruct (Z.eq_dec q 0) as [Q0|Q0].
  - subst q. rewrite Rplus_0_l. replace r with z in * by lia. rewrite Vd. set (v := IZR z / 1000000000) in *.
    assert (FV : fmt (rnd v)) by (rewrite <- Vd; apply fmt_B2R). rewrite (rnd_fmt (rnd v)) by exact FV.
    assert (AV : Rabs (rnd v) = rnd (Rabs v)). { destruct (Rle_lt_dec 0 v) as [P|P]; [rewrite !Rabs_pos_eq; auto; now apply rnd_ge_0|]. rewrite (Rabs_left v) by lra. rewrite rnd_opp. apply Rabs_left1. rewrite <- rnd_0. apply rnd_le. lra. }
    rewrite AV. assert (EA : Rabs v = IZR (Z.abs z) / 1000000000). { unfold v, Rdiv. rewrite Rabs_mult, (Rabs_pos_eq (/ 1000000000)) by lra. now rewrite abs_IZR. } rewrite EA.
    destruct (Z.ltb_spec 1000000 (Z.abs z)) as [L|L].
    + apply Rlt_bool_true. assert (L' : (1000001 <= Z.abs z)%Z) by lia. apply IZR_le in L'. assert (M : rnd (1000001 / 1000000000) <= rnd (IZR (Z.abs z) / 1000000000)) by (apply rnd_le; lra).
      pose proof (rnd_abs (1000001 / 1000000000)) as E2. rewrite (Rabs_pos_eq (1000001 / 1000000000)) in E2 by lra. apply Rabs_le_inv in E2. lra.
    + apply Rlt_bool_false. apply IZR_le in L. apply rnd_le. lra.
  - assert (Z1 : (1000000000 <= Z.abs z)%Z) by nia. destruct (Z.ltb_spec 1000000 (Z.abs z)) as [_|L]; [|lia]. apply Rlt_bool_true.
    assert (V1 : 1 <= Rabs (IZR q + B2R dd)).
    { destruct (Z.lt_ge_cases 0 z) as [Pz|Pz].
      - assert (0 <= r)%Z by nia. assert (1 <= q)%Z by nia. assert (0 <= B2R dd) by (rewrite Vd; apply rnd_ge_0; apply IZR_le in H; lra). apply IZR_le in H0. rewrite Rabs_pos_eq; lra.
      - assert (r <= 0)%Z by nia. assert (q <= -1)%Z by nia. assert (B2R dd <= 0) by (rewrite Vd, <- rnd_0; apply rnd_le; apply IZR_le in H; lra). apply IZR_le in H0. rewrite Rabs_left1; lra. }
    pose proof (rnd_abs (IZR q + B2R dd)) as E3. set (w := IZR q + B2R dd) in *. pose proof (Rabs_triang_inv w (rnd w)) as TI. rewrite (Rabs_minus_sym w) in TI. assert (u53 * Rabs w <= 1 / 2 * Rabs w) by (apply Rmult_le_compat_r; lra). lra.
Qed.
End Float.
