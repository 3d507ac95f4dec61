(** C91: whether a run can reach a goal with a long period.  The completion engine moves the periods towards those of its
    own templates (200 ms and 250 ms), not towards the period of the goal. *)
From Coq Require Import ZArith Reals Psatz Bool List String Lia Permutation.
From Flocq Require Import Core.Core IEEE754.BinarySingleNaN.
From Verif Require Import Num GoBase F64 RealNum M_Random M_Core M_Strategy M_Agent M_AgentConfig M_Limits M_GoalConfig M_Monitor M_ConvMonitor M_Engine M_Swarm M_Scale M_Sync M_Client
  S_Sync S_Acc S_Agent S_Round S_Swarm L_F64 L_F64x L_Ford L_Acc L_Bnd L_Random L_Agent L_Swarm P_Core P_Accuracy P_Round P_Periods P_Swarm P_Limits P_Sync P_Client L_Dist.
Import ListNotations.
Open Scope list_scope.
Open Scope Z_scope.

(** ** Vocabulary *)
(** The mean of the periods lies between 100.0005 ms and 250 ms, cut to whole nanoseconds. *)
Definition shortPeriods (l : list Z) : Prop :=
  100000500 * Z.of_nat (List.length l) <= P_Periods.total l < 250000001 * Z.of_nat (List.length l).
(** An undisturbed round: every traversal sees the same periods, all agents, and all templates, in any order. *)
Record env_quiet (e : Env F) : Prop := {
  eq_fine : env_fine e; eq_periods : keepsPeriods e; eq_tmpl : forall l x, In x l -> In x (ev_tmpl e l) }.
(** The goal period alone keeps a swarm with periods up to 250 ms further away than the threshold: the frequency term of
    the pattern distance is 0.3 |1 - measured / goal|. *)
Definition outOfReach (cfg : GCfg F) (f : Z) : Prop :=
  250000000 <= f <= 2 ^ 53 /\ is_finite (gv_dist (g_conv cfg)) = true /\
  (B2R (gv_dist (g_conv cfg)) <= 3 / 10 * (1 - 250000000 / IZR f) - 1 / 10 ^ 12)%R.

(** ** The distance in floats *)
Section Reach.
Variable tr : Trig.
Variable e : R.
Hypothesis SANE : trig_sane tr.
Hypothesis ACC : trig_acc tr e.
Hypothesis EB : (0 <= e <= 1 / 1000)%R.
Local Notation NF := (FNum tr).
(** ** The template chosen *)
Definition templates3 : list (string * option (TargetPattern F)) :=
  let w := @GenerateSineWave F NF 100 in
  [("perfect_sync", Some (mkTP (fofZ 0) 250000000 (fofZ 1) (fofZ 1) w (fofZ 1)));
   ("partial_sync", Some (mkTP (fofZ 0) 250000000 (flit 8 10) (flit 65 100) w (flit 7 10)));
   ("recovery", Some (mkTP (fofZ 0) 200000000 (flit 6 10) (flit 5 10) w (flit 5 10)))]%string.
Lemma templates_eq : en_templates (@defaultEngine F NF) = templates3.
Proof. reflexivity. Qed.
(** A measured pattern the synchroniser can see in such a swarm. *)
Record seen (c : TargetPattern F) : Prop := {
  sn_phase : bnd (tp_phase c) 60; sn_freq : 100000500 <= tp_freq c <= 250000000;
  sn_fin : is_finite (tp_coh c) = true; sn_coh : (0 <= B2R (tp_coh c) <= 101 / 100)%R }.
Section Choice.
Open Scope R_scope.
Lemma below7 x : is_finite x = true -> B2R x <= 6999999 / 10000000 -> flt x (flit 7 10) = true.
Proof.
  intros H L. destruct (lit_near 7 10 ltac:(lia) ltac:(lia)) as [A B]. apply Rabs_le_inv in B. apply flt_true. split; [now apply fin_nan|]. split; [now apply fin_nan|]. rewrite !ford_fin by assumption. lra.
Qed.
Lemma zero60 : bnd (fofZ 0) 60.
Proof. apply (b_le _ 0); [apply b_lit; vm_compute; reflexivity|lia]. Qed.
Lemma template_close c : seen c -> exists n t, In (n, Some t) templates3 /\ flt (@PatternDistance F NF (Some c) (Some t)) (flit 7 10) = true.
Proof.
  intros [P Fq Fc Bc]. destruct (Rle_lt_dec (B2R (tp_coh c)) (6 / 10)) as [L|L].
  - exists "recovery"%string. eexists. split; [right; right; left; reflexivity|]. set (t := mkTP _ _ _ _ _ _). destruct (lit_near 5 10 ltac:(lia) ltac:(lia)) as [A B]. apply Rabs_le_inv in B.
    destruct (distance_near tr SANE c t) as (p & Bp & Fz & Nz); try exact P; try exact zero60; try exact Fc; try exact A; try (cbn [t tp_freq]; lia); try (cbn [t tp_coh]; lra).
    apply below7; [exact Fz|]. apply Rabs_le_inv in Nz. cbn [t tp_freq tp_coh] in Nz. set (z := B2R _) in Nz |- *.
    assert (F1 : Rabs (IZR (tp_freq c) - 200000000) <= 99999500) by (apply Rabs_le; rewrite <- minus_IZR; split; [apply (IZR_le (-99999500))|apply IZR_le]; lia).
    assert (F2 : Rabs (B2R (flit 5 10) - B2R (tp_coh c)) <= 50000000001 / 100000000000) by (apply Rabs_le; lra). set (x1 := Rabs _) in Nz, F1. set (x2 := Rabs _) in Nz, F2. clearbody z x1 x2. lra.
  - exists "partial_sync"%string. eexists. split; [right; left; reflexivity|]. set (t := mkTP _ _ _ _ _ _). destruct (lit_near 65 100 ltac:(lia) ltac:(lia)) as [A B]. apply Rabs_le_inv in B.
    destruct (distance_near tr SANE c t) as (p & Bp & Fz & Nz); try exact P; try exact zero60; try exact Fc; try exact A; try (cbn [t tp_freq]; lia); try (cbn [t tp_coh]; lra).
    apply below7; [exact Fz|]. apply Rabs_le_inv in Nz. cbn [t tp_freq tp_coh] in Nz. set (z := B2R _) in Nz |- *.
    assert (F1 : Rabs (IZR (tp_freq c) - 250000000) <= 150000000) by (apply Rabs_le; rewrite <- minus_IZR; split; [apply (IZR_le (-150000000))|apply IZR_le]; lia).
    assert (F2 : Rabs (B2R (flit 65 100) - B2R (tp_coh c)) <= 37 / 100) by (apply Rabs_le; lra). set (x1 := Rabs _) in Nz, F1. set (x2 := Rabs _) in Nz, F2. clearbody z x1 x2. lra.
Qed.
End Choice.
Lemma best_some c ts n t : In (n, Some t) ts -> flt (@PatternDistance F NF (Some c) (Some t)) (flit 7 10) = true ->
  exists b, fst (fold_left (@bestStep F NF (Some c) (flit 7 10)) ts (None, @nmaxfloat F NF)) = Some b.
Proof.
  intros HI HD.
  assert (NIL : flt (@nmaxfloat F NF) (flit 7 10) = false) by (vm_compute; reflexivity).
  assert (K1 : forall ts acc, (exists b, fst acc = Some b) -> exists b, fst (fold_left (@bestStep F NF (Some c) (flit 7 10)) ts acc) = Some b).
  { clear - NIL. induction ts as [|q ts IH]; intros acc H; cbn [fold_left]; [exact H|]. apply IH. unfold bestStep. cbv zeta. destruct (nlt _ (snd acc) && nlt _ (flit 7 10))%bool eqn:E; [|exact H]. cbn [fst]. destruct (snd q) as [b|]; [now exists b|].
    apply andb_prop in E. destruct E as [_ E]. exfalso. cbn [PatternDistance] in E. change (@nlt F NF) with flt in E. congruence. }
  assert (K2 : forall acc, (exists b, fst acc = Some b) \/ acc = (None, @nmaxfloat F NF) -> exists b, fst (fold_left (@bestStep F NF (Some c) (flit 7 10)) ts acc) = Some b).
  { induction ts as [|q ts IH]; [contradiction|]. intros acc HA. cbn [fold_left]. destruct HI as [->|HI].
    - apply K1. destruct HA as [HA| ->]; unfold bestStep; cbv zeta; cbn [snd]; change (@nlt F NF) with flt; rewrite HD.
      + destruct (flt _ (snd acc)); cbn [andb fst]; [now exists t|exact HA].
      + replace (flt _ (@nmaxfloat F NF)) with true; [cbn [andb fst]; now exists t|]. symmetry. eapply L_Ford.flt_fle_trans; [exact HD|]. vm_compute. reflexivity.
    - apply IH; [exact HI|]. unfold bestStep. cbv zeta. change (@nlt F NF) with flt. destruct (flt _ (snd acc) && flt _ (flit 7 10))%bool eqn:E; [|exact HA]. left. cbn [fst]. destruct (snd q) as [b|]; [now exists b|]. apply andb_prop in E. destruct E as [_ E]. cbn [PatternDistance] in E. congruence. }
  apply K2. now right.
Qed.
(** The template is found, and its period is 200 ms or 250 ms. *)
Lemma template_found c ts : seen c -> (forall x, In x templates3 -> In x ts) -> (forall x, In x ts -> In x templates3) ->
  exists t, @findBestTemplate F NF (mkEngine ts (flit 7 10)) (Some c) = Some t /\ 200000000 <= tp_freq t <= 250000000.
Proof.
  intros HS H1 H2. destruct (template_close c HS) as (n & t & HI & HD). destruct (best_some c ts n t (H1 _ HI) HD) as [b HB]. exists b. split; [exact HB|].
  apply best_in in HB. destruct HB as [HB|[m HB]]; [discriminate|]. apply H2 in HB. destruct HB as [E|[E|[E|[]]]]; injection E as _ <-; cbn [tp_freq]; lia.
Qed.

(** ** The adjustment *)
Definition toward (c t d : Z) : Prop := 0 <= d <= t - c \/ t - c <= d <= 0.
Definition unitF (x : F) : Prop := is_finite x = true /\ (0 <= B2R x <= 1)%R.
Lemma blend_toward c t w : unitF w -> 0 <= c <= 2 ^ 40 -> 0 <= t <= 2 ^ 40 -> toward c t (@blendFrequency F NF c t w - c).
Proof.
  intros [Fw Bw] Hc Ht. unfold blendFrequency. change (@nmul F NF) with fmul. change (@nofZ F NF) with fofZ. change (@ntrunc F NF) with ftrunc.
  destruct (fofZ_fin (t - c) ltac:(lia)) as [A B]. set (d := t - c) in *. assert (BD : Z.abs d <= 2 ^ 40) by lia.
  assert (BI : (Rabs (IZR d * B2R w) <= IZR (Z.abs d))%R). { rewrite Rabs_mult, (Rabs_pos_eq (B2R w)), <- abs_IZR by lra. rewrite <- (Rmult_1_r (IZR (Z.abs d))) at 2. apply Rmult_le_compat_l; [apply (IZR_le 0); lia|lra]. }
  destruct (fmul_fin (fofZ d) w A Fw) as [C D].
  { rewrite B. eapply Rle_trans; [exact BI|]. eapply Rle_trans; [|apply (bpow1023_ge 40); lia]. apply IZR_le. exact BD. }
  rewrite B in D. pose proof (abs_le_rnd _ _ (fmt_IZR (Z.abs d) ltac:(lia)) BI) as BR. rewrite <- D in BR. set (m := fmul (fofZ d) w) in *.
  assert (BT : Z.abs (Ztrunc (B2R m)) <= Z.abs d). { rewrite <- Ztrunc_abs. rewrite <- (Ztrunc_IZR (Z.abs d)). apply Ztrunc_le. exact BR. }
  rewrite ftrunc_spec by (exact C || lia). replace (c + Ztrunc (B2R m) - c) with (Ztrunc (B2R m)) by ring. unfold toward. fold d.
  destruct (Z.le_ge_cases 0 d) as [S|S].
  - left. assert (0 <= B2R m)%R by (rewrite D; apply rnd_ge_0, Rmult_le_pos; [now apply (IZR_le 0)|lra]). apply Ztrunc_le in H. rewrite (Ztrunc_IZR 0) in H. lia.
  - right. assert (B2R m <= 0)%R. { rewrite D. apply rnd_le_0. apply IZR_le in S. replace 0%R with (0 * B2R w)%R by ring. apply Rmult_le_compat_r; lra. } apply Ztrunc_le in H. rewrite (Ztrunc_IZR 0) in H. lia.
Qed.
Lemma gaps_unit c t : 0 < tp_freq c <= tp_freq t -> tp_freq t <= 2 ^ 53 -> Forall (fun g => gap_type g = GapFrequency -> unitF (gap_severity g)) (@IdentifyGaps F NF c t).
Proof.
  intros HC HT. unfold IdentifyGaps. cbv zeta. rewrite !Forall_app. split; [|split].
  - destruct (nlt _ _); constructor; [discriminate|constructor].
  - rewrite (proj2 (Z.ltb_lt 0 (tp_freq t))), (proj2 (Z.ltb_lt 0 (tp_freq c))) by lia. cbn [andb]. destruct (nlt _ _); constructor; [|constructor]. intros _. cbn [gap_severity].
    change (@nabs F NF) with fabs. change (@nsub F NF) with fsub. change (@ndiv F NF) with fdiv. change (@nofZ F NF) with fofZ. change (@n1 F NF) with (fofZ 1).
    destruct (fofZ_fin (tp_freq c) ltac:(lia)) as [A1 A2]. destruct (fofZ_fin (tp_freq t) ltac:(lia)) as [B1 B2]. destruct (fofZ_fin 1 ltac:(lia)) as [C1 C2].
    assert (TP : (0 < IZR (tp_freq c) <= IZR (tp_freq t))%R) by (split; [apply (IZR_lt 0)|apply IZR_le]; lia).
    assert (Q : (0 <= IZR (tp_freq c) / IZR (tp_freq t) <= 1)%R). { split; [apply Rmult_le_pos; [lra|apply Rlt_le, Rinv_0_lt_compat; lra]|]. apply Rmult_le_reg_r with (IZR (tp_freq t)); [lra|]. replace (IZR (tp_freq c) / IZR (tp_freq t) * IZR (tp_freq t))%R with (IZR (tp_freq c)) by (field; lra). lra. }
    destruct (fdiv_fin _ _ A1 B1) as [D1 D2]; [rewrite B2; lra|rewrite A2, B2, Rabs_pos_eq by tauto; apply le1023; lra|]. rewrite A2, B2 in D2.
    assert (R1 : (0 <= B2R (fdiv (fofZ (tp_freq c)) (fofZ (tp_freq t))) <= 1)%R) by (rewrite D2; split; [now apply rnd_ge_0|apply rnd_le_fmt; [apply (fmt_IZR 1); lia|tauto]]).
    set (q := fdiv _ _) in *. destruct (fsub_fin q (fofZ 1) D1 C1) as [E1 E2]; [rewrite C2; apply le1023; apply Rabs_le; lra|]. destruct (fabs_fin _ E1) as [G1 G2]. split; [exact G1|]. rewrite G2, E2, C2. split; [apply Rabs_pos|]. apply abs_le_rnd; [apply (fmt_IZR 1); lia|apply Rabs_le; lra].
  - destruct (nlt _ _); constructor; [discriminate|constructor].
Qed.
Lemma complete_toward ts c t gaps cp : @findBestTemplate F NF (mkEngine ts (flit 7 10)) (Some c) = Some t -> 0 <= tp_freq c <= 2 ^ 40 -> 0 <= tp_freq t <= 2 ^ 40 ->
  Forall (fun g => gap_type g = GapFrequency -> unitF (gap_severity g)) gaps -> @CompletePattern F NF (mkEngine ts (flit 7 10)) c gaps = Some cp ->
  toward (tp_freq c) (tp_freq t) (GetFrequencyAdjustment cp).
Proof.
  intros HB Hc Ht HG. unfold CompletePattern. rewrite HB.
  set (ok := fun q : Completed F => cp_base q = c /\ match cp_freq q with Some f => toward (tp_freq c) (tp_freq t) (f - tp_freq c) | None => True end).
  assert (K : forall o, match o with Some q => ok q | None => True end -> match fold_left (@templateGap F NF c t) gaps o with Some q => ok q | None => True end).
  { induction HG as [|g r G Hr IH]; intros o HO; cbn [fold_left]; [exact HO|]. apply IH. destruct o as [q|]; [|exact I]. destruct HO as [O1 O2]. unfold templateGap. destruct (gap_type g) eqn:E.
    - split; assumption.
    - split; [exact O1|]. cbn [cp_freq]. apply blend_toward; auto.
    - split; assumption.
    - destruct (tp_wave t); [split; assumption|]. destruct (morphWaveform _ _ _); [split; assumption|exact I].
    - split; assumption. }
  intros E. specialize (K (Some (emptyCompleted c)) (conj eq_refl I)). rewrite E in K. destruct K as [K1 K2]. unfold GetFrequencyAdjustment. destruct (cp_freq cp) as [f|]; [rewrite K1; exact K2|]. unfold toward. lia.
Qed.

(** ** The periods after a round *)
Lemma total_cons z l : P_Periods.total (z :: l) = z + P_Periods.total l. Proof. reflexivity. Qed.
Lemma total_moved {A} (f : A -> Z) adj : forall (l : list A) (h : nat -> A -> Z) x, (forall i, nth_error x i = option_map (h i) (nth_error l i)) ->
  (forall i a, In a l -> h i a = f a \/ h i a = f a + adj) ->
  List.length x = List.length l /\ P_Periods.total (map f l) + Z.of_nat (List.length l) * Z.min 0 adj <= P_Periods.total x <= P_Periods.total (map f l) + Z.of_nat (List.length l) * Z.max 0 adj.
Proof.
  induction l as [|a l IH]; intros h x HN HH.
  - destruct x as [|y x]; [cbn; lia|specialize (HN 0%nat); discriminate].
  - destruct x as [|y x]; [specialize (HN 0%nat); discriminate|]. assert (Y := HN 0%nat). cbn in Y. injection Y as Y.
    destruct (IH (fun i => h (S i)) x) as [L B]; [intros i; exact (HN (S i))|intros i b Hb; apply HH; now right|]. destruct (HH 0%nat a (or_introl eq_refl)) as [H|H]; rewrite <- Y in H; cbn [List.length map]; rewrite !total_cons, L; (split; [reflexivity|lia]).
Qed.
Lemma total_ge l z : Forall (fun f => 0 < f) l -> In z l -> z <= P_Periods.total l.
Proof.
  intros H. assert (NN : forall l, Forall (fun f => 0 < f) l -> 0 <= P_Periods.total l) by (induction 1; rewrite ?total_cons; cbn in *; lia).
  induction H as [|y l Hy Hl IH]; [contradiction|]. intros [->|HI]; rewrite total_cons; [pose proof (NN l Hl); lia|specialize (IH HI); lia].
Qed.
Lemma shifted_two z f : in64 (f + z) -> @shifted F NF z f = f \/ @shifted F NF z f = f + z.
Proof. intros H. unfold shifted. rewrite wrap_in by exact H. destruct (_ && _)%bool; auto. Qed.
Lemma coh_range (l : list (Agent F)) : Forall agent_fine l -> l <> [] -> Z.of_nat (List.length l) <= 2 ^ 30 ->
  is_finite (@swarmCoherence F NF l) = true /\ (0 <= B2R (@swarmCoherence F NF l) <= 101 / 100)%R.
Proof.
  intros H HN HL. unfold swarmCoherence. destruct (C03_float_accuracy tr e (map (@phaseOf F) l) SANE ACC (proj1 EB)) as (A & B & C).
  - destruct l; [contradiction|discriminate].
  - rewrite map_length. lia.
  - apply (proj2 (Forall_map _ _ _)). revert H. apply Forall_impl. intros a [HT _]. destruct (turn_bnd _ HT) as [B1 B2]. split; [exact B1|]. eapply Rle_trans; [exact B2|]. rewrite pow_Z. change (bpow radix2 3) with 8%R. apply (IZR_le 8). cbn. lia.
  - split; [exact A|]. split; [exact B|]. pose proof (C03_coherence_bounds (map B2R (map (@phaseOf F) l))) as D. apply Rabs_le_inv in C. rewrite map_length in C.
    assert (N : (IZR (Z.of_nat (List.length l)) <= 1073741824)%R) by (apply IZR_le; lia). assert (P51 : (2 ^ 51 = 2251799813685248)%R) by (rewrite pow_Z; reflexivity). rewrite P51 in C. lra.
Qed.
Lemma mean_range l : l <> [] -> Z.of_nat (List.length l) <= 2 ^ 30 -> shortPeriods l ->
  100000500 <= meanPeriod l <= 250000000 /\ Z.of_nat (List.length l) * meanPeriod l <= P_Periods.total l < Z.of_nat (List.length l) * (meanPeriod l + 1).
Proof.
  intros HN HL [A B]. assert (0 < Z.of_nat (List.length l)) by (destruct l; [contradiction|cbn [List.length]; lia]). unfold meanPeriod. set (n := Z.of_nat _) in *. set (t := P_Periods.total l) in *.
  rewrite wrap_in by (unfold in64; nia). rewrite Z.quot_div_nonneg by nia. pose proof (Z.div_mod t n ltac:(lia)). pose proof (Z.mod_pos_bound t n ltac:(lia)). split; [|nia]. nia.
Qed.
(** What the run keeps. *)
Definition trapped (l : list (Agent F)) : Prop :=
  l <> [] /\ Z.of_nat (List.length l) <= 2 ^ 30 /\ Forall agent_fine l /\ shortPeriods (map freqOf l).
Lemma short_perm l l' : Permutation l l' -> shortPeriods l' -> shortPeriods l.
Proof. intros H. unfold shortPeriods. now rewrite (total_perm _ _ H), (Permutation_length H). Qed.
Lemma trapped_view en k l : env_quiet en -> trapped l -> trapped (ev_view en k l).
Proof.
  intros Q (A & B & C & D). destruct Q as [[V1 V2 _] P _]. split; [|split; [|split]].
  - intros H. apply (f_equal (@List.length _)) in H. rewrite V2 in H. now destruct l.
  - now rewrite V2.
  - now apply V1.
  - eapply short_perm; [apply P|exact D].
Qed.
Lemma trapped_seen l l' : trapped l -> trapped l' -> seen (@measureSystemPattern F NF l l').
Proof.
  intros (A & B & C & D) (A' & B' & C' & D'). destruct (coh_range l' C' A' B') as [F1 F2]. constructor.
  - eapply b_le; [apply b_system; [exact SANE|exact C|lia]|lia].
  - rewrite measured_mean. apply mean_range; [now destruct l|now rewrite map_length|exact D].
  - destruct l; [contradiction|exact F1].
  - destruct l; [contradiction|exact F2].
Qed.
(** A target the round can be asked to reach: finite phase up to 2^60, coherence between 0 and 1. *)
Record fair (t : TargetPattern F) : Prop := { fr_phase : moderate (tp_phase t); fr_coh : unitF (tp_coh t) }.
(** Success in a round needs the measured period near the one of the goal. *)
Theorem C91_success_needs : forall cfg t l l' (c := @measureSystemPattern F NF l l') ag, trapped l -> trapped l' -> fair t -> 125000000 <= tp_freq t <= 2 ^ 53 -> is_finite (gv_dist (g_conv cfg)) = true ->
  @isPatternAchieved F NF cfg t ag c = true ->
  (3 / 10 * (Rabs (IZR (meanPeriod (map freqOf l)) - IZR (tp_freq t)) / IZR (tp_freq t)) < B2R (gv_dist (g_conv cfg)) + 2 / 10 ^ 14)%R.
Proof.
  intros cfg t l l' c ag HL HL' [Pt Ct] HF FD. pose proof (trapped_seen l l' HL HL') as [S1 S2 S3 S4]. fold c in S1, S2, S3, S4. destruct Ct as [C1 C2].
  destruct (distance_near tr SANE c t) as (p & Bp & Fz & Nz); try assumption; try lia; try lra.
  unfold isPatternAchieved. cbv zeta. intros H. assert (D : flt (@PatternDistance F NF (Some c) (Some t)) (gv_dist (g_conv cfg)) = true).
  { change (@nlt F NF) with flt in H. destruct (flt (@PatternDistance F NF (Some c) (Some t)) (gv_dist (g_conv cfg))); [reflexivity|]. exfalso. destruct (nle (gt_high _) _); rewrite ?andb_false_r in H; discriminate. }
  apply flt_true in D. destruct D as (_ & _ & D). rewrite !ford_fin in D by assumption. unfold c in Nz at 2. rewrite measured_mean in Nz. apply Rabs_le_inv in Nz.
  set (v := (Rabs _ / _)%R) in *. set (w := Rabs _) in Nz. assert (0 <= w)%R by apply Rabs_pos. lra.
Qed.
Lemma not_achieved cfg t l l' ag : trapped l -> trapped l' -> fair t -> outOfReach cfg (tp_freq t) -> @isPatternAchieved F NF cfg t ag (@measureSystemPattern F NF l l') = false.
Proof.
  intros HL HL' HT (O1 & O2 & O3). destruct (isPatternAchieved _ _ _ _) eqn:E; [|reflexivity]. exfalso. apply C91_success_needs in E; auto; try lia. destruct HL as (A & B & C & D).
  destruct (mean_range (map freqOf l)) as [M _]; [destruct l; [contradiction|discriminate]|now rewrite map_length|exact D|]. set (m := meanPeriod _) in *. clearbody m.
  assert (F1 : (250000000 <= IZR (tp_freq t))%R) by (apply IZR_le; lia). assert (M1 : (IZR m <= 250000000)%R) by (apply IZR_le; lia).
  assert (X : (1 - 250000000 / IZR (tp_freq t) <= Rabs (IZR m - IZR (tp_freq t)) / IZR (tp_freq t))%R).
  { rewrite Rabs_left1 by lra. apply Rmult_le_reg_r with (IZR (tp_freq t)); [lra|]. replace ((1 - 250000000 / IZR (tp_freq t)) * IZR (tp_freq t))%R with (IZR (tp_freq t) - 250000000)%R by (field; lra). replace (- (IZR m - IZR (tp_freq t)) / IZR (tp_freq t) * IZR (tp_freq t))%R with (IZR (tp_freq t) - IZR m)%R by (field; lra). lra. }
  set (v := (Rabs _ / _)%R) in *. set (u := (250000000 / _)%R) in *. lra.
Qed.
Lemma round_periods cfg t en s s' b : cfg_moderate cfg -> fair t -> outOfReach cfg (tp_freq t) -> env_quiet en -> trapped (ss_agents s) ->
  @round F NF cfg t en s = Some (s', b) -> b = false /\ List.length (ss_agents s') = List.length (ss_agents s) /\ shortPeriods (map freqOf (ss_agents s')).
Proof.
  intros HC HT HO HQ HS. unfold round. cbv zeta. set (ag0 := ev_view en 0 (ss_agents s)). set (ag1 := ev_view en 1 ag0). set (ag2 := ev_view en 2 ag1). set (ag3 := ev_view en 3 ag2).
  assert (T0 : trapped ag0) by now apply trapped_view. assert (T1 : trapped ag1) by now apply trapped_view. assert (T2 : trapped ag2) by now apply trapped_view. assert (T3 : trapped ag3) by now apply trapped_view.
  rewrite not_achieved by assumption. pose proof (trapped_seen ag0 ag1 T0 T1) as SN.
  destruct (if ShouldSwitchStrategy _ then _ else _) as [[pf cu]|]; [|discriminate]. set (c := measureSystemPattern ag0 ag1) in *. change (en_threshold defaultEngine) with (flit 7 10). rewrite templates_eq.
  destruct (template_found c (ev_tmpl en templates3) SN) as (t1 & FB & FR); [apply (eq_tmpl en HQ)|apply (ef_tmpl en (eq_fine en HQ))|].
  destruct (CompletePattern _ _ _) as [cp|] eqn:CP; [|discriminate]. pose proof (sn_freq c SN) as CF. destruct HO as (O1 & O2 & O3).
  apply (complete_toward _ c t1) in CP; [|exact FB|lia|lia|apply gaps_unit; lia].
  set (ag6 := ev_view en 6 _). assert (T6 : trapped ag6) by (unfold ag6; repeat apply trapped_view; assumption).
  set (ag7 := ev_view en 7 ag6). assert (T7 : trapped ag7) by (now apply trapped_view).
  destruct (MeasurePhaseVariance _ _) as [var|]; [|discriminate]. match goal with |- context [applyPatternCompletion _ _ _ ?x _ _ _] => set (co := x) end. set (adj := GetFrequencyAdjustment cp) in *.
  assert (P7 : Permutation (map freqOf ag7) (map freqOf ag0)) by (unfold ag7, ag6, ag3, ag2, ag1; rewrite !(eq_periods en HQ); reflexivity).
  assert (P8 : Permutation (map freqOf ag0) (map freqOf (ss_agents s))) by apply (eq_periods en HQ).
  destruct T7 as (A7 & B7 & C7 & D7).
  assert (M7 : tp_freq c = meanPeriod (map freqOf ag7)) by (unfold c; rewrite measured_mean; symmetry; now apply meanPeriod_perm). rewrite M7 in CP.
  destruct (mean_range (map freqOf ag7)) as [R1 R2]; [destruct ag7; [contradiction|discriminate]|now rewrite map_length|exact D7|]. set (m := meanPeriod (map freqOf ag7)) in *. rewrite map_length in R2.
  set (ag8 := applyPatternCompletion _ _ _ _ _ _ _).
  assert (BF : forall a, In a ag7 -> 0 < freqOf a < 2 ^ 60).
  { intros a Ha. rewrite Forall_forall in C7. destruct (C7 a Ha) as [_ Pa]. split; [exact Pa|]. eapply Z.le_lt_trans; [apply (total_ge (map freqOf ag7)); [|now apply in_map]|destruct D7; rewrite map_length in *; nia].
    apply (proj2 (Forall_map _ _ _)). apply Forall_forall. intros x Hx. now destruct (C7 x Hx). }
  assert (BA : Z.abs adj <= 2 ^ 40) by (unfold toward in CP; lia).
  destruct (total_moved freqOf adj ag7 (fun i a => if @leftOut F NF cfg t co var i then freqOf a else @shifted F NF adj (freqOf a)) (map freqOf ag8)) as [L8 B8].
  { intros i. unfold ag8. apply (C87_exact F NF). }
  { intros i a Ha. destruct (leftOut _ _ _ _ _); [now left|]. apply shifted_two. specialize (BF a Ha). unfold in64. lia. }
  assert (N7 : 0 < Z.of_nat (List.length ag7)) by (destruct ag7; [contradiction|cbn [List.length]; lia]).
  assert (S8 : shortPeriods (map freqOf ag8)).
  { unfold shortPeriods. rewrite L8. destruct D7 as [D1 D2]. rewrite map_length in D1, D2. set (n := Z.of_nat (List.length ag7)) in *. set (tt := P_Periods.total (map freqOf ag7)) in *. set (t' := P_Periods.total (map freqOf ag8)) in *. clearbody n tt t' m adj. unfold toward in CP.
    destruct CP as [CP|CP]; [rewrite Z.min_l, Z.max_r in B8 by lia|rewrite Z.min_r, Z.max_l in B8 by lia]; nia. }
  assert (L7 : List.length ag7 = List.length (ss_agents s)) by (rewrite <- (map_length freqOf ag7), <- (map_length freqOf (ss_agents s)); apply Permutation_length; now rewrite P7).
  rewrite map_length in L8.
  destruct (IsStuck _).
  - destruct (resonanceLoop _ _ _ _ _ _ _) as [q|] eqn:RL; [|discriminate]. intros E. injection E as <- <-. cbn [ss_agents]. apply res_near in RL; [|intros k l; apply (eq_periods en HQ)].
    assert (P9 : Permutation (map freqOf q) (map freqOf ag8)) by (rewrite RL; apply (eq_periods en HQ)). split; [reflexivity|]. split; [|eapply short_perm; [exact P9|exact S8]]. apply Permutation_length in P9. rewrite !map_length in P9. congruence.
  - intros E. injection E as <- <-. cbn [ss_agents]. assert (P9 : Permutation (map freqOf (ev_view en 8 ag8)) (map freqOf ag8)) by apply (eq_periods en HQ). split; [reflexivity|]. split; [|eapply short_perm; [exact P9|exact S8]]. apply Permutation_length in P9. rewrite !map_length in P9. congruence.
Qed.
(** A round neither succeeds nor leads out of the trap: the mean of the periods stays between 100 ms and 250 ms. *)
Theorem C91_round : forall cfg t en s s' b, cfg_moderate cfg -> fair t -> outOfReach cfg (tp_freq t) -> env_quiet en -> trapped (ss_agents s) ->
  @round F NF cfg t en s = Some (s', b) -> b = false /\ trapped (ss_agents s').
Proof.
  intros cfg t en s s' b HC HT HO HQ HS HR. destruct (round_periods cfg t en s s' b HC HT HO HQ HS HR) as (A & B & C). split; [exact A|]. destruct HS as (S1 & S2 & S3 & S4). split; [|split; [|split]].
  - intros H. rewrite H in B. now destruct (ss_agents s).
  - now rewrite B.
  - eapply (C32_round_range tr SANE cfg t en s s' b HC (fr_phase t HT) (eq_fine en HQ)); [lia|exact S3|exact HR].
  - exact C.
Qed.
(** No run succeeds, however long. *)
Definition quiet (ev : SyncEvent F) : Prop := match ev with Tick en => env_quiet en | Cancel => True end.
Lemma loop_never cfg t mx : cfg_moderate cfg -> fair t -> outOfReach cfg (tp_freq t) -> forall evs it s, Forall quiet evs -> trapped (ss_agents s) ->
  fst (fst (@syncLoop F NF cfg t mx it evs s)) <> SNil.
Proof.
  intros HC HT HO. induction evs as [|ev evs IH]; intros it s HE HS; cbn [syncLoop]; destruct (it <? mx); try discriminate. inversion HE as [|? ? H1 H2]. subst. destruct ev as [|en]; [discriminate|].
  destruct (round cfg t en s) as [[s' b]|] eqn:R; [|discriminate]. destruct (C91_round cfg t en s s' b HC HT HO H1 HS R) as [-> T]. now apply IH.
Qed.
Lemma adjust_fair n t : fair t -> fair (@adjustTarget F NF n t) /\ tp_freq (@adjustTarget F NF n t) = tp_freq t.
Proof.
  intros [A B]. unfold adjustTarget. cbv zeta. change (@nlt F NF) with flt. destruct (flt _ _) eqn:E; [|now split]. split; [|reflexivity]. constructor; [exact A|]. cbn [tp_coh].
  destruct B as [B1 B2]. destruct (lim_fin tr n) as [L1 _]. split; [exact L1|].
  assert (L2 : fle (fofZ 0) (lim_theo (@GetCoherenceLimits F NF n)) = true) by (unfold GetCoherenceLimits; repeat match goal with |- context [if ?b then _ else _] => destruct b end; vm_compute; reflexivity).
  apply fle_true in L2. destruct L2 as (_ & _ & L2). rewrite (ford_fofZ 0), ford_fin in L2 by (exact L1 || lia). apply flt_true in E. destruct E as (_ & _ & E). rewrite !ford_fin in E by assumption. lra.
Qed.
Theorem C91_never_succeeds : forall cfg t evs s, cfg_moderate cfg -> fair t -> outOfReach cfg (tp_freq t) -> Forall quiet evs -> trapped (ss_agents s) ->
  fst (fst (AchieveSynchronization tr cfg t evs s)) <> SNil.
Proof.
  intros cfg t evs s HC HT HO HE HS. unfold AchieveSynchronization. cbv zeta. destruct (_ <=? 0); [discriminate|]. destruct (adjust_fair (Z.of_nat (List.length (ss_agents s))) t HT) as [A B]. apply loop_never; [exact HC|exact A|rewrite B; exact HO|exact HE|exact HS].
Qed.
End Reach.

(** ** The clients of client/emerge *)
Section Client.
Variable tr : Trig.
Local Notation NF := (FNum tr).
(** Every agent a swarm creates for itself starts with a phase in the circle and a period of 100 to 149 ms. *)
Definition fresh (a : Agent F) : Prop := in_turn (phaseOf a) /\ exists k, 0 <= k < 50 /\ freqOf a = (100 + k) * 1000000.
Lemma fresh_opt s dr i : freqOf (@mkOpt F NF s dr i) = @randFreq F NF (dr_freq (dr i)) /\ phaseOf (@mkOpt F NF s dr i) = @RandPhase F NF (dr_phase (dr i)).
Proof.
  unfold mkOpt, NewOptimizedFromConfig, NewAgent, phaseOf, freqOf. cbv zeta. cbn [agentConfig ac_rphase ac_rgoal ac_rfreq ac_dm ac_gm ac_rm ac_st M_SwarmConfig.AgentFromSwarm app].
  destruct (_ && _)%bool; split; reflexivity.
Qed.
Lemma fresh_std s dr i : freqOf (@mkStd F NF s dr i) = @randFreq F NF (dr_freq (dr i)) /\ phaseOf (@mkStd F NF s dr i) = @RandPhase F NF (dr_phase (dr i)).
Proof.
  destruct (@std_some F NF s dr i) as [E _]. revert E. set (x := mkStd s dr i). clearbody x. unfold NewFromConfig.
  change (createDecisionMaker (agentConfig s)) with true. change (createGoalManager (agentConfig s)) with true. cbn [negb]. destruct (createResourceManager (agentConfig s)); [|discriminate].
  destruct (createStrategy (agentConfig s)); [|discriminate]. intros E. injection E as <-. unfold createPhaseOptions, createGoalOptions, createFrequencyOptions, createParameterOptions, NewAgent, phaseOf, freqOf. cbv zeta.
  cbn [agentConfig ac_rphase ac_rgoal ac_rfreq M_SwarmConfig.AgentFromSwarm app]. repeat match goal with |- context [if ?b then _ else _] => destruct b end; split; reflexivity.
Qed.
Lemma agents_filled cpus size goal dr : exists f, @Agents F (@filled tr cpus size goal dr) = Some (listing f (Z.to_nat size)) /\ forall i, fresh (f i) /\ freqOf (f i) = @randFreq F NF (dr_freq (dr i)).
Proof.
  assert (K : forall a i, freqOf a = @randFreq F NF (dr_freq (dr i)) /\ phaseOf a = @RandPhase F NF (dr_phase (dr i)) -> fresh a /\ freqOf a = @randFreq F NF (dr_freq (dr i))).
  { intros a i [A B]. split; [|exact A]. split; [rewrite B; apply RandPhase_ok|]. rewrite A. apply randFreq_range. }
  unfold filled. cbv zeta. destruct (100 <? size) eqn:L.
  - exists (@mkOpt F NF (@bare tr cpus size goal) dr). split; [|intros i; apply K, fresh_opt]. unfold Agents. cbn [set_slice s_opt s_slice bare]. rewrite L. rewrite slice_map; [reflexivity|apply ids_nodup|intros i; apply opt_id].
  - exists (@mkStd F NF (@bare tr cpus size goal) dr). split; [|intros i; apply K, fresh_std]. unfold Agents. cbn [set_map s_opt s_map bare]. now rewrite L.
Qed.
(** ... so do the agents of every client. *)
Theorem C91_client_agents : forall b cpus dr ro fl il cl, @Build F NF b cpus dr ro fl il = BuildOK cl ->
  exists m, Agents (cl_swarm cl) = Some m /\ Z.of_nat (List.length m) = DefaultAgentCount (M_Client.b_scale b) /\ Forall fresh (map snd m) /\
    map freqOf (map snd m) = map (fun i => @randFreq F NF (dr_freq (dr i))) (seq 0 (Z.to_nat (DefaultAgentCount (M_Client.b_scale b)))).
Proof.
  intros b cpus dr ro fl il cl. rewrite (build_eq tr). pose proof (count_range (M_Client.b_scale b)) as CR. set (n := DefaultAgentCount (M_Client.b_scale b)) in *.
  destruct (M_Swarm.New _ _ _ _ _ _ _ _) as [| | |sw] eqn:E; try discriminate. intros H. assert (EC : cl_swarm cl = set_gcfg (@WithSize F NF n (@For F NF (b_goal b))) sw) by (injection H as <-; reflexivity). rewrite EC. clear H EC.
  assert (G : goal_valid (stateOf tr b)). { destruct (ok_dec tr n (stateOf tr b)) as [[_ G]|C]; [exact G|]. exfalso. apply (C19_error_iff tr cpus n (stateOf tr b) dr ro fl il) in C. destruct C as [er C]. change (P_Swarm.NF tr) with NF in C. change (P_Client.NF tr) with NF in E. congruence. }
  change (P_Client.NF tr) with (P_Swarm.NF tr) in E. rewrite (new_shape tr) in E by (exact G || lia). unfold wire in E. destruct (collectAgents _ _); [|discriminate]. destruct (M_Conn.establishConnections _ _ _ _); [|discriminate]. injection E as <-.
  destruct (agents_filled cpus n (stateOf tr b) dr) as (f & A & B). exists (listing f (Z.to_nat n)). split; [exact A|]. unfold listing. rewrite map_length, seq_length. split; [lia|]. rewrite !map_map. cbn [snd]. split.
  - apply (proj2 (Forall_map _ _ _)). apply Forall_forall. intros i _. apply B.
  - apply map_ext. intros i. apply B.
Qed.
Lemma fresh_trapped l : Forall fresh l -> 1 <= Z.of_nat (List.length l) <= 2000 -> (exists a, In a l /\ freqOf a <> 100000000) -> trapped l.
Proof.
  intros HF HL (a & Ha & Na). split; [now destruct l|]. split; [lia|]. split.
  - revert HF. apply Forall_impl. intros x [A (k & B & C)]. split; [exact A|lia].
  - unfold shortPeriods. rewrite map_length.
    assert (U : P_Periods.total (map freqOf l) <= 149000000 * Z.of_nat (List.length l)). { clear - HF. induction HF as [|x l [_ (k & B & C)] Hl IH]; [cbn; lia|]. cbn [map List.length]. rewrite total_cons. lia. }
    assert (L : 100000000 * Z.of_nat (List.length l) + 1000000 <= P_Periods.total (map freqOf l)).
    { clear - HF Ha Na. assert (K : forall l, Forall fresh l -> 100000000 * Z.of_nat (List.length l) <= P_Periods.total (map freqOf l)) by (induction 1 as [|x l0 [_ (k & B & C)] Hl IH]; [cbn; lia|cbn [map List.length]; rewrite total_cons; lia]).
      induction HF as [|x l [_ (k & B & C)] Hl IH]; [contradiction|]. cbn [map List.length]. rewrite total_cons. destruct Ha as [->|Ha]; [specialize (K l Hl); lia|specialize (IH Ha); lia]. }
    lia.
Qed.
Lemma size_moderate n g : cfg_moderate (@WithSize F NF n (@For F NF g)).
Proof.
  assert (M1 : bnd (ga_min (g_var (@For F NF g))) 8) by (destruct g; apply b_lit8; vm_compute; reflexivity).
  assert (M2 : bnd (ga_max (g_var (@For F NF g))) 8) by (destruct g; apply b_lit8; vm_compute; reflexivity).
  assert (P : cfg_moderate (@For F NF g)) by exact (C32_presets_moderate tr g). set (c := @For F NF g) in *. clearbody c. destruct P as [P1 P2 P3 P4 P5 P6 P7].
  assert (L : forall x k, bnd x 8 -> (is_finite k && fle (fofZ (-256)) k && fle k (fofZ 256) = true)%bool -> moderate (fmul x k)) by (intros x k Hx Hk; apply (b_le _ (8 + 8) 60); [apply b_mul; [exact Hx|now apply b_lit8|lia]|lia]).
  assert (K : forall k, (is_finite k && fle (fofZ (-256)) k && fle k (fofZ 256) = true)%bool -> moderate k) by (intros k Hk; apply (b_le _ 8 60); [now apply b_lit8|lia]).
  unfold WithSize. cbv zeta. destruct (n <=? 20); [|destruct (n <=? 50); [|destruct (n <=? 200); [constructor; assumption|destruct (n <=? 1000)]]]; constructor; cbn [g_conv g_var g_res gv_scale ga_min ga_max ga_coh ga_walk ga_pert gr_noise]; try assumption; lazymatch goal with |- moderate (nmul _ _) => apply L; [assumption|vm_compute; reflexivity] | _ => apply K; vm_compute; reflexivity end.
Qed.
Lemma size_dist n g : gv_dist (g_conv (@WithSize F NF n (@For F NF g))) = gv_dist (g_conv (@For F NF g)).
Proof. unfold WithSize. cbv zeta. repeat match goal with |- context [if ?b then _ else _] => destruct b end; reflexivity. Qed.
(** One second is out of reach of every goal but AdaptToTraffic. *)
Theorem C91_goals : forall n g, g <> AdaptToTraffic -> outOfReach (@WithSize F NF n (@For F NF g)) 1000000000.
Proof.
  intros n g H. unfold outOfReach. rewrite size_dist. split; [lia|].
  assert (K : (is_finite (gv_dist (g_conv (@For F NF g))) && fle (gv_dist (g_conv (@For F NF g))) (flit 22 100))%bool = true) by (destruct g; try congruence; vm_compute; reflexivity).
  apply andb_prop in K. destruct K as [K1 K2]. split; [exact K1|]. apply fle_true in K2. destruct K2 as (_ & _ & K2). destruct (lit_near 22 100 ltac:(lia) ltac:(lia)) as [A B]. rewrite !ford_fin in K2 by assumption. apply Rabs_le_inv in B. lra.
Qed.
(** REFUTED: "the goal is always reached, given sufficient time".  A client made by the builder for any goal but
    AdaptToTraffic, of any scale and with any target coherence, never reaches its goal when nothing disturbs its agents,
    whatever the random draws - unless all agents happen to start with the same period of 100 ms. *)
Theorem C91_client_refuted : forall e b cpus dr ro fl il cl now st evs, trig_sane tr -> trig_acc tr e -> (0 <= e <= 1 / 1000)%R -> b_goal b <> AdaptToTraffic ->
  @Build F NF b cpus dr ro fl il = BuildOK cl -> @startState F NF now (cl_swarm cl) = Some st -> (exists a, In a (ss_agents st) /\ freqOf a <> 100000000) -> Forall quiet evs ->
  fst (fst (Run tr (@syncConfig F NF (cl_swarm cl)) (s_goal (cl_swarm cl)) evs st)) <> SNil.
Proof.
  intros e b cpus dr ro fl il cl now st evs SANE ACC EB HG HB HS HA HE. destruct (C91_client_agents b cpus dr ro fl il cl HB) as (m & M1 & M2 & M3 & _). pose proof (count_range (M_Client.b_scale b)) as CR.
  unfold startState in HS. rewrite M1 in HS. injection HS as HS. subst st. destruct b as [g sc c]. destruct (C53_result tr g sc c cpus dr ro fl il cl HB) as (_ & _ & R3 & R4 & _ & R6 & _ & R8 & R9). cbn [M_Client.b_scale b_goal] in *.
  unfold Run, syncConfig. rewrite R4, R3. eapply C91_never_succeeds; try eassumption.
  - apply size_moderate.
  - unfold goalPattern. constructor; cbn [tp_phase tp_coh].
    + rewrite R9. apply zero60.
    + rewrite R6. set (want := if fle c (fofZ 0) then _ else _). set (top := lim_prac _).
      assert (T : unitF top).
      { assert (L1 : is_finite top = true) by (destruct (lim_fin tr (DefaultAgentCount sc)) as (_ & L1 & _); exact L1). split; [exact L1|].
        assert (Q : (fle (fofZ 0) top && fle top (fofZ 1))%bool = true) by (unfold top, GetCoherenceLimits; repeat match goal with |- context [if ?b then _ else _] => destruct b end; vm_compute; reflexivity).
        clearbody top. apply andb_prop in Q. destruct Q as [Q1 Q2]. apply fle_true in Q1, Q2. destruct Q1 as (_ & _ & Q1). destruct Q2 as (_ & _ & Q2). rewrite (ford_fofZ 0), (ford_fin _ L1) in Q1 by lia. rewrite (ford_fofZ 1), (ford_fin _ L1) in Q2 by lia. lra. }
      destruct (flt top want); [exact T|].
      assert (G : goal_valid (stateOf tr (mkBuilder g sc c))).
      { destruct (ok_dec tr (DefaultAgentCount sc) (stateOf tr (mkBuilder g sc c))) as [[_ G]|C]; [exact G|]. exfalso. apply (C19_error_iff tr cpus (DefaultAgentCount sc) (stateOf tr (mkBuilder g sc c)) dr ro fl il) in C. destruct C as [er C]. rewrite (build_eq tr) in HB. cbn [M_Client.b_scale] in HB. change (P_Swarm.NF tr) with NF in C. change (P_Client.NF tr) with NF in HB. rewrite C in HB. discriminate. }
      destruct G as (_ & G1 & G2 & _). change (st_coh (stateOf tr (mkBuilder g sc c))) with want in G1, G2. apply fle_true in G1, G2. destruct G1 as (_ & N1 & G1). destruct G2 as (_ & _ & G2). rewrite (ford_fofZ 0) in G1 by lia. rewrite (ford_fofZ 1) in G2 by lia.
      assert (Fw : is_finite want = true) by (apply ford_fin_inv; [exact N1|pose proof BIG_ge_1000; lra]). split; [exact Fw|]. rewrite ford_fin in G1, G2 by exact Fw. lra.
  - cbn [goalPattern tp_freq]. rewrite R8. now apply C91_goals.
  - cbn [newSync ss_agents] in *. apply fresh_trapped; [exact M3|rewrite map_length; lia|exact HA].
Qed.
(** Left to run for 1000 ticks it gives up with the error of the budget (or panics). *)
Lemma loop_ends cfg t : forall evs mx it s, 0 <= it -> mx - it <= Z.of_nat (List.length evs) -> Forall (fun ev => exists en, ev = Tick en) evs ->
  let r := fst (fst (@syncLoop F NF cfg t mx it evs s)) in r = SNil \/ r = SPanic \/ r = SFail mx.
Proof.
  induction evs as [|ev evs IH]; intros mx it s H0 HL HT; cbn [syncLoop List.length] in *; destruct (Z.ltb_spec it mx) as [L|L]; auto; [lia|]. inversion HT as [|? ? [en ->] H2]. subst.
  destruct (round cfg t en s) as [[s' [|]]|]; [now left| |right; now left]. apply IH; [lia|lia|exact H2].
Qed.
Theorem C91_client_gives_up : forall e b cpus dr ro fl il cl now st evs, trig_sane tr -> trig_acc tr e -> (0 <= e <= 1 / 1000)%R -> b_goal b <> AdaptToTraffic ->
  @Build F NF b cpus dr ro fl il = BuildOK cl -> @startState F NF now (cl_swarm cl) = Some st -> (exists a, In a (ss_agents st) /\ freqOf a <> 100000000) ->
  Forall (fun ev => exists en, ev = Tick en /\ env_quiet en) evs -> (1000 <= List.length evs)%nat ->
  let r := fst (fst (Run tr (@syncConfig F NF (cl_swarm cl)) (s_goal (cl_swarm cl)) evs st)) in r = SPanic \/ exists n, r = SFail n.
Proof.
  intros e b cpus dr ro fl il cl now st evs SANE ACC EB HG HB HS HA HE HL r.
  assert (N : r <> SNil) by (apply (C91_client_refuted e b cpus dr ro fl il cl now st evs); auto; revert HE; apply Forall_impl; intros ev (en & -> & Q); exact Q).
  unfold r, Run, AchieveSynchronization in *. cbv zeta in *. destruct (_ <=? 0); [now left|]. match goal with |- context [syncLoop ?c ?t ?m ?i ?ev ?s] => destruct (loop_ends c t ev m i s) as [H|[H|H]] end; [lia| | |contradiction|left; exact H|right; eexists; exact H].
  - unfold budget. lia.
  - revert HE. apply Forall_impl. intros ev (en & -> & _). now exists en.
Qed.
End Client.

(** ** Non-vacuity: a client with the default settings whose agents start at 125 ms; a thousand undisturbed rounds. *)
Definition halfDraws : nat -> Draws := fun _ => mkDraws 0 0 0 0 0 (2 ^ 52).
Lemma quiet_env : env_quiet quietEnv.
Proof. constructor; [constructor; auto|intros k l; reflexivity|auto]. Qed.
Lemma builds_ok r : builds r = true -> exists cl, r = BuildOK cl.
Proof. destruct r as [| | |cl]; try discriminate. intros _. now exists cl. Qed.
Example C91_applies : let tr := crTrig in exists cl st, trig_sane tr /\ trig_acc tr (/ 2 ^ 51) /\ (0 <= / 2 ^ 51 <= 1 / 1000)%R /\
  @Build F (FNum tr) (@ClientMinimizeAPICalls F (FNum crTrig) Tiny) 4 halfDraws (fun l => l) (repeat (fofZ 0) 400) [] = BuildOK cl /\ @startState F (FNum tr) 0 (cl_swarm cl) = Some st /\
  (exists a, In a (ss_agents st) /\ freqOf a <> 100000000) /\ Forall (fun ev => exists en, ev = Tick en /\ env_quiet en) (repeat (Tick quietEnv) 1000) /\ trapped (ss_agents st).
Proof.
  cbv zeta. assert (B : builds (@Build F (FNum crTrig) (@ClientMinimizeAPICalls F (FNum crTrig) Tiny) 4 halfDraws (fun l => l) (repeat (fofZ 0) 400) []) = true) by (vm_compute; reflexivity).
  apply builds_ok in B. destruct B as [cl E]. exists cl. destruct (C91_client_agents crTrig _ _ _ _ _ _ _ E) as (m & M1 & M2 & M3 & M4). unfold startState. rewrite M1. eexists.
  assert (A : exists a, In a (map snd m) /\ freqOf a <> 100000000).
  { assert (H : In (@randFreq F (FNum crTrig) (2 ^ 52)) (map freqOf (map snd m))) by (rewrite M4; left; reflexivity). apply in_map_iff in H. destruct H as (a & H1 & H2). exists a. split; [exact H2|]. rewrite H1.
    assert (V : (@randFreq F (FNum crTrig) (2 ^ 52) =? 125000000) = true) by (vm_compute; reflexivity). apply Z.eqb_eq in V. lia. }
  split; [exact cr_sane|]. split; [exact cr_acc|]. split; [assert (P : (2 ^ 51 = 2251799813685248)%R) by (rewrite pow_Z; reflexivity); rewrite P; lra|]. split; [exact E|]. split; [reflexivity|]. split; [exact A|]. split.
  - apply Forall_forall. intros ev H. apply repeat_spec in H. subst. exists quietEnv. split; [reflexivity|exact quiet_env].
  - assert (L : 1 <= Z.of_nat (List.length (map snd m)) <= 2000) by (rewrite map_length, M2; clear; change (1 <= DefaultAgentCount Tiny <= 2000); vm_compute; split; discriminate).
    exact (fresh_trapped (map snd m) M3 L A).
Qed.
Print Assumptions C91_success_needs.
Print Assumptions C91_round.
Print Assumptions C91_never_succeeds.
Print Assumptions C91_client_agents.
Print Assumptions C91_goals.
Print Assumptions C91_client_refuted.
Print Assumptions C91_client_gives_up.
