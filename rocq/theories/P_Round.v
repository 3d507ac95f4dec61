(** Property C32: one round of the synchronisation loop. *)
From Coq Require Import ZArith Reals Psatz Bool List String Lia.
From Flocq Require Import Core.Core IEEE754.BinarySingleNaN.
From Verif Require Import Num GoBase F64 RealNum M_Core M_Random M_Strategy M_Agent M_Limits M_GoalConfig M_Monitor M_ConvMonitor M_Engine M_Swarm M_Sync
  L_F64 L_Bnd L_PhaseF L_Random S_Agent S_Swarm S_Sync S_Round S_Circle L_Circle P_Core P_Converge L_TrigZero.
Import ListNotations.
Open Scope list_scope.
Open Scope R_scope.

Section Float.
Variable tr : Trig.
Hypothesis SANE : trig_sane tr.
Local Instance NF : Num F := FNum tr.
Notation wrap := (@WrapPhase F NF).

Ltac ops := change (@nadd F NF) with fadd; change (@nsub F NF) with fsub; change (@nmul F NF) with fmul; change (@ndiv F NF) with fdiv;
  change (@nlit F NF) with flit; change (@nofZ F NF) with fofZ; change (@nabs F NF) with fabs; change (@nmax F NF) with fmax;
  change (@nmin F NF) with fmin; change (@n1 F NF) with (fofZ 1); change (@n0 F NF) with (fofZ 0).
Ltac lit := solve [apply b_lit; vm_compute; reflexivity | apply b_lit8; vm_compute; reflexivity].
Ltac bb := lazymatch goal with
  | |- bnd (fadd _ _) _ => eapply b_add; [bb|bb|lia]
  | |- bnd (fsub _ _) _ => eapply b_sub; [bb|bb|lia]
  | |- bnd (fmul _ _) _ => eapply b_mul; [bb|bb|lia]
  | |- bnd (fmax _ _) _ => eapply b_max; [bb|bb|lia]
  | |- bnd (fmin _ _) _ => eapply b_min; [bb|bb|lia]
  | |- bnd (fabs _) _ => eapply b_abs; bb
  | |- bnd (flit _ _) _ => lit
  | |- bnd (fofZ _) _ => lit
  | |- bnd (fdiv _ (fofZ 2)) _ => eapply b_div; [bb|reflexivity|destruct (fofZ_fin 2 ltac:(lia)) as [? ->]; rewrite Rabs_pos_eq; lra|lia]
  | |- _ => eassumption
  end.

Lemma b_wrap x k : bnd x k -> in_turn (wrap x).
Proof. intros [A _]. destruct (C01_wrap_float tr x A) as (B & _ & D & _). split; [exact B|exact D]. Qed.
Lemma turn_bnd x : in_turn x -> bnd x 3.
Proof.
  intros [A [B C]]. split; auto. rewrite Rabs_pos_eq by exact B.
  assert (H : fle (fhalfpi 4) (fofZ 8) = true) by (vm_compute; reflexivity). apply fle_true in H.
  rewrite ford_fofZ, ford_fin in H by (reflexivity || lia). change (bpow radix2 3) with (IZR 8). lra.
Qed.
Lemma b_rand d : bnd (@Float64 F NF d) 0.
Proof. change (@Float64 F NF d) with (@Float64 F (FNum tr) d). destruct (Float64_unit tr d) as [A B]. split; [exact A|]. change (bpow radix2 0) with 1. apply Rabs_le. lra. Qed.
Lemma b_pi : bnd (fhalfpi 2) 2.
Proof.
  split; [reflexivity|]. assert (H : fle (fofZ 0) (fhalfpi 2) && fle (fhalfpi 2) (fofZ 4) = true) by (vm_compute; reflexivity).
  apply andb_prop in H. destruct H as [A B]. apply fle_true in A. apply fle_true in B.
  rewrite ford_fofZ, ford_fin in A, B by (reflexivity || lia). change (bpow radix2 2) with (IZR 4). apply Rabs_le. lra.
Qed.

(** Setting a phase. *)
Lemma fine_set x k a : bnd x k -> agent_fine a -> agent_fine (@SetPhase F NF x a).
Proof. intros B [_ P]. split; [exact (b_wrap x k B)|exact P]. Qed.
Lemma fine_set2 x k a : bnd x k -> agent_fine a -> agent_fine (@SetPhase F NF (wrap x) a).
Proof. intros B P. apply (fine_set (wrap x) 3); auto. apply turn_bnd. exact (b_wrap x k B). Qed.
Lemma fine_freq f a : agent_fine a -> agent_fine (@adjustFreq F NF f a).
Proof.
  intros [A B]. unfold adjustFreq. destruct (_ >? _)%num; [|now split]. cbv zeta.
  destruct (0 <? _)%Z eqn:E; [|now split]. split; [exact A|]. apply Z.ltb_lt in E. exact E.
Qed.
Lemma fine_scatter d a : agent_fine a -> agent_fine (@scatterAgent F NF d a).
Proof.
  intros H. pose proof (turn_bnd _ (proj1 H)) as P. pose proof (b_rand d) as R. pose proof b_pi as Q. unfold scatterAgent. ops. change (@npi F NF) with (fhalfpi 2).
  eapply fine_set; [|exact H]. bb.
Qed.
Lemma fine_scatters d l : forall i, Forall agent_fine l -> Forall agent_fine (@scatterLoop F NF i d l).
Proof. induction l as [|a r IH]; intros i H; cbn [scatterLoop]; auto. inversion H; subst. constructor; auto using fine_scatter. Qed.

(** One agent. *)
Record ctx_ok (x : ApplyCtx F) : Prop := mk_cok {
  co_cfg : cfg_moderate (ax_cfg x); co_target : bnd (ax_target x) 60; co_coh : bnd (ax_coh x) 60;
  co_padj : bnd (ax_padj x) 60; co_norm : bnd (ax_norm x) 60 }.
Lemma fine_agent x i d sc a : ctx_ok x -> bnd sc 200 -> agent_fine a ->
  agent_fine (fst (@applyAgent F NF x i d sc a)) /\ bnd (snd (@applyAgent F NF x i d sc a)) 200.
Proof.
  intros [C Ta Co Pa No] S H. destruct C as [C1 C2 C3 C4 C5 C6 C7].
  change (bnd (gv_scale (g_conv (ax_cfg x))) 60) in C1. change (bnd (ga_min (g_var (ax_cfg x))) 60) in C2.
  change (bnd (ga_max (g_var (ax_cfg x))) 60) in C3. change (bnd (ga_coh (g_var (ax_cfg x))) 60) in C4.
  change (bnd (ga_walk (g_var (ax_cfg x))) 60) in C5. change (bnd (ga_pert (g_var (ax_cfg x))) 60) in C6.
  pose proof (turn_bnd _ (proj1 H)) as P.
  assert (D : bnd (wrap (fsub (ax_target x) (phaseOf a))) 3) by (eapply turn_bnd, b_wrap; bb).
  pose proof (b_rand (d 0%nat)) as R0. pose proof (b_rand (d 1%nat)) as R1. pose proof (b_rand (d 2%nat)) as R2.
  unfold applyAgent. cbv zeta. destruct (phaseAlign x).
  - destruct (_ >? _)%num; cbn [fst snd]; split; auto using fine_freq. ops. apply fine_freq. eapply fine_set2; [|exact H]. bb.
  - destruct (_ && negb _)%bool; cbn [fst snd].
    + split; auto. ops. eapply fine_set2; [|exact H]. bb.
    + set (sc' := if (_ && _)%bool then _ else _).
      assert (S' : bnd sc' 200).
      { unfold sc'. clear sc'. destruct (_ && _)%bool; auto. ops. apply (b_mul sc (flit 2 10) 200 0); auto; [lit|lia]. }
      clearbody sc'. destruct (_ >? _)%num; cbn [fst snd].
      * split; auto. unfold variationOf. ops. apply fine_freq. eapply fine_set2; [|exact H]. bb.
      * destruct (_ && _)%bool; cbn [fst snd]; split; auto using fine_freq. ops. apply fine_freq. eapply fine_set2; [|exact H]. bb.
Qed.
Lemma fine_agents x d l : ctx_ok x -> forall i sc, bnd sc 200 -> Forall agent_fine l -> Forall agent_fine (@applyLoop F NF x i d sc l).
Proof.
  intros C. induction l as [|a r IH]; intros i sc S H; cbn [applyLoop]; auto. inversion H as [|? ? Ha Hr]; subst.
  pose proof (fine_agent x i (d i) sc a C S Ha) as [A B]. destruct (applyAgent x i (d i) sc a) as [a' sc']. constructor; auto.
Qed.
Lemma b_scale x : ctx_ok x -> bnd (@adjustmentScale F NF x) 200.
Proof.
  intros [C Ta Co Pa No]. destruct C as [C1 _ _ _ _ _ _]. change (bnd (gv_scale (g_conv (ax_cfg x))) 60) in C1.
  unfold adjustmentScale. cbv zeta. ops.
  repeat match goal with |- bnd (if ?c then _ else _) _ => destruct c end; (eapply b_le; [bb|lia]).
Qed.
Lemma fine_apply cfg target cp coh var d l : cfg_moderate cfg -> bnd (tp_phase target) 60 -> bnd coh 60 ->
  bnd (@GetPhaseAdjustment F NF cp) 60 -> (Z.of_nat (List.length l) <= 2 ^ 53)%Z -> Forall agent_fine l ->
  Forall agent_fine (@applyPatternCompletion F NF cfg target cp coh var d l).
Proof.
  intros C Ta Co Pa L H. unfold applyPatternCompletion. destruct (_ && _)%bool; [now apply fine_scatters|]. cbv zeta.
  assert (K : ctx_ok (@applyCtx F NF cfg target cp coh var (List.length l))).
  { constructor; auto. cbn [applyCtx ax_norm]. ops.
    destruct (fofZ_fin (Z.of_nat (List.length l)) ltac:(lia)) as [A B]. destruct (fofZ_fin 100 ltac:(lia)) as [A' B'].
    assert (Q : bnd (fofZ (Z.of_nat (List.length l))) 53).
    { split; auto. rewrite B, Rabs_pos_eq by (apply IZR_le; lia). change (bpow radix2 53) with (IZR (2 ^ 53)). now apply IZR_le. }
    eapply b_le; [eapply b_min; [eapply (b_div _ _ 53); [exact Q|exact A'|rewrite B', Rabs_pos_eq; lra|lia]|lit|lia]|lia]. }
  apply fine_agents; auto using b_scale.
Qed.

(** The coherence, the mean and the completion. *)
Lemma b_coherence l : Forall agent_fine l -> (Z.of_nat (List.length l) <= 2 ^ 53)%Z -> bnd (@swarmCoherence F NF l) 60.
Proof.
  intros H L. destruct l as [|a r]; [unfold swarmCoherence; cbn [map MeasureCoherence]; ops; eapply b_le; [lit|lia]|].
  set (l := a :: r) in *. assert (T : Forall (fun a => in_turn (phaseOf a)) l) by (revert H; apply Forall_impl; intros ? []; auto).
  assert (E : @swarmCoherence F NF l = fdiv (fsqrt (fadd
     (fmul (fold_left (fun s a => fadd s (tcos tr (phaseOf a))) l (fofZ 0)) (fold_left (fun s a => fadd s (tcos tr (phaseOf a))) l (fofZ 0)))
     (fmul (fold_left (fun s a => fadd s (tsin tr (phaseOf a))) l (fofZ 0)) (fold_left (fun s a => fadd s (tsin tr (phaseOf a))) l (fofZ 0)))))
     (fofZ (Z.of_nat (List.length l)))).
  { unfold swarmCoherence, MeasureCoherence. rewrite map_length.
    assert (G : forall (f : F -> F) (m : list (Agent F)) s, fold_left (fun s p => fadd s (f p)) (map phaseOf m) s = fold_left (fun s a => fadd s (f (phaseOf a))) m s).
    { intros f m. induction m as [|b m IH]; intros s; cbn; auto. }
    change (map phaseOf l) with (phaseOf a :: map phaseOf r). cbv iota. change (phaseOf a :: map phaseOf r) with (map phaseOf l).
    cbv zeta. ops. change (@ncos F NF) with (tcos tr). change (@nsin F NF) with (tsin tr). change (@nsqrt F NF) with fsqrt.
    rewrite !G. reflexivity. }
  rewrite E. clear E. destruct (fofZ_fin 0 ltac:(lia)) as [F0 V0]. assert (B0 : Rabs (B2R (fofZ 0)) <= IZR 0) by (rewrite V0, Rabs_R0; lra).
  destruct (sum_bounded (tsin tr) (sane_sin tr SANE) l T (fofZ 0) 0 ltac:(lia) ltac:(lia) F0 B0) as [FS BS].
  destruct (sum_bounded (tcos tr) (sane_cos tr SANE) l T (fofZ 0) 0 ltac:(lia) ltac:(lia) F0 B0) as [FC BC].
  rewrite Z.add_0_l in *. set (c := fold_left _ l _) in FC, BC |- *. set (s := fold_left _ l (fofZ 0)) in FS, BS |- *. clearbody c s.
  assert (B53 : IZR (Z.of_nat (List.length l)) <= bpow radix2 53) by (change (bpow radix2 53) with (IZR (2 ^ 53)); now apply IZR_le).
  assert (Bc : bnd c 53) by (split; auto; lra). assert (Bs : bnd s 53) by (split; auto; lra).
  assert (SQ : forall z, bnd z 53 -> bnd (fmul z z) 106 /\ 0 <= B2R (fmul z z)).
  { intros z Bz. split; [apply (b_mul z z 53 53); auto; lia|]. destruct Bz as [Fz Bz].
    destruct (fmul_fin z z Fz Fz) as [_ V].
    - rewrite Rabs_mult. apply Rle_trans with (bpow radix2 53 * bpow radix2 53); [apply Rmult_le_compat; auto using Rabs_pos|].
      rewrite <- bpow_plus. apply bpow_le. lia.
    - rewrite V. apply rnd_ge_0. apply Rle_0_sqr. }
  destruct (SQ c Bc) as [C1 C2]. destruct (SQ s Bs) as [S1 S2].
  assert (A : bnd (fadd (fmul c c) (fmul s s)) 107) by (apply (b_add _ _ 106 106); auto; lia).
  assert (A' : 0 <= B2R (fadd (fmul c c) (fmul s s)) <= bpow radix2 107).
  { destruct C1 as [F1 X1], S1 as [F2 X2]. split.
    - destruct (fadd_fin _ _ F1 F2) as [_ V].
      + eapply Rle_trans; [apply Rabs_triang|]. apply Rle_trans with (bpow radix2 107); [|apply bpow_le; lia].
        replace 107%Z with (106 + 1)%Z by lia. rewrite bp_2. lra.
      + rewrite V. apply rnd_ge_0. lra.
    - destruct A as [_ A]. apply Rabs_le_inv in A. lra. }
  assert (Q : bnd (fsqrt (fadd (fmul c c) (fmul s s))) 54).
  { destruct (b_sqrt _ 107 A (proj1 A') ltac:(lia)) as [Fq _]. split; auto.
    unfold fsqrt. destruct (Bsqrt_correct 53 1024 _ _ mode_NE (fadd (fmul c c) (fmul s s))) as (V & _). rewrite V.
    apply rnd_bnd; [lia|]. rewrite Rabs_pos_eq by apply sqrt_pos.
    rewrite <- (sqrt_square (bpow radix2 54)) by apply bpow_ge_0. apply sqrt_le_1_alt. rewrite <- bpow_plus.
    eapply Rle_trans; [apply A'|apply bpow_le; lia]. }
  assert (L1 : (1 <= Z.of_nat (List.length l))%Z) by (unfold l; cbn [List.length]; lia).
  destruct (fofZ_fin (Z.of_nat (List.length l)) ltac:(lia)) as [Fn Vn].
  eapply b_le; [apply (b_div _ _ 54); [exact Q|exact Fn|rewrite Vn, Rabs_pos_eq; apply IZR_le in L1; lra|lia]|lia].
Qed.
Lemma b_pd a b k : bnd a k -> bnd b k -> (0 <= k <= 900)%Z -> bnd (@PhaseDifference F NF a b) 2.
Proof.
  intros A B K. unfold PhaseDifference. cbv zeta. ops. change (@nhalfpi F NF) with fhalfpi.
  destruct (b_sub a b k k A B ltac:(lia)) as [D _].
  assert (Lit : forall x, (is_finite x && fle (fofZ (-4)) x && fle x (fofZ 4) = true)%bool -> bnd x 2).
  { intros x H. apply andb_prop in H. destruct H as [H C]. apply andb_prop in H. destruct H as [E G].
    split; auto. apply fle_true in G. apply fle_true in C. rewrite ford_fofZ, (ford_fin x E) in G, C by lia.
    change (bpow radix2 2) with (IZR 4). apply Rabs_le. lra. }
  destruct (_ && _)%bool; [apply Lit; vm_compute; reflexivity|].
  destruct (_ && _)%bool; [apply Lit; vm_compute; reflexivity|].
  change (@natan2 F NF) with (tatan2 tr). change (@nsin F NF) with (tsin tr). change (@ncos F NF) with (tcos tr).
  destruct (sane_sin tr SANE _ D) as [F1 _]. destruct (sane_cos tr SANE _ D) as [F2 _].
  destruct (sane_atan2 tr SANE _ _ F1 F2) as [F3 B3]. split; auto.
  destruct b_pi as [_ Q]. eapply Rle_trans; [exact B3|]. apply Rabs_le_inv in Q. lra.
Qed.
Lemma b_mean l : Forall agent_fine l -> (Z.of_nat (List.length l) <= 2 ^ 53)%Z -> l <> [] -> bnd (@meanPhase F NF l) 2.
Proof.
  intros H L NE. assert (T : Forall (fun a => in_turn (phaseOf a)) l) by (revert H; apply Forall_impl; intros ? []; auto).
  destruct (mean_sane tr l SANE NE T L) as [A B]. split; [exact A|]. destruct b_pi as [_ Q].
  eapply Rle_trans; [exact B|]. apply Rabs_le_inv in Q. lra.
Qed.
Lemma b_system l l' : Forall agent_fine l -> (Z.of_nat (List.length l) <= 2 ^ 53)%Z -> bnd (tp_phase (@measureSystemPattern F NF l l')) 2.
Proof.
  intros H L. destruct l as [|a r]; [cbn [measureSystemPattern tp_phase]; ops; eapply b_le; [lit|lia]|].
  cbn [measureSystemPattern tp_phase]. apply b_mean; auto. discriminate.
Qed.

(** A completed pattern: the base is the current pattern, the completed phase (if any) is in range. *)
Definition cp_ok (cur : TargetPattern F) (c : Completed F) : Prop :=
  cp_base c = cur /\ match cp_phase c with Some p => bnd p 3 | None => True end.
Definition gap_ok (cur : TargetPattern F) (g : PatternGap F) : Prop :=
  gap_type g = GapPhase -> gap_current g = tp_phase cur /\ bnd (gap_target g) 60 /\ bnd (gap_severity g) 2.
Lemma gaps_ok cur target : bnd (tp_phase cur) 2 -> bnd (tp_phase target) 60 -> Forall (gap_ok cur) (@IdentifyGaps F NF cur target).
Proof.
  intros A B. unfold IdentifyGaps. cbv zeta. rewrite !Forall_app. split; [|split].
  - destruct (_ >? _)%num; constructor; [|constructor]. intros _. cbn [gap_current gap_target gap_severity]. split; [reflexivity|]. split; [exact B|].
    ops. change (@npi F NF) with (fhalfpi 2). apply b_div.
    + apply b_abs. apply (b_pd _ _ 60); [exact B|eapply b_le; [exact A|lia]|lia].
    + reflexivity.
    + assert (H : fle (fofZ 1) (fhalfpi 2) = true) by (vm_compute; reflexivity). apply fle_true in H.
      rewrite ford_fofZ, ford_fin in H by (reflexivity || lia). rewrite Rabs_pos_eq; lra.
    + lia.
  - destruct (_ && _)%bool; [|constructor]. destruct (_ >? _)%num; constructor; [|constructor]. intros X. discriminate X.
  - destruct (_ <? _)%num; constructor; [|constructor]. intros X. discriminate X.
Qed.
Lemma interp_ok cur gaps : bnd (tp_phase cur) 2 -> Forall (gap_ok cur) gaps -> forall c, cp_ok cur c -> cp_ok cur (fold_left (@interpolateGap F NF) gaps c).
Proof.
  intros A H. induction H as [|g r G Hr IH]; intros c C; cbn [fold_left]; auto. apply IH. destruct C as [C1 C2].
  unfold interpolateGap. cbv zeta. destruct (gap_type g) eqn:E; try (split; assumption). destruct (G E) as (G1 & G2 & G3).
  split; [exact C1|]. cbn [cp_phase]. rewrite G1. apply turn_bnd. ops.
  assert (PD : bnd (@PhaseDifference F NF (gap_target g) (tp_phase cur)) 2) by (apply (b_pd _ _ 60); [exact G2|eapply b_le; [exact A|lia]|lia]).
  eapply b_wrap. bb.
Qed.
Lemma template_ok cur t gaps : bnd (tp_phase cur) 2 -> bnd (tp_phase t) 60 -> Forall (gap_ok cur) gaps ->
  forall c, match c with Some c => cp_ok cur c | None => True end ->
  match fold_left (@templateGap F NF cur t) gaps c with Some c => cp_ok cur c | None => True end.
Proof.
  intros A B H. induction H as [|g r G Hr IH]; intros c C; cbn [fold_left]; auto. apply IH.
  destruct c as [c|]; cbn [templateGap]; auto. destruct C as [C1 C2].
  destruct (gap_type g) eqn:E; try (split; assumption).
  - destruct (G E) as (G1 & G2 & G3). split; [exact C1|]. cbn [cp_phase]. unfold blendPhase. ops. apply turn_bnd.
    assert (PD : bnd (@PhaseDifference F NF (tp_phase t) (tp_phase cur)) 2) by (apply (b_pd _ _ 60); [exact B|eapply b_le; [exact A|lia]|lia]).
    eapply b_wrap. bb.
  - destruct (tp_wave t); [split; assumption|]. destruct (morphWaveform _ _ _); cbn [option_map]; auto. split; assumption.
Qed.
Lemma best_in cur thr ts : forall acc t, fst (fold_left (@bestStep F NF cur thr) ts acc) = Some t ->
  fst acc = Some t \/ exists n, In (n, Some t) ts.
Proof.
  induction ts as [|[n q] ts IH]; intros acc t H; cbn [fold_left] in H; auto.
  destruct (IH _ _ H) as [E|[m E]]; [|right; exists m; now right].
  unfold bestStep in E. cbn [snd] in E. destruct (_ && _)%bool; cbn [fst] in E; auto. subst q. right. exists n. now left.
Qed.
Lemma add_template (e : Engine F) name q n t : In (n, Some t) (en_templates (AddTemplate e name q)) -> In (n, Some t) (en_templates e) \/ q = Some t.
Proof.
  unfold AddTemplate. cbn [en_templates]. intros H. apply in_app_or in H. destruct H as [H|[H|[]]].
  - apply filter_In in H. left. apply H.
  - apply pair_equal_spec in H. right. apply H.
Qed.
Lemma default_templates n t : In (n, Some t) (en_templates (@defaultEngine F NF)) -> tp_phase t = fofZ 0.
Proof.
  unfold defaultEngine, LoadDefaultTemplates. cbv zeta. intros H.
  apply add_template in H. destruct H as [H|H]; [|apply (f_equal (option_map (@tp_phase F))) in H; injection H as <-; reflexivity].
  apply add_template in H. destruct H as [H|H]; [|apply (f_equal (option_map (@tp_phase F))) in H; injection H as <-; reflexivity].
  apply add_template in H. destruct H as [H|H]; [|apply (f_equal (option_map (@tp_phase F))) in H; injection H as <-; reflexivity].
  destruct H.
Qed.
Lemma completion_ok e cur gaps cp : bnd (tp_phase cur) 2 -> Forall (gap_ok cur) gaps ->
  (forall n t, In (n, Some t) (en_templates e) -> tp_phase t = fofZ 0) ->
  @CompletePattern F NF e cur gaps = Some cp -> cp_ok cur cp.
Proof.
  intros A H T E. unfold CompletePattern in E. destruct (findBestTemplate e (Some cur)) as [t|] eqn:Et.
  - assert (K : match fold_left (@templateGap F NF cur t) gaps (Some (emptyCompleted cur)) with Some c => cp_ok cur c | None => True end).
    { apply template_ok; auto.
      + unfold findBestTemplate in Et. apply best_in in Et. destruct Et as [X|[n X]]; [discriminate|]. rewrite (T n t X). eapply b_le; [lit|lia].
      + split; [reflexivity|exact I]. }
    rewrite E in K. exact K.
  - injection E as <-. apply interp_ok; auto. split; [reflexivity|exact I].
Qed.
Lemma b_padj cur cp : bnd (tp_phase cur) 2 -> cp_ok cur cp -> bnd (@GetPhaseAdjustment F NF cp) 60.
Proof.
  intros A [B C]. unfold GetPhaseAdjustment. destruct (cp_phase cp) as [p|].
  - rewrite B. eapply b_le; [apply (b_pd _ _ 3); [exact C|eapply b_le; [exact A|lia]|lia]|lia].
  - ops. eapply b_le; [lit|lia].
Qed.

(** Stochastic resonance. *)
Lemma nthZ_in {A} (l : list A) i a : nthZ l i = Some a -> In a l.
Proof. unfold nthZ. destruct (i <? 0)%Z; [discriminate|]. apply nth_error_In. Qed.
Lemma setnth_Forall {A} (P : A -> Prop) a (l : list A) : forall i l', setnth l i a = Some l' -> P a -> Forall P l -> Forall P l' /\ List.length l' = List.length l.
Proof.
  induction l as [|x r IH]; intros i l' E Pa H; [discriminate E|]. inversion H as [|? ? Hx Hr]; subst.
  destruct i as [|i]; cbn [setnth] in E.
  - injection E as <-. split; [now constructor|reflexivity].
  - destruct (setnth r i a) as [r'|] eqn:E'; [|discriminate]. injection E as <-. destruct (IH i r' E' Pa Hr) as [U V].
    split; [now constructor|cbn; now rewrite V].
Qed.
Lemma fine_noise cfg b a : cfg_moderate cfg -> agent_fine a -> agent_fine (@noiseAgent F NF cfg b a).
Proof.
  intros C H. pose proof (turn_bnd _ (proj1 H)) as P. pose proof (b_rand b) as R. pose proof (md_noise _ C) as No.
  change (bnd (gr_noise (g_res cfg)) 60) in No. unfold noiseAgent. ops. eapply fine_set2; [|exact H]. bb.
Qed.
Lemma fine_resonance cfg ord bytes noise : cfg_moderate cfg ->
  (forall k l, Forall agent_fine l -> Forall agent_fine (ord k l)) ->
  forall todo k l l', Forall agent_fine l -> @resonanceLoop F NF cfg ord bytes noise k todo l = Some l' -> Forall agent_fine l'.
Proof.
  intros C O. induction todo as [|t IH]; intros k l l' H E; cbn [resonanceLoop] in E; [now injection E as <-|].
  destruct (Intn _ _) as [idx| |]; try discriminate E. eapply IH; [|exact E]. clear E.
  pose proof (O k l H) as H'. destruct (nthZ (ord k l) idx) as [a|] eqn:Ea; [|exact H'].
  destruct (setZ (ord k l) idx _) as [q|] eqn:Eq; [|exact H']. unfold setZ in Eq. destruct (idx <? 0)%Z; [discriminate|].
  eapply setnth_Forall; [exact Eq| |exact H']. apply fine_noise; auto. apply nthZ_in in Ea. rewrite Forall_forall in H'. auto.
Qed.

(** ** C32: ranges *)
(** A round keeps every phase in [0, 2 pi) and every frequency positive, for every population up to 2^53 agents, every
    target of moderate phase, every random draw and every interference between the traversals that does the same. *)
Theorem C32_round_range : forall cfg target e s s' b, cfg_moderate cfg -> moderate (tp_phase target) -> env_fine e ->
  (Z.of_nat (List.length (ss_agents s)) <= 2 ^ 53)%Z -> Forall agent_fine (ss_agents s) ->
  @round F NF cfg target e s = Some (s', b) -> Forall agent_fine (ss_agents s').
Proof.
  intros cfg target e s s' b C Ta [V Ln Tm] L H R. change (bnd (tp_phase target) 60) in Ta.
  unfold round in R. cbv zeta in R.
  pose proof (V 0%nat _ H) as H0. assert (L0 : (Z.of_nat (List.length (ev_view e 0 (ss_agents s))) <= 2 ^ 53)%Z) by now rewrite Ln.
  set (ag0 := ev_view e 0 (ss_agents s)) in *.
  pose proof (V 1%nat _ H0) as H1. assert (L1 : (Z.of_nat (List.length (ev_view e 1 ag0)) <= 2 ^ 53)%Z) by now rewrite Ln.
  set (ag1 := ev_view e 1 ag0) in *.
  pose proof (V 2%nat _ H1) as H2. assert (L2 : (Z.of_nat (List.length (ev_view e 2 ag1)) <= 2 ^ 53)%Z) by now rewrite Ln.
  set (ag2 := ev_view e 2 ag1) in *.
  pose proof (V 3%nat _ H2) as H3. assert (L3 : (Z.of_nat (List.length (ev_view e 3 ag2)) <= 2 ^ 53)%Z) by now rewrite Ln.
  set (ag3 := ev_view e 3 ag2) in *.
  pose proof (V 4%nat _ H3) as H4. assert (L4 : (Z.of_nat (List.length (ev_view e 4 ag3)) <= 2 ^ 53)%Z) by now rewrite Ln.
  set (ag4 := ev_view e 4 ag3) in *.
  pose proof (V 5%nat _ H4) as H5. assert (L5 : (Z.of_nat (List.length (ev_view e 5 ag4)) <= 2 ^ 53)%Z) by now rewrite Ln.
  set (ag5 := ev_view e 5 ag4) in *.
  pose proof (V 6%nat _ H5) as H6. assert (L6 : (Z.of_nat (List.length (ev_view e 6 ag5)) <= 2 ^ 53)%Z) by now rewrite Ln.
  set (ag6 := ev_view e 6 ag5) in *.
  pose proof (V 7%nat _ H6) as H7. assert (L7 : (Z.of_nat (List.length (ev_view e 7 ag6)) <= 2 ^ 53)%Z) by now rewrite Ln.
  set (ag7 := ev_view e 7 ag6) in *.
  pose proof (b_system ag0 ag1 H0 L0) as Bc. set (cur := measureSystemPattern ag0 ag1) in *.
  destruct (isPatternAchieved cfg target ag3 cur); [injection R as <- _; exact H3|].
  destruct (if ShouldSwitchStrategy _ then _ else _) as [[perf' cur']|]; [|discriminate R].
  destruct (CompletePattern _ _ _) as [cp|] eqn:Ec; [|discriminate R].
  assert (Cp : cp_ok cur cp).
  { eapply completion_ok; [exact Bc|apply gaps_ok; [exact Bc|exact Ta]| |exact Ec].
    cbn [en_templates]. intros n t X. apply (default_templates n t). exact (Tm _ _ X). }
  destruct (MeasurePhaseVariance _ ag6) as [var|]; [|discriminate R].
  pose proof (fine_apply cfg target cp (swarmCoherence ag5) var (ev_draw e) ag7 C Ta (b_coherence ag5 H5 L5) (b_padj cur cp Bc Cp) L7 H7) as H7'.
  set (ag7' := applyPatternCompletion _ _ _ _ _ _ ag7) in *. pose proof (V 8%nat _ H7') as H8. set (ag8 := ev_view e 8 ag7') in *.
  clearbody ag8. match type of R with match ?q with _ => _ end = _ => destruct q as [ag9|] eqn:E9 end; [|discriminate R].
  apply (f_equal (option_map (fun p => ss_agents (fst p)))) in R. cbn [option_map fst ss_agents] in R. injection R as <-.
  destruct (IsStuck _); [|injection E9 as <-; exact H8].
  eapply (fine_resonance cfg (fun k => ev_view e (9 + k))); [exact C| |exact H8|exact E9]. intros k l Hl. now apply V.
Qed.
Lemma len_scatter d l : forall i, List.length (@scatterLoop F NF i d l) = List.length l.
Proof. induction l as [|a r IH]; intros i; cbn [scatterLoop List.length]; auto. Qed.
Lemma len_apply x d l : forall i sc, List.length (@applyLoop F NF x i d sc l) = List.length l.
Proof.
  induction l as [|a r IH]; intros i sc; cbn [applyLoop]; auto. destruct (applyAgent _ _ _ _ _) as [a' sc']. cbn [List.length]. now rewrite IH.
Qed.
Lemma len_resonance cfg ord bytes noise : (forall k l, List.length (ord k l) = List.length l) ->
  forall todo k l l', @resonanceLoop F NF cfg ord bytes noise k todo l = Some l' -> List.length l' = List.length l.
Proof.
  intros O. induction todo as [|t IH]; intros k l l' E; cbn [resonanceLoop] in E; [now injection E as <-|].
  destruct (Intn _ _) as [idx| |]; try discriminate E. rewrite (IH _ _ _ E). clear E. rewrite <- (O k l).
  destruct (nthZ (ord k l) idx) as [a|]; [|reflexivity].
  destruct (setZ (ord k l) idx _) as [q|] eqn:Eq; [|reflexivity]. unfold setZ in Eq. destruct (idx <? 0)%Z; [discriminate|].
  eapply (setnth_Forall (fun _ => True)); [exact Eq|exact I|]. now apply Forall_forall.
Qed.
Lemma round_length : forall cfg target e s s' b, env_fine e -> @round F NF cfg target e s = Some (s', b) ->
  List.length (ss_agents s') = List.length (ss_agents s).
Proof.
  intros cfg target e s s' b [V Ln Tm] R. unfold round in R. cbv zeta in R.
  destruct (isPatternAchieved _ _ _ _); [injection R as <- _; cbn [ss_agents]; now rewrite !Ln|].
  destruct (if ShouldSwitchStrategy _ then _ else _) as [[perf' cur']|]; [|discriminate R].
  destruct (CompletePattern _ _ _) as [cp|]; [|discriminate R].
  destruct (MeasurePhaseVariance _ _) as [var|]; [|discriminate R].
  match type of R with match ?q with _ => _ end = _ => destruct q as [ag9|] eqn:E9 end; [|discriminate R].
  apply (f_equal (option_map (fun p => ss_agents (fst p)))) in R. cbn [option_map fst ss_agents] in R. injection R as <-.
  assert (H8 : forall l, List.length (ev_view e 8 l) = List.length l) by (intros; apply Ln).
  assert (K : forall c v d l, List.length (@applyPatternCompletion F NF cfg target cp c v d l) = List.length l).
  { intros. unfold applyPatternCompletion. destruct (_ && _)%bool; [apply len_scatter|apply len_apply]. }
  destruct (IsStuck _).
  - apply len_resonance in E9; [|intros; apply Ln]. now rewrite E9, H8, K, !Ln.
  - injection E9 as <-. now rewrite H8, K, !Ln.
Qed.
(** Any number of rounds keeps the ranges. *)
Theorem C32_rounds_range : forall cfg target es s s', cfg_moderate cfg -> moderate (tp_phase target) -> Forall env_fine es ->
  (Z.of_nat (List.length (ss_agents s)) <= 2 ^ 53)%Z -> Forall agent_fine (ss_agents s) ->
  @rounds F NF cfg target es s s' -> Forall agent_fine (ss_agents s').
Proof.
  intros cfg target es s s' C Ta E L H R. induction R as [s|e es s s1 s2 R1 R IH]; auto.
  inversion E as [|? ? E1 E2]; subst. apply IH; auto.
  - now rewrite (round_length _ _ _ _ _ _ E1 R1).
  - exact (C32_round_range _ _ _ _ _ _ C Ta E1 L H R1).
Qed.
(** The settings of every goal are moderate. *)
Theorem C32_presets_moderate : forall g, cfg_moderate (@For F NF g).
Proof.
  assert (K : forall x, (is_finite x && fle (fofZ (-1)) x && fle x (fofZ 1) = true)%bool -> moderate x).
  { intros x H. apply (b_le x 0 60); [now apply b_lit|lia]. }
  intros g. destruct g; constructor; apply K; vm_compute; reflexivity.
Qed.
End Float.

(** ** Non-vacuity *)
Definition plainAgent (p : F) : Agent F := mkAgent "a" (mkSD p (fofZ 100) (fofZ 0) 100000000) (mkBD (flit 5 10) (flit 2 10))
  (mkCtx 0 (fofZ 0) (fofZ 0) (fofZ 0) (fofZ 0)) 0 0 true true None None.
Definition plainEnv : Env F := mkEnv 0 (fun _ l => l) (fun l => l) (fun _ => 0%Z) (fun _ _ => 0%Z) (fun _ => []) (fun _ => 0%Z) 4.
Definition plainState : SyncState F := newSync [plainAgent (fofZ 0); plainAgent (fofZ 1)] (@NewConvergence F (FNum flatTrig) (mkState (fofZ 3) 100000000 (flit 9 10)) (flit 9 10) 0).
Definition plainTarget : TargetPattern F := mkTP (fofZ 3) 100000000 (fofZ 1) (flit 9 10) [] (flit 9 10).
Definition moved (r : option (SyncState F * bool)) : bool :=
  match r with Some (s, false) => forallb (fun a => negb (fle (phaseOf a) (fofZ 0) || (fle (fofZ 1) (phaseOf a) && fle (phaseOf a) (fofZ 1)))) (ss_agents s) | _ => false end.
(** Two agents at phases 0 and 1, target 3: the hypotheses hold and the round moves both. *)
Example C32_round_applies : trig_sane flatTrig /\ cfg_moderate (@For F (FNum flatTrig) ReachConsensus) /\ moderate (tp_phase plainTarget) /\ env_fine plainEnv /\
  Forall agent_fine (ss_agents plainState) /\
  moved (@round F (FNum flatTrig) (@For F (FNum flatTrig) ReachConsensus) plainTarget plainEnv plainState) = true.
Proof.
  split; [exact flat_sane|]. split; [apply C32_presets_moderate|]. split; [|split; [|split]].
  - apply (b_le (fofZ 3) 8); [apply b_lit8; vm_compute; reflexivity|lia].
  - constructor; auto.
  - assert (T : forall z, (0 <= z <= 1)%Z -> in_turn (fofZ z)).
    { intros z Hz. destruct (fofZ_fin z ltac:(lia)) as [A B]. split; [exact A|]. rewrite B.
      assert (H : flt (fofZ 1) (fhalfpi 4) = true) by (vm_compute; reflexivity). apply flt_true in H.
      rewrite ford_fofZ, ford_fin in H by (reflexivity || lia). destruct Hz as [Z1 Z2]. apply IZR_le in Z1, Z2. lra. }
    constructor; [split; [apply T; lia|reflexivity]|]. constructor; [split; [apply T; lia|reflexivity]|constructor].
  - vm_compute. reflexivity.
Qed.
Print Assumptions C32_round_range.
Print Assumptions C32_rounds_range.
Print Assumptions C32_presets_moderate.
