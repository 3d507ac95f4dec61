(** Property theorems C30 (reported convergence) and C34 (disruption). *)
From Coq Require Import ZArith Reals Psatz Bool List String Lia Permutation.
From Flocq Require Import Core.Core IEEE754.BinarySingleNaN.
From Verif Require Import Num F64 RealNum M_Core M_Random M_Agent M_Limits M_GoalConfig M_Monitor M_Swarm M_Sync M_Continuous
  L_F64 L_F64x L_Ford L_PhaseF L_Random L_TrigZero S_Agent S_Swarm S_Sync P_Swarm P_Sync P_Core.
Import ListNotations.
Open Scope Z_scope.

(** * C30 *)
(** Nothing in the library feeds the swarm's convergence monitor: whatever a program does with a swarm, IsConverged()
    answers false and CurrentCoherence() 0. *)
Lemma round_cm {T} {N : Num T} cfg target e (s s' : SyncState T) b : round cfg target e s = Some (s', b) -> ss_cm s' = ss_cm s.
Proof.
  unfold round. cbv zeta. intros H.
  repeat match type of H with context [match ?x with _ => _ end] => destruct x eqn:?; try discriminate H end;
  injection H as <- _; reflexivity.
Qed.
Lemma sync_cm {T} {N : Num T} cfg target m evs : forall k (s : SyncState T), ss_cm (snd (syncLoop cfg target m k evs s)) = ss_cm s.
Proof.
  induction evs as [|[|e] evs IH]; intros k s; cbn [syncLoop]; destruct (k <? m); try reflexivity.
  destruct (round cfg target e s) as [[s' []]|] eqn:E; cbn [snd]; eauto using round_cm.
  rewrite IH. eauto using round_cm.
Qed.
Theorem C30_never_reported_refuted : forall {T} {N : Num T} (sw : Swarm T) now st ops, startState now sw = Some st ->
  let st' := fold_left libStep ops st in IsConverged st' = false /\ CurrentCoherence st' = n0.
Proof.
  intros T N sw now st ops S. cbv zeta.
  assert (G : forall s : SyncState T, cm_conv (ss_cm s) = None /\ cm_hist (ss_cm s) = [] ->
    cm_conv (ss_cm (fold_left libStep ops s)) = None /\ cm_hist (ss_cm (fold_left libStep ops s)) = []).
  { induction ops as [|o ops IH]; intros s H; cbn [fold_left]; auto. apply IH.
    destruct o as [target maxIter cfg evs|t|t|f]; cbn [libStep]; try exact H; try (split; reflexivity).
    rewrite sync_cm. exact H. }
  unfold startState in S. destruct (Agents sw); [|discriminate]. injection S as S.
  destruct (G st) as [A B]; [rewrite <- S; split; reflexivity|]. unfold IsConverged, CurrentCoherence, CMIsConverged, CMCurrent. rewrite A, B. auto.
Qed.
Definition silent (tr : Trig) (r : NewRes F) : bool :=
  match r with
  | NewOK s =>
    match @startState F (FNum tr) 0 s with
    | Some st =>
      match Run tr (@syncConfig F (FNum tr) s) (s_goal s) [Tick quietEnv] st with
      | (SNil, k, st') => Z.eqb k 1 && fle (st_coh (s_goal s)) (@swarmCoherence F (FNum tr) (ss_agents st')) && negb (IsConverged st') &&
          feq (@CurrentCoherence F (FNum tr) st') (fofZ 0)
      | _ => false
      end
    | None => false
    end
  | _ => false
  end.
(** REFUTED with a successful run of a swarm built by New: the agents' coherence is at least the target (in fact 1), the run
    returned nil, and yet IsConverged() is false and CurrentCoherence() is 0. *)
Theorem C30_success_not_reported_refuted : forall tr, trig_zero tr -> exists s st evs st',
  zeroSwarm tr = NewOK s /\ @startState F (FNum tr) 0 s = Some st /\
  Run tr (@syncConfig F (FNum tr) s) (s_goal s) evs st = (SNil, 1, st') /\
  fle (st_coh (s_goal s)) (@swarmCoherence F (FNum tr) (ss_agents st')) = true /\
  IsConverged st' = false /\ feq (@CurrentCoherence F (FNum tr) st') (fofZ 0) = true.
Proof.
  intros tr Z.
  assert (Q : silent tr (zeroSwarm tr) = true) by (rewrite (at0_id tr Z); vm_compute; reflexivity).
  revert Q. generalize (zeroSwarm tr). intros r Q. unfold silent in Q.
  destruct r as [| | |s]; [discriminate Q|discriminate Q|discriminate Q|]. destruct (@startState F (FNum tr) 0 s) as [st|] eqn:EST; [|discriminate Q].
  destruct (Run tr _ _ [Tick quietEnv] st) as [[res k] st'] eqn:ER. destruct res; [|discriminate Q|discriminate Q|discriminate Q|discriminate Q].
  rewrite !andb_true_iff, negb_true_iff, Z.eqb_eq in Q. destruct Q as [[[-> Q1] Q2] Q3].
  exists s, st, [Tick quietEnv], st'. exact (conj eq_refl (conj EST (conj ER (conj Q1 (conj Q2 Q3))))).
Qed.
Example C30_hypothesis_example : trig_zero flatTrig. Proof. exact flat_zero. Qed.

(** * C34 *)
(** What disrupting [l1] with the draws d 0, d 1, ... means: the agent keeps its ID and everything except its phase,
    which becomes the next random phase. *)
Fixpoint scattered {T} {N : Num T} (d : nat -> Z) (i : nat) (l l' : list (string * Agent T)) : Prop :=
  match l, l' with
  | [], [] => True
  | (k, a) :: r, (k', a') :: r' => k' = k /\
      a' = mkAgent (ag_id a) (mkSD (WrapPhase (RandPhase (d i))) (sd_energy (ag_sd a)) (sd_goal (ag_sd a)) (sd_freq (ag_sd a)))
        (ag_bd a) (ag_ctx a) (ag_swarm a) (ag_maxn a) (ag_decider a) (ag_goalmgr a) (ag_res a) (ag_strat a) /\
      scattered d (S i) r r'
  | _, _ => False
  end.
(** A swarm of the map storage is disrupted in exactly min(count, n) agents, the others are untouched, and nothing else of
    the swarm changes. *)
Theorem C34_disrupt : forall {T} {N : Num T} (p : T) ord d (s : Swarm T), range_order ord ->
  let k := Z.min (Z.max 0 (disruptCount (s_size s) p)) (Z.of_nat (List.length (s_map s))) in
  exists hit hit' rest, Permutation (s_map s) (hit ++ rest) /\ Z.of_nat (List.length hit) = k /\ scattered d 0 hit hit' /\
    DisruptAgents p ord d s = set_map (hit' ++ rest) s.
Proof.
  intros T N p ord d s O. cbv zeta. pose proof (O (s_map s)) as PO.
  unfold DisruptAgents. rewrite (Permutation_length PO). set (c := disruptCount (s_size s) p). 
  assert (G : forall (l : list (string * Agent T)) i, 0 <= i -> exists hit hit' rest, l = hit ++ rest /\
     Z.of_nat (List.length hit) = Z.min (Z.max 0 (c - i)) (Z.of_nat (List.length l)) /\
     scattered d (Z.to_nat i) hit hit' /\ disruptLoop c i d l = hit' ++ rest).
  { induction l as [|[k a] l IH]; intros i Hi; cbn [disruptLoop].
    - exists [], [], []. cbn. split; [auto|split; [lia|auto]].
    - destruct (Z.geb_spec i c) as [G|G].
      + exists [], [], ((k, a) :: l). split; auto. split; [cbn [List.length]; lia|]. split; cbn; auto.
      + destruct (IH (i + 1) ltac:(lia)) as (hit & hit' & rest & E1 & E2 & E3 & E4).
        exists ((k, a) :: hit), ((k, SetPhase (RandPhase (d (Z.to_nat i))) a) :: hit'), rest.
        split; [cbn; congruence|]. split; [cbn [List.length]; lia|]. split; [|rewrite E4; reflexivity].
        cbn [scattered]. split; auto. split; [reflexivity|]. replace (S (Z.to_nat i)) with (Z.to_nat (i + 1)) by lia. exact E3. }
  destruct (G (ord (s_map s)) 0 ltac:(lia)) as (hit & hit' & rest & E1 & E2 & E3 & E4).
  exists hit, hit', rest. rewrite Z.sub_0_r in E2. rewrite E1 in PO at 1. split; [exact PO|]. split; [exact E2|]. split; [exact E3|]. now rewrite E4.
Qed.

(** Exact arithmetic: the count is floor(p * n), clamped. *)
Theorem C34_count_real : forall n p, 0 <= n ->
  @disruptCount R RNum n p = (if Rle_dec p 0 then 0 else if Rle_dec 1 p then n else Zfloor (p * IZR n)).
Proof.
  intros n p Hn. unfold disruptCount. cbn [nlt nmul nofZ ntrunc RNum n0 n1 nlit]. unfold n0, n1. cbn [nofZ RNum].
  assert (0 <= IZR n)%R by (apply IZR_le; auto).
  repeat match goal with |- context [Rlt_bool ?a ?b] => destruct (Rlt_bool_spec a b) end;
  repeat match goal with |- context [Rle_dec ?a ?b] => destruct (Rle_dec a b) end; try lra.
  - rewrite Rmult_0_r. apply Ztrunc_IZR.
  - rewrite Rmult_1_r. apply Ztrunc_IZR.
  - assert (p = 0%R) by lra. subst. rewrite Rmult_0_r. apply Ztrunc_IZR.
  - assert (p = 1%R) by lra. subst. rewrite Rmult_1_r. apply Ztrunc_IZR.
  - rewrite Ztrunc_floor by nra. now rewrite Rmult_comm.
Qed.

Section C34.
Variable tr : Trig.
Local Instance NF : Num F := FNum tr.
Local Notation count := (@disruptCount F NF).

(** Floats: between the floor and the ceiling of p * n (the product is rounded), never more than n; 0 for p <= 0, n for
    p >= 1, and no agent at all for NaN. *)
Theorem C34_count_float : forall n (p : F), 0 <= n <= 2 ^ 53 ->
  (fle p (fofZ 0) = true -> count n p = 0) /\
  (fle (fofZ 1) p = true -> count n p = n) /\
  (is_finite p = true -> (0 <= B2R p <= 1)%R -> 0 <= count n p <= n /\ Zfloor (B2R p * IZR n) <= count n p <= Zceil (B2R p * IZR n)) /\
  (fisnan p = true -> count n p <= 0).
Proof.
  intros n p Hn. destruct (fofZ_fin n ltac:(lia)) as [Fn Vn]. destruct (fofZ_fin 0 ltac:(lia)) as [F0 V0]. destruct (fofZ_fin 1 ltac:(lia)) as [F1 V1].
  assert (N0 : (0 <= IZR n)%R) by (apply IZR_le; lia).
  assert (N1 : (IZR n <= IZR (2 ^ 53))%R) by (apply IZR_le; lia).
  assert (CORE : forall q : F, is_finite q = true -> (0 <= B2R q <= 1)%R -> let c := ftrunc (fmul (fofZ n) q) in
     0 <= c <= n /\ Zfloor (B2R q * IZR n) <= c <= Zceil (B2R q * IZR n)).
  { intros q Fq Hq. cbv zeta.
    assert (PB : (0 <= IZR n * B2R q <= IZR n)%R) by nra.
    destruct (fmul_fin (fofZ n) q Fn Fq) as [FM VM].
    { rewrite Vn, Rabs_pos_eq by lra. apply Rle_trans with (IZR (2 ^ 53)); [lra|].
      change (IZR (2 ^ 53)) with (bpow radix2 53). apply bpow_le. lia. }
    rewrite Vn in VM.
    assert (LO : (0 <= B2R (fmul (fofZ n) q))%R) by (rewrite VM; apply rnd_ge_0; lra).
    assert (HI : (B2R (fmul (fofZ n) q) <= IZR n)%R) by (rewrite VM; apply rnd_le_fmt; [apply fmt_IZR; lia|lra]).
    assert (TR : Ztrunc (B2R (fmul (fofZ n) q)) = Zfloor (B2R (fmul (fofZ n) q))) by (apply Ztrunc_floor; auto).
    assert (R0 : 0 <= Zfloor (B2R (fmul (fofZ n) q)) <= n).
    { split; [apply (Zfloor_lub 0); auto|]. apply le_IZR. eapply Rle_trans; [apply Zfloor_lb|auto]. }
    rewrite ftrunc_spec by (auto; rewrite TR; lia). rewrite TR. split; auto.
    rewrite (Rmult_comm (B2R q)).
    assert (FR : 0 <= Zfloor (IZR n * B2R q) <= n).
    { split; [apply (Zfloor_lub 0); lra|]. apply le_IZR. eapply Rle_trans; [apply Zfloor_lb|lra]. }
    assert (CR : 0 <= Zceil (IZR n * B2R q) <= n).
    { split; [|apply (Zceil_glb n); lra]. apply le_IZR. apply Rle_trans with (IZR n * B2R q)%R; [lra|apply Zceil_ub]. }
    split.
    - apply Zfloor_lub. rewrite VM. apply rnd_ge_fmt; [apply fmt_IZR; lia|apply Zfloor_lb].
    - apply le_IZR. eapply Rle_trans; [apply Zfloor_lb|]. rewrite VM. apply rnd_le_fmt; [apply fmt_IZR; lia|apply Zceil_ub]. }
  unfold disruptCount. change (@ntrunc F NF) with ftrunc. change (@nmul F NF) with fmul. change (@nlt F NF) with flt. change (@nofZ F NF) with fofZ.
  change (@n0 F NF) with (fofZ 0). change (@n1 F NF) with (fofZ 1).
  destruct (CORE (fofZ 0) F0 ltac:(rewrite V0; lra)) as [_ C0]. rewrite V0, Rmult_0_l in C0.
  change 0%R with (IZR 0) in C0. rewrite Zfloor_IZR, Zceil_IZR in C0.
  destruct (CORE (fofZ 1) F1 ltac:(rewrite V1; lra)) as [_ C1]. rewrite V1, Rmult_1_l in C1. rewrite Zfloor_IZR, Zceil_IZR in C1.
  split; [|split; [|split]].
  - intros H. destruct (flt p (fofZ 0)) eqn:E; [lia|].
    assert (E1 : flt (fofZ 1) p = false).
    { apply fle_not_lt. eapply fle_trans; [exact H|]. vm_compute; reflexivity. }
    rewrite E1. apply fle_true in H. destruct H as (NP & _ & H). rewrite ford_fofZ in H by lia.
    assert (FP : is_finite p = true).
    { destruct (not_nan_cases p NP) as [X|[[] ->]]; [exact X|vm_compute in E; discriminate E|cbn in H; pose proof BIG_pos; lra]. }
    rewrite ford_fin in H by auto.
    assert (B2R p = 0)%R.
    { apply Rle_antisym; auto. destruct (Rle_lt_dec 0 (B2R p)); auto. exfalso.
      assert (flt p (fofZ 0) = true) by (apply flt_true; rewrite ford_fofZ, ford_fin by (auto; lia); auto using fin_nan). congruence. }
    destruct (CORE p FP ltac:(lra)) as [_ C]. rewrite H0, Rmult_0_l in C. change 0%R with (IZR 0) in C. rewrite Zfloor_IZR, Zceil_IZR in C. lia.
  - intros H. destruct (flt p (fofZ 0)) eqn:E.
    { exfalso. assert (X : flt p (fofZ 1) = true) by (eapply L_Ford.flt_fle_trans; [exact E|vm_compute; reflexivity]).
      apply flt_not_le in X. congruence. }
    destruct (flt (fofZ 1) p) eqn:E1; [lia|].
    apply fle_true in H. destruct H as (_ & NP & H). rewrite ford_fofZ in H by lia.
    assert (FP : is_finite p = true).
    { destruct (not_nan_cases p NP) as [X|[[] ->]]; [exact X|cbn in H; pose proof BIG_pos; lra|vm_compute in E1; discriminate E1]. }
    rewrite ford_fin in H by auto.
    assert (B2R p = 1)%R.
    { apply Rle_antisym; auto. destruct (Rle_lt_dec (B2R p) 1); auto. exfalso.
      assert (flt (fofZ 1) p = true) by (apply flt_true; rewrite ford_fofZ, ford_fin by (auto; lia); auto using fin_nan). congruence. }
    destruct (CORE p FP ltac:(lra)) as [_ C]. rewrite H0, Rmult_1_l in C. rewrite Zfloor_IZR, Zceil_IZR in C. lia.
  - intros FP HP.
    assert (E : flt p (fofZ 0) = false /\ flt (fofZ 1) p = false).
    { split; apply fle_not_lt, fle_true; rewrite ford_fofZ, ford_fin by (auto; lia); repeat split; auto using fin_nan; lra. }
    destruct E as [-> ->]. now apply CORE.
  - intros NP. destruct p; try discriminate. cbn [flt]. 
    assert (E : flt B754_nan (fofZ 0) = false /\ flt (fofZ 1) B754_nan = false) by (split; vm_compute; reflexivity).
    destruct E as [-> ->]. replace (fmul (fofZ n) B754_nan) with (@B754_nan 53 1024) by (destruct (fofZ n); reflexivity).
    vm_compute. discriminate.
Qed.

(** The rounding can add one: for the float nearest 0.3 and 10 agents the exact product is below 3, the count is 3. *)
Theorem C34_count_rounding_refuted : exists n (p : F), is_finite p = true /\ (0 <= B2R p <= 1)%R /\ count n p = Zfloor (B2R p * IZR n) + 1.
Proof.
  exists 10, (flit 3 10).
  destruct (flit_fin 3 10 ltac:(lia) ltac:(lia)) as [FL _]. split; [exact FL|].
  assert (V : B2R (flit 3 10) = (IZR 5404319552844595 * bpow radix2 (-54))%R).
  { assert (E : B2SF (flit 3 10) = SpecFloat.S754_finite false 5404319552844595 (-54)) by (vm_compute; reflexivity).
    destruct (flit 3 10) as [| | |[] m e H]; try discriminate E. cbn in E. injection E as -> ->. unfold B2R, F2R. reflexivity. }
  assert (B : bpow radix2 (-54) = (/ IZR (2 ^ 54))%R) by reflexivity. rewrite B in V.
  assert (C : count 10 (flit 3 10) = 3) by (vm_compute; reflexivity). rewrite C.
  split; [rewrite V; split; [apply Rmult_le_pos; [apply IZR_le; lia|left; apply Rinv_0_lt_compat, IZR_lt; lia]|]|].
  - apply Rmult_le_reg_r with (IZR (2 ^ 54)); [apply IZR_lt; lia|]. rewrite Rmult_assoc, Rinv_l by (apply IZR_neq; lia). rewrite <- !mult_IZR. apply IZR_le. lia.
  - rewrite (Zfloor_imp 2); [reflexivity|]. rewrite V. change (2 + 1) with 3.
    assert (K : (IZR 5404319552844595 * / IZR (2 ^ 54) * 10 * IZR (2 ^ 54) = IZR 54043195528445950)%R).
    { replace (IZR 5404319552844595 * / IZR (2 ^ 54) * 10 * IZR (2 ^ 54))%R with (IZR 5404319552844595 * 10 * (/ IZR (2 ^ 54) * IZR (2 ^ 54)))%R by ring.
      rewrite Rinv_l by (apply IZR_neq; lia). rewrite Rmult_1_r, <- !mult_IZR. reflexivity. }
    split.
    + apply Rmult_le_reg_r with (IZR (2 ^ 54)); [apply IZR_lt; lia|]. rewrite K, <- mult_IZR. apply IZR_le. lia.
    + apply Rmult_lt_reg_r with (IZR (2 ^ 54)); [apply IZR_lt; lia|]. rewrite K, <- mult_IZR. apply IZR_lt. lia.
Qed.

(** A disrupted agent's phase is in [0, 2*math.Pi). *)
Theorem C34_new_phase : forall b, in_turn (@WrapPhase F NF (@RandPhase F NF b)).
Proof.
  intros b. destruct (RandPhase_ok tr b) as [A _].
  destruct (C01_wrap_float tr _ A) as (B & _ & C & _). split; auto.
Qed.

(** A swarm that New built with at most 100 agents: all of them are in the map. *)
Theorem C34_new_swarm : forall cpus size goal dr ro fl il s p ord d, New cpus size goal [] dr ro fl il = NewOK s -> size <= 100 -> range_order ord ->
  let k := Z.min (Z.max 0 (count size p)) size in
  exists m hit hit' rest, Agents s = Some m /\ Z.of_nat (List.length m) = size /\ Permutation m (hit ++ rest) /\ Z.of_nat (List.length hit) = k /\
    scattered d 0 hit hit' /\ Agents (DisruptAgents p ord d s) = Some (hit' ++ rest).
Proof.
  intros cpus size goal dr ro fl il s p ord d H L O. cbv zeta.
  destruct (C19_result tr cpus size goal dr ro fl il s H) as ((m & EA & LEN & _) & SZ & OPT & _).
  rewrite (proj2 (Z.ltb_ge 100 size) L) in OPT. unfold Size in SZ.
  assert (EA' := EA). unfold Agents in EA'. rewrite OPT in EA'. injection EA' as EM.
  destruct (C34_disrupt p ord d s O) as (hit & hit' & rest & P & K & S & D). rewrite SZ in K. rewrite EM in P, K. rewrite LEN in K.
  exists m, hit, hit', rest. fold NF in EA. repeat (split; [assumption|]).
  rewrite D. unfold Agents. cbn [set_map s_opt s_map]. now rewrite OPT.
Qed.
(** REFUTED above 100 agents: no agent changes, whatever the fraction. *)
Theorem C34_large_swarm_refuted : forall cpus size goal dr ro fl il s p ord d, New cpus size goal [] dr ro fl il = NewOK s -> 100 < size -> range_order ord ->
  Agents (DisruptAgents p ord d s) = Agents s.
Proof.
  intros cpus size goal dr ro fl il s p ord d H L O.
  destruct (C19_result tr cpus size goal dr ro fl il s H) as (_ & _ & OPT & _).
  rewrite (proj2 (Z.ltb_lt 100 size) L) in OPT.
  unfold DisruptAgents, Agents. cbn [set_map s_opt s_slice]. now rewrite OPT.
Qed.
(** Such swarms exist (the other hypotheses are not contradictory). *)
Theorem C34_large_swarm_exists : exists cpus size goal dr ro fl il s, @New F NF cpus size goal [] dr ro fl il = NewOK s /\ 100 < size.
Proof.
  set (r := @New F NF 8 101 okGoal [] dr0 (fun l => l) (repeat (fofZ 0) (Z.to_nat 10100)) []).
  assert (O : isOK r = true) by (vm_compute; reflexivity).
  destruct r as [| | |s] eqn:E; try discriminate O.
  exists 8, 101, okGoal, dr0, (fun l => l), (repeat (fofZ 0) (Z.to_nat 10100)), [], s. split; [exact E|lia].
Qed.
Example C34_new_swarm_example : exists s, @New F NF 8 2 zeroGoal [] dr0 (fun l => l) [fofZ 0; fofZ 0] [] = NewOK s /\ count 2 (flit 5 10) = 1.
Proof.
  set (r := @New F NF 8 2 zeroGoal [] dr0 (fun l => l) [fofZ 0; fofZ 0] []).
  assert (O : isOK r = true) by (vm_compute; reflexivity).
  destruct r as [| | |s] eqn:E; try discriminate O. exists s. split; auto.
Qed.
End C34.

Print Assumptions C30_never_reported_refuted.
Print Assumptions C30_success_not_reported_refuted.
Print Assumptions C34_disrupt.
Print Assumptions C34_count_real.
Print Assumptions C34_count_float.
Print Assumptions C34_count_rounding_refuted.
Print Assumptions C34_new_phase.
Print Assumptions C34_new_swarm.
Print Assumptions C34_large_swarm_refuted.
Print Assumptions C34_large_swarm_exists.
