(** Property theorems C13, C15-C18 (concurrent updates, neighbor storage, context, pooling,
    construction from configuration). *)
From Coq Require Import ZArith Reals Psatz Bool List String Lia.
From Flocq Require Import Core.Core IEEE754.BinarySingleNaN.
From Verif Require Import Num GoBase F64 RealNum S_Circle S_Agent S_Neighbors M_Core M_Random M_Resource M_Strategy M_Agent
  M_Neighbors M_Atomic M_Pool M_AgentConfig
  L_F64 L_PhaseF L_F64x L_State L_Circle L_Coherence L_Random L_Token L_Agent L_Neighbors L_Atomic L_Agent2.
Import ListNotations.
Open Scope R_scope.

(* ------------------------------------------------------------------ C13 *)

(** Whole values: in every interleaving each read returns exactly the value of the latest
    write before it (or the initial value); every written value is a Store argument or one
    update function applied to one value read by the same goroutine. *)
Theorem C13_reads_are_whole : forall (S : Type) (v0 : S) (progs : nat -> list (Cmd S)) (sched : list nat),
  let log := cf_log (run (start v0 progs) sched) in
  (forall later earlier i v, log = later ++ ERead i v :: earlier ->
     v = v0 /\ (forall j w, ~ In (EWrite j w) earlier) \/
     exists pre j post, earlier = pre ++ EWrite j v :: post /\ forall k w, ~ In (EWrite k w) pre) /\
  (forall i v, In (EWrite i v) log -> In (CStore v) (progs i) \/
     exists f g w, v = f w /\ (In (CUpdate f) (progs i) \/ In (CGuarded g f) (progs i)) /\ In (ERead i w) log).
Proof.
  intros S v0 progs sched. cbv zeta. split.
  - intros later earlier i v E. destruct (run_latest v0 progs sched) as [_ H]. rewrite E in H.
    apply reads_latest_app in H. subst v. clear E. induction earlier as [|e r IH]; [left; split; auto|].
    destruct e as [k w|k w|k]; cbn [latest].
    + destruct IH as [[A B]|(pre & j & post & A & B)]; [left; split; auto; intros j' w' [H|H]; [discriminate|eapply B; eauto]|].
      right. exists (ERead k w :: pre), j, post. split; [now rewrite A at 1|]. intros k' w' [H|H]; [discriminate|eapply B; eauto].
    + right. exists [], k, r. split; [reflexivity|intros ? ? []].
    + destruct IH as [[A B]|(pre & j & post & A & B)]; [left; split; auto; intros j' w' [H|H]; [discriminate|eapply B; eauto]|].
      right. exists (ERefused k :: pre), j, post. split; [now rewrite A at 1|]. intros k' w' [H|H]; [discriminate|eapply B; eauto].
  - apply (run_prov progs v0 sched).
Qed.
Print Assumptions C13_reads_are_whole.

(** The ranges of C07 hold of the shared state, and of every value anyone ever read, at every
    instant of every interleaving of any number of goroutines. *)
Theorem C13_ranges_always : forall (tr : Trig) id b1 b2 b3 (ops : nat -> list (StateOp F)) (sched : list nat),
  (forall i, Forall sop_fin (ops i)) ->
  let c := run (start (ag_sd (@NewAgent F (FNum tr) id b1 b2 b3 []))
                  (fun i => @opProg F (FNum tr) (ops i))) sched in
  let ok := fun s => in_turn (sd_phase s) /\ in_turn (sd_goal s) /\ nonneg (sd_energy s) in
  ok (cf_cell c) /\ forall i v, In (ERead i v) (cf_log c) -> ok v.
Proof.
  intros tr id b1 b2 b3 ops sched H. cbv zeta.
  assert (K : conf_ok sd_ok (run (start (ag_sd (@NewAgent F (FNum tr) id b1 b2 b3 []))
                  (fun i => @opProg F (FNum tr) (ops i))) sched)).
  { apply run_ok, start_ok; [|intros i; now apply opProg_ok].
    destruct (new_attrs_ok tr id b1 b2 b3) as [P G E _ _]. split; [exact P|split; [exact G|exact E]]. }
  destruct K as (A & _ & B). split; [exact A|]. intros i v Hv. apply (B i v). now left.
Qed.
Print Assumptions C13_ranges_always.

(** With a single updating goroutine nothing is lost, whatever the readers do. *)
Theorem C13_single_writer : forall (S : Type) (w : nat) (fs : list (S -> S)) (v0 : S)
  (progs : nat -> list (Cmd S)) (sched : list nat),
  progs w = map CUpdate fs -> (forall j, j <> w -> Forall (fun c => c = CLoad) (progs j)) ->
  let c := run (start v0 progs) sched in
  cf_threads c w = mkTh Idle [] -> cf_cell c = fold_left (fun s f => f s) fs v0.
Proof.
  intros S w fs v0 progs sched Hw Ho c E. apply (single_writer w fs v0 progs sched Hw Ho); fold c; now rewrite E.
Qed.
Print Assumptions C13_single_writer.

(** Two goroutines setting different attributes: whatever the attributes and values, some
    interleaving ends with the first update undone. *)
Theorem C13_lost_update_refuted : forall (S : Type) (f g : S -> S) (s : S),
  exists sched, let progs := fun i => match i with 0%nat => [CUpdate f] | 1%nat => [CUpdate g] | _ => [] end in
  let c := run (start s progs) sched in
  (forall i, cf_threads c i = mkTh Idle []) /\ cf_cell c = g s.
Proof.
  intros S f g s. exists [0; 1; 0; 1]%nat. cbn. split; [|reflexivity].
  intros [|[|i]]; reflexivity.
Qed.
Print Assumptions C13_lost_update_refuted.
(** Concretely: SetPhase(1) racing with SetEnergy(50) leaves the old phase 0. *)
Example C13_lost_phase :
  exists sched, let s := mkSD 0 100 0 0%Z in
  let c := run (start s (fun i => @opProg R RNum (match i with 0%nat => [RSetPhase 1] | 1%nat => [RSetEnergy 50] | _ => [] end))) sched in
  sd_phase (cf_cell c) = 0 /\ sd_energy (cf_cell c) = 50.
Proof.
  exists [0; 1; 0; 1]%nat. cbn -[IZR Rmax]. split; [reflexivity|]. apply Rmax_right. lra.
Qed.

(** Two concurrent actions, each of cost 60, both succeed on an agent with energy 100, and the
    energy ends at 40: paid once from the same energy. *)
Theorem C13_double_spend_refuted : exists (act : Action R) (sched : list nat),
  let s := mkSD 0 100 0 0%Z in
  let c := run (start s (fun i => @opProg R RNum (match i with 0%nat | 1%nat => [RApply act] | _ => [] end))) sched in
  ac_cost act = 60 /\ (forall i, cf_threads c i = mkTh Idle []) /\
  (exists v w, In (EWrite 0%nat v) (cf_log c) /\ In (EWrite 1%nat w) (cf_log c)) /\
  (forall i, ~ In (ERefused i) (cf_log c)) /\ sd_energy (cf_cell c) = 40.
Proof.
  exists (mkAction "maintain" 0 60 0), [0; 1; 0; 1; 0; 1]%nat. cbv zeta.
  assert (G : Rlt_bool 100 60 = false) by (apply Rlt_bool_false; lra).
  assert (M : Rmax 0 (100 - 60) = 40) by (rewrite Rmax_right; lra).
  unfold run. cbn -[IZR Rlt_bool Rmax]. rewrite G. cbn -[IZR Rlt_bool Rmax]. rewrite G. cbn -[IZR Rlt_bool Rmax].
  rewrite M. split; [reflexivity|]. split; [intros [|[|i]]; reflexivity|].
  split; [eexists; eexists; split; [right; left; reflexivity|left; reflexivity]|].
  split; [|reflexivity]. intros i H. repeat (destruct H as [H|H]; [discriminate|]). exact H.
Qed.
Print Assumptions C13_double_spend_refuted.
Example C13_hyp : forall i, Forall sop_fin (match i with 0%nat => [RSetPhase (fofZ 7); @RGet F] | _ => [RSetEnergy (fofZ (-3))] end).
Proof. intros [|i]; repeat constructor. Qed.

(* ------------------------------------------------------------------ C15 *)

(** Refinement: every sequence of calls on a fresh storage of any requested capacity runs
    without index panics and returns exactly what a bounded finite map returns; afterwards
    All, Range and Count enumerate that map without repetition. *)
Theorem C15_refines_bounded_map : forall (V : Type) (vnil : V) (cap : Z) (ops : list (NSOp V)),
  let c := if (cap <=? 0)%Z then 20%Z else cap in
  exists ns l, nsRun vnil (NewNeighborStorage vnil cap) ops = Some (ns, snd (specRun vnil c (@fm_empty V) ops)) /\
    enumerates l (fst (specRun vnil c (@fm_empty V) ops)) /\
    All ns = Some (map snd l) /\ Count ns = Z.of_nat (List.length l) /\ (Count ns <= c)%Z /\
    Range ns (fun _ _ => true) = Some l /\
    (forall f, exists v r, Range ns f = Some v /\ l = v ++ r).
Proof.
  intros V vnil cap ops c.
  assert (R0 : rel c (NewNeighborStorage vnil cap) (@fm_empty V)).
  { exists []. split; [apply new_repr|]. split; [|reflexivity].
    split; [constructor|split; [reflexivity|]]. intros id v. split; [intros []|discriminate]. }
  destruct (run_refines vnil c ops _ _ R0) as (ns & E & (l & Rl & El & Hc)).
  exists ns, l. split; [exact E|]. split; [exact El|]. split; [now apply all_spec|].
  split; [apply (rp_count _ _ Rl)|]. split.
  { unfold Count. rewrite (rp_count _ _ Rl). destruct (rp_rest _ _ Rl) as (r1 & r2 & _ & _ & H & _). lia. }
  split; [rewrite (range_spec _ _ _ Rl), visited_all; reflexivity|].
  intros f. destruct (visited_prefix f l) as [r Hr]. exists (visited f l), r. split; [now apply range_spec|exact Hr].
Qed.
Print Assumptions C15_refines_bounded_map.
(** The specification is the intended one: a run with overwrite, delete and refusal. *)
Example C15_spec_run :
  snd (specRun 0%Z 2 (@fm_empty Z)
    [NStore "a" 1%Z; NStore "b" 2%Z; NStore "c" 3%Z; NStore "a" 4%Z; NLoad "a"; NDelete "a"; NLoad "a"; NStore "c" 3%Z; NCount; NLoad "b"]%string)
  = [OBool true; OBool true; OBool false; OBool true; OVal 4%Z true; OUnit; OVal 0%Z false; OBool true; ONum 2; OVal 2%Z true].
Proof. reflexivity. Qed.

(* ------------------------------------------------------------------ C16 *)

(** Exact arithmetic; [nb] are the phases of the connected neighbors (any non-empty list). *)
Theorem C16_context : forall (nb : list R) (a : Agent R), nb <> [] ->
  let a' := @UpdateContext R RNum nb a in
  let my := sd_phase (ag_sd a) in
  let n := List.length nb in
  (* neighbor count and local coherence *)
  cx_neighbors (ag_ctx a') = Z.of_nat n /\
  cx_lc (ag_ctx a') = @MeasureCoherence R RNum nb /\ 0 <= cx_lc (ag_ctx a') <= 1 /\
  (* the goal lies part of the way (at least half) along the arc to the mean direction *)
  (exists t k, - PI < t <= PI /\ 1 / 2 <= k <= 1 /\ cong (sd_goal (ag_sd a')) (my + k * t) /\
     k = (1 + cx_lc (ag_ctx a')) / 2 /\ 0 <= sd_goal (ag_sd a') < 2 * PI /\
     rsum cos nb = INR n * cx_lc (ag_ctx a') * cos (my + t) /\
     rsum sin nb = INR n * cx_lc (ag_ctx a') * sin (my + t) /\ (cx_lc (ag_ctx a') = 0 -> t = 0)) /\
  (* density *)
  (let mx := if (ag_maxn a =? 0)%Z then (ag_swarm a - 1)%Z else ag_maxn a in
   cx_density (ag_ctx a') = INR n / IZR mx /\
   ((Z.of_nat n <= mx)%Z -> 0 <= cx_density (ag_ctx a') <= 1)) /\
  (* nothing else changes *)
  a' = set_ctx (ag_ctx a') (upd_sd (fun s => mkSD my (sd_energy s) (sd_goal (ag_sd a')) (sd_freq s)) a).
Proof.
  intros nb a Hn. cbv zeta.
  pose proof (mean_dir (sd_phase (ag_sd a)) nb Hn) as MD. cbv zeta in MD.
  pose proof (lc_eq (sd_phase (ag_sd a)) nb) as LC. pose proof (RMC_bounds nb) as HB.
  pose proof (INR_len_pos nb Hn) as Hp.
  destruct nb as [|x nb0]; [congruence|].
  unfold localCoherence in LC. unfold UpdateContext. rewrite LC. rewrite <- !sumCosD_R, <- !sumSinD_R in MD.
  remember (x :: nb0) as nb eqn:Enb.
  assert (EI : @nofZ R RNum (Z.of_nat (List.length nb)) = INR (List.length nb)) by (cbn [nofZ RNum]; now rewrite <- INR_IZR_INZ).
  rewrite EI. destruct MD as (M1 & M2 & M3 & M4).
  set (t := Ratan2 _ _) in *.
  split; [reflexivity|]. split; [reflexivity|]. split; [exact HB|]. split.
  { exists t, ((1 + @MeasureCoherence R RNum nb) / 2).
    cbn -[IZR INR Rlt_bool WrapPhase MeasureCoherence t RNum List.length rsum].
    split; [exact M1|]. split; [lra|]. split.
    - match goal with |- cong (@WrapPhase R RNum ?y) _ => pose proof (RWrap_spec y) as [_ W]; cbn [nadd nmul nlit natan2 RNum] in W |- *;
        match type of W with cong _ ?z => replace (sd_phase (ag_sd a) + (1 + @MeasureCoherence R RNum nb) / 2 * t) with z end end.
      + exact W.
      + match goal with |- context [Ratan2 ?u ?v] => change (Ratan2 u v) with t end. field.
    - split; [reflexivity|]. split; [apply RWrap_spec|]. auto. }
  split.
  { cbn [set_ctx ag_ctx cx_density upd_sd ag_maxn ag_swarm ndiv nofZ RNum].
    split; [reflexivity|]. intros H. assert (0 < IZR (if (ag_maxn a =? 0)%Z then (ag_swarm a - 1)%Z else ag_maxn a)).
    { apply IZR_lt. rewrite INR_IZR_INZ in Hp. apply lt_IZR in Hp. lia. }
    assert (INR (List.length nb) <= IZR (if (ag_maxn a =? 0)%Z then (ag_swarm a - 1)%Z else ag_maxn a)) by (rewrite INR_IZR_INZ; now apply IZR_le).
    split; [apply Rle_mult_inv_pos; lra|]. apply (Rmult_le_reg_r _ _ _ H0). unfold Rdiv. rewrite Rmult_assoc, Rinv_l by lra. lra. }
  reflexivity.
Qed.
Print Assumptions C16_context.

(** No neighbors: zero density and coherence, the attributes untouched. *)
Theorem C16_no_neighbors : forall (a : Agent R),
  @UpdateContext R RNum [] a = set_ctx (mkCtx 0 0 (5 / 10) 0 0) a.
Proof. reflexivity. Qed.
Print Assumptions C16_no_neighbors.

(** calculateLocalCoherence is the same number. *)
Theorem C16_local_coherence : forall (my : R) (nb : list R),
  @localCoherence R RNum my nb = @MeasureCoherence R RNum nb.
Proof. exact lc_eq. Qed.
Print Assumptions C16_local_coherence.

(** Density leaves [0,1]: negative for an agent made by New (swarm size 0), above 1 when there
    are more neighbors than assumed, and infinite for swarm size 1 (floats). *)
Theorem C16_density_refuted : forall (tr : Trig) id b1 b2 b3 (p q : R),
  cx_density (ag_ctx (@UpdateContext R RNum [p; q] (@NewAgent R RNum id b1 b2 b3 []))) = -2 /\
  cx_density (ag_ctx (@UpdateContext R RNum [p; q] (@NewAgent R RNum id b1 b2 b3 [WithSwarmInfo 10 1]))) = 2 /\
  forall u, cx_density (ag_ctx (@UpdateContext F (FNum tr) [u] (@NewAgent F (FNum tr) id b1 b2 b3 [WithSwarmInfo 1 0])))
            = B754_infinity false.
Proof.
  intros tr id b1 b2 b3 p q. repeat split.
  - cbn -[IZR]. lra.
  - cbn -[IZR]. lra.
Qed.
Print Assumptions C16_density_refuted.
Example C16_hyp : [1; 2] <> [] /\ (Z.of_nat (List.length [1; 2]) <= 10 - 1)%Z.
Proof. split; [discriminate|cbn; lia]. Qed.

(* ------------------------------------------------------------------ C17 *)

(** An agent obtained from the pool, whatever object the pool hands out: the given ID, energy
    100, period 100ms, influence in [0.1,0.2], stubbornness in [0,0.3], phase and goal in one
    turn, empty context, an empty neighbor map and a decision maker. *)
Theorem C17_reset_attributes : forall (tr : Trig) ch id b1 b2 b3 b4 s s' p,
  @Get F (FNum tr) ch id b1 b2 b3 b4 s = (s', Some p) ->
  let a := pa_ag p in
  ag_id a = id /\ sd_energy (ag_sd a) = fofZ 100 /\ sd_freq (ag_sd a) = 100000000%Z /\
  in_turn (sd_phase (ag_sd a)) /\ in_turn (sd_goal (ag_sd a)) /\
  (is_finite (bd_infl (ag_bd a)) = true /\ B2R (flit 1 10) <= B2R (bd_infl (ag_bd a)) <= B2R (flit 2 10)) /\
  (is_finite (bd_stub (ag_bd a)) = true /\ 0 <= B2R (bd_stub (ag_bd a)) <= B2R (flit 3 10)) /\
  ag_ctx a = @ctx0 F (FNum tr) /\ pa_map p = [] /\ ag_decider a = true.
Proof.
  intros tr ch id b1 b2 b3 b4 s s' p H. unfold Get in H.
  destruct (match ch with Some k => _ | None => _ end) as [a rest]. injection H as _ H.
  unfold Reset in H. destruct (pa_cells a); [|discriminate]. injection H as <-. cbv zeta. cbn [pa_ag ag_id ag_sd ag_bd sd_energy
    sd_freq sd_phase sd_goal bd_infl bd_stub ag_ctx pa_map ag_decider].
  split; [reflexivity|]. split; [reflexivity|]. split; [reflexivity|].
  split; [apply in_turn_eq, (RandPhase_ok tr)|]. split; [apply in_turn_eq, (RandPhase_ok tr)|].
  change (@nmul F (FNum tr)) with fmul. change (@nadd F (FNum tr)) with fadd. change (@nlit F (FNum tr)) with flit.
  destruct lit_pool as (L1 & L3 & V1 & V3 & V2).
  destruct (scaled_unit tr b3 (flit 1 10) L1 V1) as [S1 S2].
  destruct (scaled_unit tr b4 (flit 3 10) L3 V3) as [S3 S4].
  destruct (fadd_fin (flit 1 10) (fmul (@Float64 F (FNum tr) b3) (flit 1 10)) L1 S1) as [A1 A2].
  { rewrite Rabs_pos_eq by lra. apply Rle_trans with (bpow radix2 1); [|apply bpow_le; lia]. change (bpow radix2 1) with 2. lra. }
  split; [split; [exact A1|
    change (B2R (flit 1 10) <= B2R (fadd (flit 1 10) (fmul (@Float64 F (FNum tr) b3) (flit 1 10))) <= B2R (flit 2 10)); rewrite A2; split]|].
  - apply rnd_ge_fmt; [apply fmt_B2R|lra].
  - apply rnd_le_fmt; [apply fmt_B2R|lra].
  - repeat split; auto; apply S4.
Qed.
Print Assumptions C17_reset_attributes.

(** Statistics, after any history (gets served by any object, puts of anything, collections). *)
Theorem C17_stats : forall (T : Type) (N : Num T) (l : list (PoolOp T)),
  let s := poolRun l in
  pl_inUse s = (pl_gets s - pl_puts s)%Z /\ (pl_news s <= pl_gets s)%Z /\
  pl_gets s = Z.of_nat (List.length (filter (fun o => match o with POGet _ _ _ _ _ _ => true | _ => false end) l)) /\
  pl_puts s = Z.of_nat (List.length (filter (fun o => match o with POPut (Some _) => true | _ => false end) l)).
Proof. intros T N l. destruct (pool_stats l) as (A & B & _ & D & E). cbv zeta. repeat split; auto. lia. Qed.
Print Assumptions C17_stats.

(** The "news" counter never distinguishes a recycled agent from a new one: Put erases the ID,
    and an empty ID is what counts as new. *)
Theorem C17_news_counts_every_get_refuted : forall (T : Type) (N : Num T) (l : list (PoolOp T)),
  pl_news (poolRun l) = pl_gets (poolRun l).
Proof. intros T N l. apply (pool_stats l). Qed.
Print Assumptions C17_news_counts_every_get_refuted.

(** Get panics exactly when the object has no state cell: in particular whenever the pool has
    nothing recycled to offer. *)
Theorem C17_fresh_get_panics_refuted : forall (T : Type) (N : Num T) id b1 b2 b3 b4 (s : PoolState T),
  snd (Get None id b1 b2 b3 b4 s) = None /\
  (pl_items s = [] -> forall ch, snd (Get ch id b1 b2 b3 b4 s) = None).
Proof. intros T N id b1 b2 b3 b4 s. split; [reflexivity|]. intros E [k|]; [|reflexivity]. unfold Get. rewrite E. now destruct k. Qed.
Print Assumptions C17_fresh_get_panics_refuted.

(** A recycled agent keeps the neighbors of its optimised store, its token balance, its
    strategy, its goal manager and its swarm sizes. *)
Theorem C17_leftovers_refuted : forall (T : Type) (N : Num T) (p : PAgent T) id b1 b2 b3 b4 (s : PoolState T),
  pa_cells p = true ->
  exists s' q, Get (Some 0%nat) id b1 b2 b3 b4 (Put (Some p) s) = (s', Some q) /\
    pa_opt q = pa_opt p /\ ag_res (pa_ag q) = ag_res (pa_ag p) /\ ag_strat (pa_ag q) = ag_strat (pa_ag p) /\
    ag_goalmgr (pa_ag q) = ag_goalmgr (pa_ag p) /\
    ag_swarm (pa_ag q) = ag_swarm (pa_ag p) /\ ag_maxn (pa_ag q) = ag_maxn (pa_ag p).
Proof.
  intros T N p id b1 b2 b3 b4 s H. unfold Get, Put. cbn [pl_items nth_error]. unfold Reset, ClearAgent. cbn [pa_cells].
  rewrite H. eexists. eexists. split; [reflexivity|]. repeat split.
Qed.
Print Assumptions C17_leftovers_refuted.
Example C17_leftover_neighbor : exists s q,
  Get (Some 0%nat) "b" 1 2 3 4 (Put (Some (mkPA true (@NewAgent R RNum "a" 1 2 3 []) [] (Some ["x"%string]))) emptyPool) = (s, Some q)
  /\ pa_opt q = Some ["x"%string] /\ pa_map q = [].
Proof. eexists. eexists. split; [reflexivity|]. split; reflexivity. Qed.

(* ------------------------------------------------------------------ C18 *)

Theorem C18_error_iff : forall (T : Type) (N : Num T) id d (c : ACfg T),
  NewFromConfig id d c = None <->
  ~ (In (ac_dm c) [""; "simple"; "adaptive"]%string /\ In (ac_gm c) [""; "weighted"]%string /\
     In (ac_rm c) [""; "token"]%string /\
     In (ac_st c) [""; "phase_nudge"; "frequency_lock"; "energy_aware"; "adaptive"; "pulse"]%string).
Proof. exact @new_from_config_none. Qed.
Print Assumptions C18_error_iff.

(** The attributes, in exact arithmetic.  A zero number means "use the default". *)
Theorem C18_attributes : forall id d (c : ACfg R) a, @NewFromConfig R RNum id d c = Some a ->
  let dflt := fun x y : R => if Req_EM_T x 0 then y else x in
  let clamp := fun x => Rmax 0 (Rmin 1 x) in
  ag_id a = id /\ ag_ctx a = @ctx0 R RNum /\
  (if ac_rphase c then sd_phase (ag_sd a) = @RandPhase R RNum (dr_phase d)
   else cong (sd_phase (ag_sd a)) (ac_phase c) /\ 0 <= sd_phase (ag_sd a) < 2 * PI) /\
  (if ac_rgoal c then sd_goal (ag_sd a) = @RandPhase R RNum (dr_goal d)
   else cong (sd_goal (ag_sd a)) (dflt (ac_goal c) (@RandPhase R RNum (dr_goal d))) /\ 0 <= sd_goal (ag_sd a) < 2 * PI) /\
  sd_freq (ag_sd a) = (if ac_rfreq c then @randFreq R RNum (dr_freq d)
                       else if (ac_freq c =? 0)%Z then 100000000 else ac_freq c)%Z /\
  sd_energy (ag_sd a) = Rmax 0 (dflt (ac_energy c) 100) /\
  bd_infl (ag_bd a) = clamp (dflt (ac_infl c) (5 / 10)) /\
  bd_stub (ag_bd a) = clamp (dflt (ac_stub c) (2 / 10)) /\
  (let m := dflt (ac_tokens c) (dflt (ac_energy c) 100) in ag_res a = Some (mkTM (Rmax 0 m) (Rmax 0 m))) /\
  ag_swarm a = (if 0 <? ac_swarm c then ac_swarm c else 0)%Z /\
  ag_maxn a = (if 0 <? ac_swarm c then ac_maxn c else 0)%Z /\
  ag_strat a = Some (if string_dec (ac_st c) "frequency_lock" then SKLock (dflt (ac_rate c) (5 / 10))
                     else if string_dec (ac_st c) "energy_aware" then SKEnergy (dflt (ac_rate c) 20)
                     else if string_dec (ac_st c) "adaptive" then SKAdaptive [SKNudge (3 / 10); SKLock (5 / 10)]
                     else if string_dec (ac_st c) "pulse" then SKPulse 100000000 (8 / 10)
                     else SKNudge (dflt (ac_rate c) (7 / 10))) /\
  ag_decider a = true /\ ag_goalmgr a = true.
Proof. exact new_from_config_attrs. Qed.
Print Assumptions C18_attributes.

(** Finite configurations give attributes in range (floats). *)
Theorem C18_ranges : forall (tr : Trig) id d (c : ACfg F) a,
  @NewFromConfig F (FNum tr) id d c = Some a ->
  Forall (fun x => is_finite x = true) [ac_tokens c; ac_phase c; ac_goal c; ac_energy c; ac_infl c; ac_stub c] ->
  attrs_ok a.
Proof. exact new_from_config_ok. Qed.
Print Assumptions C18_ranges.

(** The optimised constructor: no defaults, tokens decide the energy. *)
Theorem C18_optimized_attributes : forall id d (c : ACfg R), let a := @NewOptimizedFromConfig R RNum id d c in
  let clamp := fun x => Rmax 0 (Rmin 1 x) in
  ag_id a = id /\ ag_ctx a = @ctx0 R RNum /\
  (if ac_rphase c then sd_phase (ag_sd a) = @RandPhase R RNum (dr_phase d)
   else cong (sd_phase (ag_sd a)) (ac_phase c) /\ 0 <= sd_phase (ag_sd a) < 2 * PI) /\
  (if ac_rgoal c then sd_goal (ag_sd a) = @RandPhase R RNum (dr_goal d)
   else cong (sd_goal (ag_sd a)) (ac_goal c) /\ 0 <= sd_goal (ag_sd a) < 2 * PI) /\
  sd_freq (ag_sd a) = (if ac_rfreq c then @randFreq R RNum (dr_freq d) else ac_freq c) /\
  (let tok := if string_dec (ac_rm c) "token" then if Rlt_dec 0 (ac_tokens c) then true else false else false in
   sd_energy (ag_sd a) = (if tok then ac_tokens c else Rmax 0 (ac_energy c)) /\
   ag_res a = Some (if tok then mkTM (ac_tokens c) (ac_tokens c) else mkTM 100 100)) /\
  bd_infl (ag_bd a) = clamp (ac_infl c) /\ bd_stub (ag_bd a) = clamp (ac_stub c) /\
  ag_swarm a = ac_swarm c /\
  ag_maxn a = (if ac_maxn c =? 0 then if 100 <? ac_swarm c then 20 else ac_swarm c - 1 else ac_maxn c)%Z /\
  ag_strat a = Some (if string_dec (ac_st c) "frequency_lock" then SKLock (5 / 10)
                     else if string_dec (ac_st c) "energy_aware" then SKEnergy 10 else SKNudge (ac_rate c)) /\
  ag_decider a = true /\ ag_goalmgr a = true.
Proof. exact optimized_attrs. Qed.
Print Assumptions C18_optimized_attributes.

(** The optimised constructor never fails, also for unknown names. *)
Theorem C18_optimized_accepts_unknown_refuted : exists (c : ACfg R), forall id d,
  @NewFromConfig R RNum id d c = None /\ ag_id (@NewOptimizedFromConfig R RNum id d c) = id /\
  ag_strat (@NewOptimizedFromConfig R RNum id d c) = Some (SKNudge 0).
Proof.
  exists (mkACfg "" "" "" "warp" 0 0 0 0 0%Z 0 0 0 0%Z 0%Z false false false). intros id d. repeat split.
Qed.
Print Assumptions C18_optimized_accepts_unknown_refuted.

(** The two constructors disagree on energy when MaxTokens differs from InitialEnergy, and on
    every zero value. *)
Theorem C18_constructors_disagree_refuted : forall id d, exists (c1 c2 : ACfg R) a1 a2,
  @NewFromConfig R RNum id d c1 = Some a1 /\ @NewFromConfig R RNum id d c2 = Some a2 /\
  sd_energy (ag_sd a1) = 50 /\ sd_energy (ag_sd (@NewOptimizedFromConfig R RNum id d c1)) = 80 /\
  bd_infl (ag_bd a2) = 5 / 10 /\ bd_infl (ag_bd (@NewOptimizedFromConfig R RNum id d c2)) = 0 /\
  sd_energy (ag_sd a2) = 100 /\ sd_energy (ag_sd (@NewOptimizedFromConfig R RNum id d c2)) = 0 /\
  sd_freq (ag_sd a2) = 100000000%Z /\ sd_freq (ag_sd (@NewOptimizedFromConfig R RNum id d c2)) = 0%Z.
Proof. exact constructors_disagree. Qed.
Print Assumptions C18_constructors_disagree_refuted.

(** They agree when every field is given, with energy equal to the token capacity. *)
Theorem C18_constructors_agree : forall id d (c : ACfg R),
  ac_dm c = "simple"%string -> ac_gm c = "weighted"%string -> ac_rm c = "token"%string -> ac_st c = "phase_nudge"%string ->
  0 < ac_tokens c -> ac_energy c = ac_tokens c -> ac_rate c <> 0 -> ac_infl c <> 0 -> ac_stub c <> 0 ->
  (ac_rgoal c = true \/ ac_goal c <> 0) -> (ac_rfreq c = true \/ ac_freq c <> 0%Z) ->
  (0 < ac_swarm c)%Z -> ac_maxn c <> 0%Z ->
  @NewFromConfig R RNum id d c = Some (@NewOptimizedFromConfig R RNum id d c).
Proof. exact constructors_agree. Qed.
Print Assumptions C18_constructors_agree.
Example C18_agree_hyp : exists c : ACfg R, ac_dm c = "simple"%string /\ ac_st c = "phase_nudge"%string /\
  0 < ac_tokens c /\ ac_energy c = ac_tokens c /\ ac_rate c <> 0 /\ ac_rgoal c = true /\ (0 < ac_swarm c)%Z.
Proof.
  exists (mkACfg "simple" "weighted" "token" "phase_nudge" 100 (1/2) 0 0 1%Z 100 (1/2) (1/2) 10%Z 5%Z true true true).
  cbn -[IZR]. repeat split; lra || lia || reflexivity.
Qed.
