(** Lemmas for C16-C18: neighborhood context, pooling, construction from configuration. *)
From Coq Require Import ZArith Reals Psatz Bool List String Lia.
From Flocq Require Import Core.Core IEEE754.BinarySingleNaN.
From Verif Require Import Num GoBase F64 RealNum S_Circle S_Agent M_Core M_Random M_Resource M_Strategy M_Agent M_Pool
  M_AgentConfig L_F64 L_PhaseF L_F64x L_State L_Circle L_Coherence L_Random L_Token L_Agent.
Import ListNotations.
Open Scope R_scope.

(** ---- context *)
Lemma sumCosD_R my nb : @sumCosD R RNum my nb = rsum (fun p => cos (p - my)) nb.
Proof. unfold sumCosD. cbn -[rsum IZR]. rewrite (fold_rsum (fun p => cos (p - my))). lra. Qed.
Lemma sumSinD_R my nb : @sumSinD R RNum my nb = rsum (fun p => sin (p - my)) nb.
Proof. unfold sumSinD. cbn -[rsum IZR]. rewrite (fold_rsum (fun p => sin (p - my))). lra. Qed.

Lemma lc_eq my nb : @localCoherence R RNum my nb = RMC nb.
Proof.
  destruct nb as [|x nb0]; [reflexivity|]. unfold localCoherence. rewrite sumCosD_R, sumSinD_R.
  rewrite <- (RMC_rotate (- my)). rewrite RMC_unfold by discriminate. rewrite map_length.
  rewrite !rsum_map. cbn [nsqrt ndiv nmul nadd nofZ RNum]. unfold vlen. rewrite <- INR_IZR_INZ. reflexivity.
Qed.

Lemma mean_dir my nb : nb <> [] ->
  let c := rsum (fun p => cos (p - my)) nb / INR (List.length nb) in
  let s := rsum (fun p => sin (p - my)) nb / INR (List.length nb) in
  let t := Ratan2 s c in
  - PI < t <= PI /\
  rsum cos nb = INR (List.length nb) * RMC nb * cos (my + t) /\
  rsum sin nb = INR (List.length nb) * RMC nb * sin (my + t) /\
  (RMC nb = 0 -> t = 0).
Proof.
  intros Hn c s t. pose proof (INR_len_pos nb Hn) as Hp. pose proof PI_pos as HP.
  assert (HR : RMC nb = sqrt (c * c + s * s)).
  { rewrite <- (lc_eq my nb). destruct nb as [|x nb0]; [congruence|]. unfold localCoherence.
    rewrite sumCosD_R, sumSinD_R. cbn [nsqrt ndiv nmul nadd nofZ RNum]. rewrite <- INR_IZR_INZ.
    unfold c, s. fold (vlen (rsum (fun p => cos (p - my)) (x :: nb0)) (rsum (fun p => sin (p - my)) (x :: nb0))).
    set (C := rsum _ _) in *. set (S := rsum (fun p => sin (p - my)) _) in *. set (n := INR _) in *.
    fold (vlen (C / n) (S / n)). unfold Rdiv. rewrite (Rmult_comm C), (Rmult_comm S), vlen_scale.
    - ring. - left. now apply Rinv_0_lt_compat. }
  assert (EC : rsum cos nb = INR (List.length nb) * (c * cos my - s * sin my)).
  { transitivity (rsum (fun p => cos my * cos (p - my) + (- sin my) * sin (p - my)) nb).
    - apply rsum_ext. intros p _. replace p with ((p - my) + my) at 1 by ring. rewrite cos_plus. ring.
    - rewrite rsum_plus, !rsum_scale. unfold c, s. field. lra. }
  assert (ES : rsum sin nb = INR (List.length nb) * (s * cos my + c * sin my)).
  { transitivity (rsum (fun p => cos my * sin (p - my) + sin my * cos (p - my)) nb).
    - apply rsum_ext. intros p _. replace p with ((p - my) + my) at 1 by ring. rewrite sin_plus. ring.
    - rewrite rsum_plus, !rsum_scale. unfold c, s. field. lra. }
  destruct (Req_dec c 0) as [Zc|Nc]; [destruct (Req_dec s 0) as [Zs|Ns]|].
  - assert (t = 0).
    { unfold t. rewrite Zc, Zs. unfold Ratan2. rewrite !Rlt_bool_false by lra. reflexivity. }
    rewrite Zc, Zs in EC, ES. rewrite Zc, Zs in HR. replace (0 * 0 + 0 * 0) with 0 in HR by ring. rewrite sqrt_0 in HR.
    rewrite HR, EC, ES, H. repeat split; try lra.
  - destruct (polar c s) as (r & u & Hr & Hu & E1 & E2 & E3); [auto|].
    assert (t = u) by (unfold t; rewrite E1, E2; now apply Ratan2_polar).
    rewrite H, HR, EC, ES, cos_plus, sin_plus, <- E3. repeat split; try lra; rewrite E1, E2; ring.
  - destruct (polar c s) as (r & u & Hr & Hu & E1 & E2 & E3); [auto|].
    assert (t = u) by (unfold t; rewrite E1, E2; now apply Ratan2_polar).
    rewrite H, HR, EC, ES, cos_plus, sin_plus, <- E3. repeat split; try lra; rewrite E1, E2; ring.
Qed.

(** ---- pool *)
Lemma pool_stats {T} {N : Num T} (l : list (PoolOp T)) :
  let s := poolRun l in
  pl_inUse s = (pl_gets s - pl_puts s)%Z /\ pl_news s = pl_gets s /\
  Forall (fun p => ag_id (pa_ag p) = EmptyString) (pl_items s) /\
  pl_gets s = Z.of_nat (List.length (filter (fun o => match o with POGet _ _ _ _ _ _ => true | _ => false end) l)) /\
  pl_puts s = Z.of_nat (List.length (filter (fun o => match o with POPut (Some _) => true | _ => false end) l)).
Proof.
  cbv zeta. unfold poolRun. induction l as [|o l IH] using rev_ind.
  - repeat split; auto. constructor.
  - rewrite fold_left_app, !filter_app, !app_length, !Nat2Z.inj_add. cbn [fold_left].
    destruct IH as (A & B & C & D & E). set (s := fold_left poolStep l emptyPool) in *.
    destruct o as [ch id b1 b2 b3 b4|[a|]|]; cbn [poolStep filter List.length].
    + unfold Get. destruct ch as [k|].
      * destruct (nth_error (pl_items s) k) as [a|] eqn:En.
        -- pose proof (proj1 (Forall_forall _ _) C a (nth_error_In _ _ En)) as Ha. rewrite Ha.
           cbn [fst pl_inUse pl_gets pl_puts pl_news pl_items String.eqb]. repeat split; try lia.
           apply Forall_app. split; [apply Forall_forall; intros x Hx; apply (proj1 (Forall_forall _ _) C); rewrite <- (firstn_skipn k (pl_items s)); apply in_or_app; now left|].
           apply Forall_forall; intros x Hx. apply (proj1 (Forall_forall _ _) C). 
           rewrite <- (firstn_skipn (S k) (pl_items s)). apply in_or_app. now right.
        -- cbn [fst zeroAgent pa_ag ag_id pl_inUse pl_gets pl_puts pl_news pl_items String.eqb]. repeat split; auto; lia.
      * cbn [fst zeroAgent pa_ag ag_id pl_inUse pl_gets pl_puts pl_news pl_items String.eqb]. repeat split; auto; lia.
    + cbn [Put pl_inUse pl_gets pl_puts pl_news pl_items]. repeat split; try lia. constructor; auto.
    + cbn [Put]. repeat split; auto; lia.
    + cbn [pl_inUse pl_gets pl_puts pl_news pl_items]. repeat split; auto; lia.
Qed.

Lemma lit_pool : is_finite (flit 1 10) = true /\ is_finite (flit 3 10) = true /\
  0 <= B2R (flit 1 10) <= 1 /\ 0 <= B2R (flit 3 10) <= 1 /\ B2R (flit 1 10) + B2R (flit 1 10) = B2R (flit 2 10).
Proof.
  assert (E1 : exists m e, B2SF (flit 1 10) = SpecFloat.S754_finite false m e /\ B2SF (flit 2 10) = SpecFloat.S754_finite false m (e + 1) /\ (Z.pos m <= 2 ^ 53)%Z /\ e = (-56)%Z).
  { eexists. eexists. split; [vm_compute; reflexivity|]. split; [vm_compute; reflexivity|]. split; [vm_compute; discriminate|reflexivity]. }
  assert (E3 : exists m e, B2SF (flit 3 10) = SpecFloat.S754_finite false m e /\ (Z.pos m <= 2 ^ 53)%Z /\ e = (-54)%Z).
  { eexists. eexists. split; [vm_compute; reflexivity|]. split; [vm_compute; discriminate|reflexivity]. }
  destruct E1 as (m1 & e1 & A1 & A2 & A3 & A4). destruct E3 as (m3 & e3 & B1 & B3 & B4).
  apply B2R_of_B2SF in A1, A2, B1. destruct A1 as [F1 V1], A2 as [F2 V2], B1 as [F3 V3].
  rewrite V1, V2, V3. cbn [cond_Zopp]. unfold F2R. cbn [Fnum Fexp].
  rewrite bpow_plus. change (bpow radix2 1) with 2.
  assert (G : forall m e, (Z.pos m <= 2 ^ 53)%Z -> (e <= -53)%Z -> 0 <= IZR (Z.pos m) * bpow radix2 e <= 1).
  { intros m e Hm He. pose proof (bpow_gt_0 radix2 e). pose proof (IZR_lt 0 (Z.pos m) (Pos2Z.is_pos m)). split; [nra|].
    apply Rle_trans with (IZR (2 ^ 53) * bpow radix2 (-53)).
    - apply Rmult_le_compat; try lra; [now apply IZR_le|now apply bpow_le].
    - simpl. lra. }
  subst e1 e3. repeat split; auto; try (apply G; auto; lia). ring.
Qed.
Lemma scaled_unit (tr : Trig) b k : is_finite k = true -> 0 <= B2R k <= 1 ->
  is_finite (fmul (@Float64 F (FNum tr) b) k) = true /\ 0 <= B2R (fmul (@Float64 F (FNum tr) b) k) <= B2R k.
Proof.
  intros Hk Vk. destruct (Float64_unit tr b) as [U1 U2]. set (u := @Float64 F (FNum tr) b) in *.
  destruct (fmul_fin u k U1 Hk) as [A B].
  { rewrite Rabs_pos_eq by nra. apply Rle_trans with (bpow radix2 0); [simpl; nra|apply bpow_le; lia]. }
  split; [exact A|]. rewrite B. split; [apply rnd_ge_0; nra|]. apply rnd_le_fmt; [apply fmt_B2R|nra].
Qed.

(** ---- construction from configuration *)
Lemma dm_iff {T} (c : ACfg T) : createDecisionMaker c = true <-> In (ac_dm c) [""; "simple"; "adaptive"]%string.
Proof. unfold createDecisionMaker. rewrite !orb_true_iff, !String.eqb_eq. cbn. intuition congruence. Qed.
Lemma gm_iff {T} (c : ACfg T) : createGoalManager c = true <-> In (ac_gm c) [""; "weighted"]%string.
Proof. unfold createGoalManager. rewrite !orb_true_iff, !String.eqb_eq. cbn. intuition congruence. Qed.
Lemma rm_iff {T} {N : Num T} (c : ACfg T) : createResourceManager c <> None <-> In (ac_rm c) [""; "token"]%string.
Proof.
  unfold createResourceManager. destruct ((ac_rm c =? "") || (ac_rm c =? "token"))%string eqn:E.
  - split; [intros _|discriminate]. apply orb_true_iff in E. rewrite !String.eqb_eq in E. cbn. intuition congruence.
  - split; [congruence|]. apply orb_false_iff in E. rewrite !String.eqb_neq in E. cbn. intuition congruence.
Qed.
Lemma st_iff {T} {N : Num T} (c : ACfg T) : createStrategy c <> None <->
  In (ac_st c) [""; "phase_nudge"; "frequency_lock"; "energy_aware"; "adaptive"; "pulse"]%string.
Proof.
  unfold createStrategy. cbn [In].
  repeat match goal with |- context [String.eqb (ac_st c) ?k] => destruct (String.eqb_spec (ac_st c) k); cbn [orb] end;
    (split; intros H; try discriminate; try (elim H; reflexivity); intuition congruence).
Qed.
Lemma new_from_config_none (T : Type) (N : Num T) id d (c : ACfg T) :
  NewFromConfig id d c = None <->
  ~ (In (ac_dm c) [""; "simple"; "adaptive"]%string /\ In (ac_gm c) [""; "weighted"]%string /\
     In (ac_rm c) [""; "token"]%string /\
     In (ac_st c) [""; "phase_nudge"; "frequency_lock"; "energy_aware"; "adaptive"; "pulse"]%string).
Proof.
  rewrite <- dm_iff, <- gm_iff, <- rm_iff, <- st_iff. unfold NewFromConfig.
  destruct (createDecisionMaker c); cbn [negb]; [|intuition congruence].
  destruct (createGoalManager c); cbn [negb]; [|intuition congruence].
  destruct (createResourceManager c); [|intuition congruence].
  destruct (createStrategy c); [|intuition congruence]. split; [discriminate|]. intros H. elim H. repeat split; congruence.
Qed.

Lemma Req_bool_dec x y {A} (a b : A) : (if @neqb R RNum x y then a else b) = if Req_EM_T x y then a else b.
Proof.
  cbn [neqb RNum]. destruct (Req_EM_T x y) as [E|E].
  - now rewrite Req_bool_true.
  - now rewrite Req_bool_false.
Qed.
Lemma clamp01_R x : @clamp01 R RNum x = Rmax 0 (Rmin 1 x).
Proof.
  unfold clamp01. cbn -[Rmax Rmin Rlt_bool IZR].
  destruct (Rlt_bool_spec x 0); [rewrite Rmin_right, Rmax_left; lra|].
  destruct (Rlt_bool_spec 1 x); [rewrite Rmin_left, Rmax_right; lra|rewrite Rmin_right, Rmax_right; lra].
Qed.
Lemma NewTok_R m : @NewTokenManager R RNum m = mkTM (Rmax 0 m) (Rmax 0 m).
Proof.
  unfold NewTokenManager. cbn -[Rmax Rlt_bool IZR]. destruct (Rlt_bool_spec m 0).
  - now rewrite Rmax_left by lra.
  - now rewrite Rmax_right by lra.
Qed.
Lemma clampRate_R x : 0 <= x <= 1 -> @clampRate R RNum x = x.
Proof. intros H. unfold clampRate. cbn -[Rmax Rmin IZR]. rewrite Rmin_right, Rmax_right; lra. Qed.

Lemma createStrategy_R (c : ACfg R) st : @createStrategy R RNum c = Some st ->
  let dflt := fun x y : R => if Req_EM_T x 0 then y else x in
  st = if string_dec (ac_st c) "frequency_lock" then SKLock (dflt (ac_rate c) (5 / 10))
       else if string_dec (ac_st c) "energy_aware" then SKEnergy (dflt (ac_rate c) 20)
       else if string_dec (ac_st c) "adaptive" then SKAdaptive [SKNudge (3 / 10); SKLock (5 / 10)]
       else if string_dec (ac_st c) "pulse" then SKPulse 100000000 (8 / 10)
       else SKNudge (dflt (ac_rate c) (7 / 10)).
Proof.
  cbv zeta. unfold createStrategy. rewrite !Req_bool_dec.
  rewrite (clampRate_R (@nlit R RNum 8 10)) by (cbn [nlit RNum]; lra).
  destruct (String.eqb_spec (ac_st c) "") as [E|E]; cbn [orb].
  { rewrite E. intros H. injection H as <-. reflexivity. }
  destruct (String.eqb_spec (ac_st c) "phase_nudge") as [E1|E1]; cbn [orb].
  { rewrite E1. intros H. injection H as <-. reflexivity. }
  destruct (String.eqb_spec (ac_st c) "frequency_lock") as [E2|E2].
  { rewrite E2. intros H. injection H as <-. reflexivity. }
  destruct (String.eqb_spec (ac_st c) "energy_aware") as [E3|E3].
  { rewrite E3. intros H. injection H as <-. reflexivity. }
  destruct (String.eqb_spec (ac_st c) "adaptive") as [E4|E4].
  { rewrite E4. intros H. injection H as <-. reflexivity. }
  destruct (String.eqb_spec (ac_st c) "pulse") as [E5|E5]; [|discriminate].
  rewrite E5. intros H. injection H as <-. reflexivity.
Qed.
Lemma new_from_config_attrs : forall id d (c : ACfg R) a, @NewFromConfig R RNum id d c = Some a ->
  let dflt := fun x y : R => if Req_EM_T x 0 then y else x in
  let clamp := fun x => Rmax 0 (Rmin 1 x) in
  ag_id a = id /\ ag_ctx a = @ctx0 R RNum /\
  (if ac_rphase c then sd_phase (ag_sd a) = @RandPhase R RNum (dr_phase d)
   else cong (sd_phase (ag_sd a)) (ac_phase c) /\ 0 <= sd_phase (ag_sd a) < 2 * PI) /\
  (if ac_rgoal c then sd_goal (ag_sd a) = @RandPhase R RNum (dr_goal d)
   else cong (sd_goal (ag_sd a)) (dflt (ac_goal c) (@RandPhase R RNum (dr_goal d))) /\ 0 <= sd_goal (ag_sd a) < 2 * PI) /\
  sd_freq (ag_sd a) = (if ac_rfreq c then @randFreq R RNum (dr_freq d)
                       else if (ac_freq c =? 0)%Z then 100000000 else ac_freq c)%Z /\
  sd_energy (ag_sd a) = Rmax 0 (dflt (ac_energy c) 100) /\
  bd_infl (ag_bd a) = clamp (dflt (ac_infl c) (5 / 10)) /\
  bd_stub (ag_bd a) = clamp (dflt (ac_stub c) (2 / 10)) /\
  (let m := dflt (ac_tokens c) (dflt (ac_energy c) 100) in ag_res a = Some (mkTM (Rmax 0 m) (Rmax 0 m))) /\
  ag_swarm a = (if 0 <? ac_swarm c then ac_swarm c else 0)%Z /\
  ag_maxn a = (if 0 <? ac_swarm c then ac_maxn c else 0)%Z /\
  ag_strat a = Some (if string_dec (ac_st c) "frequency_lock" then SKLock (dflt (ac_rate c) (5 / 10))
                     else if string_dec (ac_st c) "energy_aware" then SKEnergy (dflt (ac_rate c) 20)
                     else if string_dec (ac_st c) "adaptive" then SKAdaptive [SKNudge (3 / 10); SKLock (5 / 10)]
                     else if string_dec (ac_st c) "pulse" then SKPulse 100000000 (8 / 10)
                     else SKNudge (dflt (ac_rate c) (7 / 10))) /\
  ag_decider a = true /\ ag_goalmgr a = true.
Proof.
  intros id d c a H. cbv zeta. unfold NewFromConfig in H.
  destruct (createDecisionMaker c); [|discriminate]. destruct (createGoalManager c); [|discriminate]. cbn [negb] in H.
  destruct (createResourceManager c) as [rm|] eqn:Er; [|discriminate].
  destruct (createStrategy c) as [st|] eqn:Es; [|discriminate].
  apply createStrategy_R in Es. cbv zeta in Es. rewrite <- Es. clear Es.
  assert (Erm : rm = mkTM (Rmax 0 (if Req_EM_T (ac_tokens c) 0 then if Req_EM_T (ac_energy c) 0 then 100 else ac_energy c else ac_tokens c))
                          (Rmax 0 (if Req_EM_T (ac_tokens c) 0 then if Req_EM_T (ac_energy c) 0 then 100 else ac_energy c else ac_tokens c))).
  { unfold createResourceManager in Er. destruct (_ || _)%bool; [|discriminate]. injection Er as <-. rewrite NewTok_R, !Req_bool_dec. reflexivity. }
  rewrite <- Erm. injection H as <-.
  unfold createPhaseOptions, createGoalOptions, createFrequencyOptions, createParameterOptions.
  rewrite <- !(Req_bool_dec _ 0). rewrite <- !clamp01_R.
  destruct (ac_rphase c); [|destruct (@neqb R RNum (ac_phase c) n0) eqn:E1];
  (destruct (ac_rgoal c); [|destruct (@neqb R RNum (ac_goal c) n0) eqn:E2]);
  (destruct (ac_rfreq c); [|destruct (ac_freq c =? 0)%Z eqn:E3]);
  (destruct (0 <? ac_swarm c)%Z eqn:E4);
  cbn -[IZR Rmax Rmin WrapPhase RandPhase RNum neqb randFreq clamp01 cong];
  (split; [reflexivity|]); (split; [reflexivity|]).
  all: split; [first [reflexivity | split; [|apply RWrap_spec]; first [apply RWrap_spec|idtac]] |].
  all: try (cbn [neqb n0 nofZ RNum] in E1; destruct (Req_bool_spec (ac_phase c) 0) as [E1'|]; [rewrite E1'; apply RWrap_spec|discriminate]).
  all: split; [first [reflexivity | split; [|apply RWrap_spec]; change (@n0 R RNum) with 0 in E2; rewrite E2; apply RWrap_spec] |].
  all: repeat (split; [reflexivity|]); reflexivity.
Qed.

Lemma fold_opts {A} (P : A -> Prop) (fs : list (A -> A)) : Forall (fun f => forall a, P a -> P (f a)) fs ->
  forall a, P a -> P (fold_left (fun a f => f a) fs a).
Proof. induction 1 as [|f fs Hf H IH]; intros a Ha; [exact Ha|]. cbn. apply IH, Hf, Ha. Qed.
Lemma Some_inj {A} (x y : A) : Some x = Some y -> x = y.
Proof. congruence. Qed.
Lemma new_from_config_ok : forall (tr : Trig) id d (c : ACfg F) a,
  @NewFromConfig F (FNum tr) id d c = Some a ->
  Forall (fun x => is_finite x = true) [ac_tokens c; ac_phase c; ac_goal c; ac_energy c; ac_infl c; ac_stub c] ->
  attrs_ok a.
Proof.
  intros tr id d c a H HF.
  inversion HF as [|? ? F1 HF1]; subst. inversion HF1 as [|? ? F2 HF2]; subst. inversion HF2 as [|? ? F3 HF3]; subst.
  inversion HF3 as [|? ? F4 HF4]; subst. inversion HF4 as [|? ? F5 HF5]; subst. inversion HF5 as [|? ? F6 HF6]; subst.
  unfold NewFromConfig in H.
  destruct (createDecisionMaker c); [|discriminate]. destruct (createGoalManager c); [|discriminate]. cbn [negb] in H.
  destruct (createResourceManager c) as [rm|] eqn:Er; [|discriminate].
  destruct (createStrategy c) as [st|]; [|discriminate]. apply Some_inj in H. subst a.
  unfold NewAgent.
  assert (ST : forall o, arg_fin tr o -> forall a, attrs_ok a -> attrs_ok (@agentStep F (FNum tr) a o))
    by (intros o Ho a Ha; now apply step_attrs).
  match goal with |- attrs_ok (set_ctx _ (fold_left _ ?fs ?a0)) =>
    assert (K : attrs_ok (fold_left (fun a f => f a) fs a0)) end.
  { apply fold_opts; [|apply (new_attrs_ok tr id)].
    constructor; [intros a [? ? ? ? ?]; constructor; assumption|].
    constructor; [intros a [? ? ? ? ?]; constructor; assumption|].
    constructor; [|constructor; [intros a [? ? ? ? ?]; constructor; assumption|]].
    { apply (ST (OWithTokens rm)). unfold createResourceManager in Er. destruct (_ || _)%bool; [|discriminate]. apply Some_inj in Er. subst rm.
      match goal with |- arg_fin _ (OWithTokens (@NewTokenManager F _ ?m)) => exists m, [] end.
      split; [|split; [constructor|reflexivity]].
      destruct (@neqb F (FNum tr) (ac_tokens c) (@n0 F (FNum tr))); [destruct (@neqb F (FNum tr) (ac_energy c) (@n0 F (FNum tr))); [reflexivity|assumption]|assumption]. }
    unfold createParameterOptions.
    apply Forall_app; split; [|apply Forall_app; split; [|apply Forall_app; split; [|apply Forall_app; split]]].
    - unfold createPhaseOptions. destruct (ac_rphase c); [|destruct (negb _)]; (constructor; [|constructor]).
      + exact (ST (ORandPhase (dr_phase d)) I).
      + exact (ST (OSetPhase (ac_phase c)) F2).
      + exact (ST (OSetPhase (fofZ 0)) eq_refl).
    - unfold createGoalOptions. destruct (ac_rgoal c); [|destruct (negb _)]; (constructor; [|constructor]).
      + exact (ST (ORandGoal (dr_goal d)) I).
      + exact (ST (OSetLocalGoal (ac_goal c)) F3).
      + apply (ST (OSetLocalGoal (@RandPhase F (FNum tr) (dr_goal d)))). apply RandPhase_spec.
    - unfold createFrequencyOptions. destruct (ac_rfreq c); [|destruct (negb _)]; (constructor; [|constructor]);
        intros a [? ? ? ? ?]; constructor; assumption.
    - constructor; [|constructor; [|constructor; [|constructor]]].
      + match goal with |- forall a, _ -> attrs_ok (@SetEnergy F _ ?x a) => apply (ST (OSetEnergy x)) end. cbn [arg_fin]. destruct (@neqb F (FNum tr) (ac_energy c) (@n0 F (FNum tr))); [reflexivity|assumption].
      + match goal with |- forall a, _ -> attrs_ok (@SetInfluence F _ ?x a) => apply (ST (OSetInfluence x)) end. cbn [arg_fin]. destruct (@neqb F (FNum tr) (ac_infl c) (@n0 F (FNum tr))); [reflexivity|assumption].
      + match goal with |- forall a, _ -> attrs_ok (@SetStubbornness F _ ?x a) => apply (ST (OSetStubbornness x)) end. cbn [arg_fin]. destruct (@neqb F (FNum tr) (ac_stub c) (@n0 F (FNum tr))); [reflexivity|assumption].
    - destruct (0 <? ac_swarm c)%Z; [constructor; [intros a [? ? ? ? ?]; constructor; assumption|constructor]|constructor]. }
  destruct K. constructor; assumption.
Qed.
Lemma optimized_attrs : forall id d (c : ACfg R), let a := @NewOptimizedFromConfig R RNum id d c in
  let clamp := fun x => Rmax 0 (Rmin 1 x) in
  ag_id a = id /\ ag_ctx a = @ctx0 R RNum /\
  (if ac_rphase c then sd_phase (ag_sd a) = @RandPhase R RNum (dr_phase d)
   else cong (sd_phase (ag_sd a)) (ac_phase c) /\ 0 <= sd_phase (ag_sd a) < 2 * PI) /\
  (if ac_rgoal c then sd_goal (ag_sd a) = @RandPhase R RNum (dr_goal d)
   else cong (sd_goal (ag_sd a)) (ac_goal c) /\ 0 <= sd_goal (ag_sd a) < 2 * PI) /\
  sd_freq (ag_sd a) = (if ac_rfreq c then @randFreq R RNum (dr_freq d) else ac_freq c) /\
  (let tok := if string_dec (ac_rm c) "token" then if Rlt_dec 0 (ac_tokens c) then true else false else false in
   sd_energy (ag_sd a) = (if tok then ac_tokens c else Rmax 0 (ac_energy c)) /\
   ag_res a = Some (if tok then mkTM (ac_tokens c) (ac_tokens c) else mkTM 100 100)) /\
  bd_infl (ag_bd a) = clamp (ac_infl c) /\ bd_stub (ag_bd a) = clamp (ac_stub c) /\
  ag_swarm a = ac_swarm c /\
  ag_maxn a = (if ac_maxn c =? 0 then if 100 <? ac_swarm c then 20 else ac_swarm c - 1 else ac_maxn c)%Z /\
  ag_strat a = Some (if string_dec (ac_st c) "frequency_lock" then SKLock (5 / 10)
                     else if string_dec (ac_st c) "energy_aware" then SKEnergy 10 else SKNudge (ac_rate c)) /\
  ag_decider a = true /\ ag_goalmgr a = true.
Proof.
  intros id d c. cbv zeta. unfold NewOptimizedFromConfig. rewrite <- !clamp01_R.
  assert (ES : (if (ac_st c =? "phase_nudge")%string then SKNudge (ac_rate c)
                else if (ac_st c =? "frequency_lock")%string then SKLock (@nlit R RNum 5 10)
                else if (ac_st c =? "energy_aware")%string then SKEnergy (@nofZ R RNum 10) else SKNudge (ac_rate c))
             = (if string_dec (ac_st c) "frequency_lock" then SKLock (5 / 10)
                     else if string_dec (ac_st c) "energy_aware" then SKEnergy 10 else SKNudge (ac_rate c))).
  { destruct (String.eqb_spec (ac_st c) "phase_nudge") as [E|E]; [rewrite E; reflexivity|].
    destruct (String.eqb_spec (ac_st c) "frequency_lock") as [E1|E1]; [rewrite E1; reflexivity|].
    destruct (string_dec (ac_st c) "frequency_lock"); [congruence|].
    destruct (String.eqb_spec (ac_st c) "energy_aware") as [E2|E2]; [rewrite E2; reflexivity|].
    destruct (string_dec (ac_st c) "energy_aware"); [congruence|]. reflexivity. }
  rewrite ES. clear ES. rewrite !NewTok_R.
  assert (ET : ((ac_rm c =? "token")%string && @nlt R RNum n0 (ac_tokens c))%bool
      = if string_dec (ac_rm c) "token" then if Rlt_dec 0 (ac_tokens c) then true else false else false).
  { destruct (String.eqb_spec (ac_rm c) "token") as [E|E].
    - rewrite E. cbn [andb]. destruct (string_dec "token" "token"); [|congruence]. cbn [nlt n0 nofZ RNum].
      destruct (Rlt_dec 0 (ac_tokens c)); [now apply Rlt_bool_true|apply Rlt_bool_false; lra].
    - destruct (string_dec (ac_rm c) "token"); [congruence|reflexivity]. }
  rewrite ET. clear ET.
  assert (EM : (if (if string_dec (ac_rm c) "token" then if Rlt_dec 0 (ac_tokens c) then true else false else false)
                then Rmax 0 (ac_tokens c) = ac_tokens c else True)).
  { destruct (string_dec _ _); [|exact I]. destruct (Rlt_dec _ _); [apply Rmax_right; lra|exact I]. }
  assert (Q : @NewTokenManager R RNum (@nofZ R RNum 100) = mkTM 100 100).
  { rewrite NewTok_R. cbn [nofZ RNum]. rewrite Rmax_right by lra. reflexivity. }
  unfold NewAgent. rewrite Q.
  destruct (if string_dec (ac_rm c) "token" then _ else _); [rewrite EM|];
  destruct (ac_rphase c), (ac_rgoal c), (ac_rfreq c);
  destruct (ac_dm c =? "simple")%string, (ac_gm c =? "weighted")%string;
  cbn -[IZR Rmax Rmin WrapPhase RandPhase RNum neqb randFreq clamp01 cong string_dec];
  repeat (split; [first [reflexivity|apply RWrap_spec|split; apply RWrap_spec|split; reflexivity]|]); reflexivity.
Qed.
Lemma constructors_disagree : forall id d, exists (c1 c2 : ACfg R) a1 a2,
  @NewFromConfig R RNum id d c1 = Some a1 /\ @NewFromConfig R RNum id d c2 = Some a2 /\
  sd_energy (ag_sd a1) = 50 /\ sd_energy (ag_sd (@NewOptimizedFromConfig R RNum id d c1)) = 80 /\
  bd_infl (ag_bd a2) = 5 / 10 /\ bd_infl (ag_bd (@NewOptimizedFromConfig R RNum id d c2)) = 0 /\
  sd_energy (ag_sd a2) = 100 /\ sd_energy (ag_sd (@NewOptimizedFromConfig R RNum id d c2)) = 0 /\
  sd_freq (ag_sd a2) = 100000000%Z /\ sd_freq (ag_sd (@NewOptimizedFromConfig R RNum id d c2)) = 0%Z.
Proof.
  intros id d.
  set (c1 := mkACfg "simple" "weighted" "token" "phase_nudge" 80 (1/2) 0 0 1%Z 50 (1/2) (1/2) 10%Z 5%Z true true true : ACfg R).
  set (c2 := mkACfg "simple" "weighted" "token" "phase_nudge" 0 0 0 0 0%Z 0 0 0 0%Z 0%Z true true false : ACfg R).
  exists c1, c2.
  destruct (NewFromConfig id d c1) as [a1|] eqn:E1.
  2:{ apply new_from_config_none in E1. elim E1. cbn. intuition. }
  destruct (NewFromConfig id d c2) as [a2|] eqn:E2.
  2:{ apply new_from_config_none in E2. elim E2. cbn. intuition. }
  exists a1, a2. split; [reflexivity|]. split; [reflexivity|].
  apply new_from_config_attrs in E1, E2. cbv zeta in E1, E2.
  destruct E1 as (_ & _ & _ & _ & _ & E1 & _). destruct E2 as (_ & _ & _ & _ & F2 & E2 & I2 & _).
  pose proof (optimized_attrs id d c1) as O1. pose proof (optimized_attrs id d c2) as O2. cbv zeta in O1, O2.
  destruct O1 as (_ & _ & _ & _ & _ & (O1 & _) & _). destruct O2 as (_ & _ & _ & _ & G2 & (O2 & _) & J2 & _).
  rewrite E1, E2, F2, I2, O1, O2, G2, J2. unfold c1, c2. cbn [ac_energy ac_infl ac_freq ac_rfreq ac_rm ac_tokens].
  destruct (string_dec "token" "token"); [|congruence].
  clear. destruct (Rlt_dec 0 80) as [_|K]; [|exfalso; lra]. destruct (Rlt_dec 0 0) as [K|_]; [exfalso; lra|].
  destruct (Req_EM_T 50 0) as [K|_]; [exfalso; lra|]. destruct (Req_EM_T 0 0) as [_|K]; [|exfalso; lra].
  split; [apply Rmax_right; lra|]. split; [reflexivity|].
  split; [rewrite Rmin_right, Rmax_right; lra|]. split; [rewrite Rmin_right, Rmax_left; lra|].
  split; [apply Rmax_right; lra|]. split; [apply Rmax_left; lra|]. split; reflexivity.
Qed.
Lemma constructors_agree : forall id d (c : ACfg R),
  ac_dm c = "simple"%string -> ac_gm c = "weighted"%string -> ac_rm c = "token"%string -> ac_st c = "phase_nudge"%string ->
  0 < ac_tokens c -> ac_energy c = ac_tokens c -> ac_rate c <> 0 -> ac_infl c <> 0 -> ac_stub c <> 0 ->
  (ac_rgoal c = true \/ ac_goal c <> 0) -> (ac_rfreq c = true \/ ac_freq c <> 0%Z) ->
  (0 < ac_swarm c)%Z -> ac_maxn c <> 0%Z ->
  @NewFromConfig R RNum id d c = Some (@NewOptimizedFromConfig R RNum id d c).
Proof.
  intros id d [dm gm rm st tok rate ph go fr en inf stu sw mx rp rg rf].
  cbn [ac_dm ac_gm ac_rm ac_st ac_tokens ac_rate ac_phase ac_goal ac_freq ac_energy ac_infl ac_stub ac_swarm ac_maxn ac_rphase ac_rgoal ac_rfreq].
  intros -> -> -> -> Ht -> Hr Hi Hs Hg Hf Hw Hm.
  unfold NewFromConfig, NewOptimizedFromConfig, createDecisionMaker, createGoalManager, createResourceManager, createStrategy,
    createPhaseOptions, createGoalOptions, createFrequencyOptions, createParameterOptions.
  cbn [ac_dm ac_gm ac_rm ac_st ac_tokens ac_rate ac_phase ac_goal ac_freq ac_energy ac_infl ac_stub ac_swarm ac_maxn ac_rphase ac_rgoal ac_rfreq].
  cbn [String.eqb Ascii.eqb Bool.eqb orb andb negb].
  assert (B1 : @neqb R RNum tok n0 = false) by (cbn [neqb RNum n0 nofZ]; apply Req_bool_false; lra).
  assert (B2 : @neqb R RNum rate n0 = false) by (cbn [neqb RNum n0 nofZ]; now apply Req_bool_false).
  assert (B3 : @neqb R RNum inf n0 = false) by (cbn [neqb RNum n0 nofZ]; now apply Req_bool_false).
  assert (B4 : @neqb R RNum stu n0 = false) by (cbn [neqb RNum n0 nofZ]; now apply Req_bool_false).
  assert (B5 : @nlt R RNum n0 tok = true) by (cbn [nlt RNum n0 nofZ]; now apply Rlt_bool_true).
  rewrite B1, B2, B3, B4, B5. rewrite (proj2 (Z.ltb_lt _ _) Hw), (proj2 (Z.eqb_neq _ _) Hm). f_equal.
  assert (P : (if rp then [upd_sd (@fRandPhase R RNum (dr_phase d))]
      else if negb (@neqb R RNum ph n0) then [upd_sd (@fPhase R RNum ph)] else [upd_sd (@fPhase R RNum n0)])
     = if rp then [upd_sd (@fRandPhase R RNum (dr_phase d))] else [upd_sd (@fPhase R RNum ph)]).
  { destruct rp; [reflexivity|]. cbn [neqb RNum n0 nofZ]. destruct (Req_bool_spec ph 0) as [->|]; reflexivity. }
  rewrite P.
  assert (G : (if rg then [upd_sd (@fRandGoal R RNum (dr_goal d))]
      else if negb (@neqb R RNum go n0) then [upd_sd (@fGoal R RNum go)] else [upd_sd (@fGoal R RNum (RandPhase (dr_goal d)))])
     = if rg then [upd_sd (@fRandGoal R RNum (dr_goal d))] else [upd_sd (@fGoal R RNum go)]).
  { destruct rg; [reflexivity|]. destruct Hg as [|Hg]; [discriminate|]. cbn [neqb RNum n0 nofZ]. now rewrite Req_bool_false. }
  rewrite G.
  assert (Fq : (if rf then [upd_sd (fFreq (@randFreq R RNum (dr_freq d)))]
      else if negb (fr =? 0)%Z then [upd_sd (fFreq fr)] else [upd_sd (fFreq (100 * 1000000)%Z)])
     = if rf then [upd_sd (fFreq (@randFreq R RNum (dr_freq d)))] else [@upd_sd R (fFreq fr)]).
  { destruct rf; [reflexivity|]. destruct Hf as [|Hf]; [discriminate|]. now rewrite (proj2 (Z.eqb_neq _ _) Hf). }
  rewrite Fq.
  unfold NewAgent. f_equal. rewrite !NewTok_R. rewrite (Rmax_right 0 tok) by lra.
  match goal with |- fold_left _ _ ?A = _ => generalize A end. intros [i [x1 x2 x3 x4] [y1 y2] cx w m dc g rs k].
  assert (Q : @nmax R RNum (@n0 R RNum) tok = tok) by (change (Rmax 0 tok = tok); apply Rmax_right; lra).
  clear P G Fq. destruct rp; destruct rg; destruct rf;
    cbv beta iota delta [fold_left app upd_sd upd_bd WithStrategy WithSwarmInfo WithResourceManager WithDecisionMaker
    WithGoalManager set_res SetPhase SetLocalGoal SetFrequency SetEnergy SetInfluence SetStubbornness fPhase fGoal fRandPhase
    fRandGoal fFreq fEnergy fInfl fStub ag_id ag_sd ag_bd ag_ctx ag_swarm ag_maxn ag_decider ag_goalmgr ag_res ag_strat
    sd_phase sd_energy sd_goal sd_freq bd_infl bd_stub Available tm_tokens]; rewrite Q; reflexivity.
Qed.
