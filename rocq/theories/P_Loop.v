(** C89: an agent that repeatedly perceives, proposes and applies. *)
From Coq Require Import ZArith Reals Psatz Bool List String Lia.
From Flocq Require Import Core.Core IEEE754.BinarySingleNaN.
From Verif Require Import Num GoBase F64 RealNum S_Circle S_Loop M_Core M_Random M_Resource M_Strategy M_Agent
  L_F64 L_PhaseF L_F64x L_State L_Circle L_Coherence L_Random L_Pattern L_Agent L_Agent2 L_Acc P_Agent P_Agent2.
Import ListNotations.
Open Scope R_scope.

(* ------------------------------------------------ what the global goal does *)

(** Whatever the strategy and the decision maker, the phase and the frequency of the global goal, and the agent's influence, change nothing. *)
Theorem C89_global_phase_ignored_refuted : forall {T} (N : Num T) strat dec r1 r2 nb (a : Agent T) g g' x,
  st_coh g = st_coh g' ->
  ProposeAdjustment strat dec r1 r2 nb a g = ProposeAdjustment strat dec r1 r2 nb a g' /\
  ProposeAdjustment strat dec r1 r2 nb (SetInfluence x a) g = ProposeAdjustment strat dec r1 r2 nb a g.
Proof. intros T N strat dec r1 r2 nb a g g' x E. unfold ProposeAdjustment. rewrite E. split; reflexivity. Qed.
Print Assumptions C89_global_phase_ignored_refuted.

(** With the project's own strategies, no part of the global goal changes anything. *)
Theorem C89_global_ignored_refuted : forall {T} (N : Num T) dec r1 r2 nb (a : Agent T) g g' rate p now,
  let same st := ProposeAdjustment st dec r1 r2 nb a g = ProposeAdjustment st dec r1 r2 nb a g' in
  same (PhaseNudgePropose rate) /\ same (FrequencyLockPropose rate) /\ same EnergyAwarePropose /\
  same (fun c t x => snd (PulsePropose p now c t x)).
Proof. intros. unfold same. repeat split; reflexivity. Qed.
Print Assumptions C89_global_ignored_refuted.

(* ------------------------------------------------ the energy-aware strategy, in floats *)
Section FL.
Variable tr : Trig.

Lemma ctx_F nb (a : Agent F) : let a1 := @UpdateContext F (FNum tr) nb a in
  sd_phase (ag_sd a1) = sd_phase (ag_sd a) /\ cx_stability (ag_ctx a1) = flit 5 10 /\ cx_progress (ag_ctx a1) = fofZ 0.
Proof. destruct nb; repeat split; reflexivity. Qed.

Lemma zero_div_dull (x : F) : let z := fdiv (fmul (fofZ 0) (flit 5 10)) x in z = B754_nan \/ exists s, z = B754_zero s.
Proof.
  cbv zeta. assert (E : fmul (fofZ 0) (flit 5 10) = B754_zero false) by (vm_compute; reflexivity). rewrite E.
  destruct x as [s|s| |s m e B]; [left; reflexivity|right; eexists; reflexivity|left; reflexivity|right; eexists; reflexivity].
Qed.

(** Two options, the first of which scores nothing or is not a number. *)
Lemma decide_dull s (p : Action F) b : (@score F (FNum tr) p = B754_nan \/ exists z, @score F (FNum tr) p = B754_zero z) -> b = flit 5 10 ->
  fst (@Decide F (FNum tr) s [p; mkAction "maintain" (fofZ 0) (flit 1 10) b]) = mkAction "maintain" (fofZ 0) (flit 1 10) b.
Proof.
  intros Hs ->. unfold Decide. cbn [fold_left fst]. unfold decideStep at 2. cbn [snd].
  set (m := mkAction "maintain" _ _ _). set (z := @score F (FNum tr) p) in *.
  assert (M : forall y : F, y = fneg fmaxfloat \/ y = B754_zero true \/ y = B754_zero false -> flt y (@score F (FNum tr) m) = true).
  { intros y [->|[->| ->]]; vm_compute; reflexivity. }
  unfold decideStep. cbn [nlt nneg nmaxfloat FNum]. fold z.
  assert (C : flt (fneg fmaxfloat) z = true \/ flt (fneg fmaxfloat) z = false) by (destruct (flt (fneg fmaxfloat) z); auto).
  destruct C as [C|C]; rewrite C; cbn [snd].
  - rewrite M; [reflexivity|]. destruct Hs as [->|[[] ->]]; auto. discriminate C.
  - rewrite M; [reflexivity|]. now left.
Qed.

Lemma energy_dull cur tgt cx s b : cx_progress cx = fofZ 0 -> cx_stability cx = flit 5 10 -> b = flit 5 10 ->
  let p := fst (@EnergyAwarePropose F (FNum tr) cur tgt cx) in
  ac_type (fst (@Decide F (FNum tr) s [p; mkAction "maintain" (fofZ 0) (flit 1 10) b])) = "maintain"%string.
Proof.
  intros Hp Hs Hb. cbv zeta. unfold EnergyAwarePropose. set (D := @PhaseDifference F (FNum tr) _ _). clearbody D.
  destruct (@nlt F (FNum tr) (nabs D) (nlit 1 10)); cbn [fst].
  - cbn [Decide fold_left fst]. unfold decideStep. repeat match goal with |- context [if ?c then _ else _] => destruct c end; reflexivity.
  - rewrite decide_dull; auto. unfold score. cbn [ac_benefit ac_cost ndiv nmul nlit FNum]. rewrite Hp. apply zero_div_dull.
Qed.

(** An agent with the energy-aware strategy never changes its phase, whoever its neighbors are, whatever is drawn. *)
Theorem C89_energy_aware_refuted : forall (xs : list (Turn F)) (a : Agent F),
  sd_phase (ag_sd (@turns F (FNum tr) (@EnergyAwarePropose F (FNum tr)) a xs)) = sd_phase (ag_sd a).
Proof.
  induction xs as [|x xs IH]; intros a; [reflexivity|]. cbn [turns fold_left]. unfold turns in IH. rewrite IH.
  destruct (ctx_F (tn_nb x) a) as (E1 & E2 & E3). cbv zeta in *. unfold turn. cbv zeta.
  destruct (@proposed F (FNum tr) _ x a) as [act ok] eqn:P. destruct ok; cbn [fst snd]; [|exact E1]. rewrite <- E1.
  unfold proposed in P. apply C09_accept_iff in P. destruct P as (_ & prop & conf & acc & S1 & S2 & S3 & _).
  assert (Ty : ac_type act = "maintain"%string).
  { match type of S1 with _ ?c ?t ?k = _ => pose proof (energy_dull c t k c _ E3 E2 E2) as H end.
    cbv zeta in H. rewrite S1 in H. cbn [fst] in H. cbn [n0 nlit FNum nofZ] in S2. rewrite S2 in H. exact H. }
  unfold ApplyAction. rewrite S3, Ty. reflexivity.
Qed.
End FL.
Print Assumptions C89_energy_aware_refuted.

(* ------------------------------------------------ exact arithmetic *)

Lemma fold_rs (f : R -> R) l : fold_right (fun p s => f p + s) 0 l = rsum f l.
Proof. induction l as [|x l IH]; [reflexivity|]. cbn [fold_right rsum]. now rewrite IH. Qed.

Lemma faces_rmc nb m rho : faces nb m rho -> @MeasureCoherence R RNum nb = rho.
Proof.
  intros (Hn & Hr & C & S). rewrite fold_rs in C, S. rewrite RMC_unfold by auto. rewrite C, S.
  assert (Hp : 0 < INR (List.length nb)) by (destruct nb; [congruence|]; apply lt_0_INR; cbn; lia).
  rewrite <- INR_IZR_INZ. rewrite vlen_scale by (apply Rmult_le_pos; lra). unfold vlen.
  replace (cos m * cos m + sin m * sin m) with 1 by (pose proof (sin2_cos2 m) as E; unfold Rsqr in E; lra).
  rewrite sqrt_1. field. lra.
Qed.

Lemma faces_dir nb m rho x : faces nb m rho ->
  rsum cos nb = INR (List.length nb) * rho * cos x -> rsum sin nb = INR (List.length nb) * rho * sin x -> cong x m.
Proof.
  intros (Hn & Hr & C & S) C' S'. rewrite fold_rs in C, S. rewrite <- INR_IZR_INZ in C, S.
  assert (Hp : 0 < INR (List.length nb)) by (destruct nb; [congruence|]; apply lt_0_INR; cbn; lia).
  assert (K : INR (List.length nb) * rho <> 0) by (apply Rmult_integral_contrapositive; split; lra).
  assert (Ec : cos x = cos m) by (apply (Rmult_eq_reg_l (INR (List.length nb) * rho)); auto; lra).
  assert (Es : sin x = sin m) by (apply (Rmult_eq_reg_l (INR (List.length nb) * rho)); auto; lra).
  assert (H : cong (x - m) 0).
  { apply cos_1_cong. rewrite cos_minus, Ec, Es. pose proof (sin2_cos2 m) as E. unfold Rsqr in E. lra. }
  destruct H as [k E]. exists k. lra.
Qed.

(** What UpdateContext leaves behind. *)
Record looked (a a1 : Agent R) (rho m d D : R) : Prop := {
  lk_phase : sd_phase (ag_sd a1) = sd_phase (ag_sd a); lk_energy : sd_energy (ag_sd a1) = sd_energy (ag_sd a);
  lk_bd : ag_bd a1 = ag_bd a; lk_goal : is_arc (sd_goal (ag_sd a1)) (sd_phase (ag_sd a)) D;
  lk_stab : cx_stability (ag_ctx a1) = 1 / 2; lk_lc : cx_lc (ag_ctx a1) = rho; lk_D : 0 <= D <= PI; lk_rho : 0 < rho <= 1;
  lk_t : exists t, - PI < t <= PI /\ cong m (sd_phase (ag_sd a) + t) /\ cong (sd_goal (ag_sd a1)) (sd_phase (ag_sd a) + (1 + rho) / 2 * t) /\ d = Rabs t }.
Lemma look nb a rho D m d : faces nb m rho -> is_arc m (sd_phase (ag_sd a)) d -> D = (1 + rho) / 2 * d ->
  looked a (@UpdateContext R RNum nb a) rho m d D.
Proof.
  intros Hf Ha ED. pose proof Hf as (Hn & Hr & _).
  destruct (C16_context nb a Hn) as (_ & L & LB & (t & k & Ht & Hk & G & Ek & _ & C & S & _) & _ & Hc). cbv zeta in *.
  rewrite (faces_rmc _ _ _ Hf) in L. rewrite L in *.
  pose proof (faces_dir _ _ _ _ Hf C S) as Hm.
  assert (Ad : d = Rabs t).
  { apply (is_arc_unique _ _ _ _ Ha). apply is_arc_of_rep; [lra|]. destruct Hm as [j E]. exists (- j)%Z. rewrite opp_IZR. lra. }
  assert (Ag : is_arc (sd_goal (ag_sd (@UpdateContext R RNum nb a))) (sd_phase (ag_sd a)) D).
  { replace D with (Rabs (k * t)) by (rewrite Rabs_mult, (Rabs_pos_eq k) by lra; rewrite ED, Ad, Ek; lra).
    apply is_arc_of_rep.
    - apply Rabs_le_inv. rewrite Rabs_mult, (Rabs_pos_eq k) by lra. assert (Rabs t <= PI) by (apply Rabs_le; lra).
      pose proof (Rabs_pos t). pose proof PI_pos. apply Rle_trans with (1 * Rabs t); [apply Rmult_le_compat_r; lra|lra].
    - destruct G as [j E]. exists j. lra. }
  constructor; auto.
  - now rewrite Hc.
  - now rewrite Hc.
  - now rewrite Hc.
  - destruct nb as [|y nb0]; [congruence|]. cbn. lra.
  - apply (is_arc_bounds _ _ _ Ag).
  - lra.
  - exists t. split; [lra|]. split; [now apply cong_sym|]. split; [now rewrite <- Ek|exact Ad].
Qed.

Lemma decide_R s (p : Action R) b : b = 1 / 2 ->
  let m := mkAction "maintain" 0 (1 / 10) b in
  let sc := ac_benefit p / Rmax (ac_cost p) (1 / 10) in
  @Decide R RNum s [p; m] = if Rlt_bool sc 5 then (m, 1) else (p, 1).
Proof.
  intros ->. cbv zeta. set (m := mkAction _ _ _ _).
  assert (Em : @score R RNum m = 5) by (unfold score, m; cbn [ac_benefit ac_cost ndiv nmax nlit RNum]; rewrite Rmax_left by lra; lra).
  assert (Ep : @score R RNum p = ac_benefit p / Rmax (ac_cost p) (1 / 10)) by reflexivity.
  rewrite <- Ep. clear Ep. unfold Decide. cbn [fold_left].
  assert (M : exists mf, mf > 0 /\ @nneg R RNum nmaxfloat = - mf).
  { eexists. split; [|reflexivity]. apply Rmult_lt_0_compat; [|apply bpow_gt_0]. cbn -[IZR]. lra. }
  destruct M as (mf & M & ->). set (sc := @score R RNum p) in *.
  assert (E1 : @decideStep R RNum (p, - mf) p = (p, Rmax sc (- mf))).
  { unfold decideStep. cbn [snd nlt RNum]. fold sc. destruct (Rlt_bool_spec (- mf) sc); [rewrite Rmax_left by lra|rewrite Rmax_right by lra]; reflexivity. }
  rewrite E1.
  assert (E2 : @decideStep R RNum (p, Rmax sc (- mf)) m = if Rlt_bool sc 5 then (m, 5) else (p, sc)).
  { unfold decideStep. cbn [snd nlt RNum]. rewrite Em. destruct (Rlt_bool_spec sc 5) as [B|B].
    - rewrite Rlt_bool_true; [reflexivity|]. apply Rmax_lub_lt; lra.
    - rewrite Rmax_left by lra. rewrite Rlt_bool_false by lra. reflexivity. }
  rewrite E2. clear E1 E2 Em. clearbody sc m. destruct (Rlt_bool_spec sc 5) as [B|B]; cbn [fst snd nmin nmax ndiv nofZ RNum];
    change (@n0 R RNum) with 0; change (@n1 R RNum) with 1; f_equal; rewrite Rmax_left, Rmin_right by lra; reflexivity.
Qed.

(** One turn, whatever the strategy proposes. *)
Lemma turn_R (st : Strat R) (x : Turn R) (a : Agent R) rho m d D prop conf : faces (tn_nb x) m rho -> is_arc m (sd_phase (ag_sd a)) d -> D = (1 + rho) / 2 * d ->
  let a1 := @UpdateContext R RNum (tn_nb x) a in
  let cur := mkState (sd_phase (ag_sd a1)) (sd_freq (ag_sd a1)) (@localCoherence R RNum (sd_phase (ag_sd a1)) (tn_nb x)) in
  let tgt := mkState (sd_goal (ag_sd a1)) (sd_freq (ag_sd a1)) (st_coh (tn_goal x)) in
  st cur tgt (ag_ctx a1) = (prop, conf) ->
  let sc := ac_benefit prop / Rmax (ac_cost prop) (1 / 10) in
  let ok := snd (@proposed R RNum st x a) in
  let a' := @turn R RNum st a x in
  let e := sd_energy (ag_sd a) in
  (sc < 5 -> sd_phase (ag_sd a') = sd_phase (ag_sd a) /\ (ok = true <-> bd_stub (ag_bd a) <= tn_r1 x /\ 1 / 10 <= e /\ tn_r2 x < conf) /\
     sd_energy (ag_sd a') = e - (if ok then 1 / 10 else 0)) /\
  (5 <= sc -> phaseAction (ac_type prop) = true ->
     (ok = true <-> bd_stub (ag_bd a) <= tn_r1 x /\ ac_cost prop <= e /\ tn_r2 x < conf) /\
     sd_phase (ag_sd a') = (if ok then @WrapPhase R RNum (sd_phase (ag_sd a) + ac_value prop) else sd_phase (ag_sd a)) /\
     sd_energy (ag_sd a') = e - (if ok then ac_cost prop else 0)) /\
  bd_stub (ag_bd a') = bd_stub (ag_bd a).
Proof.
  intros Hf Ha ED a1 cur tgt Hst sc ok a' e.
  destruct (look _ _ _ _ _ _ Hf Ha ED) as [E1 E2 E3 _ E4 _ _ _ _]. fold a1 in E1, E2, E3, E4.
  assert (KB : bd_stub (ag_bd a') = bd_stub (ag_bd a)).
  { unfold a', turn. cbv zeta. fold a1. rewrite <- E3. destruct (snd _); [|reflexivity]. unfold ApplyAction.
    repeat match goal with |- context [if ?c then _ else _] => destruct c end; reflexivity. }
  assert (P : @proposed R RNum st x a =
    (if Rlt_bool (tn_r1 x) (bd_stub (ag_bd a)) then (maintain, false) else
     let (ch, acc) := (if Rlt_bool sc 5 then (mkAction "maintain" 0 (1 / 10) (cx_stability (ag_ctx a1)), 1) else (prop, 1)) in
     if Rlt_bool e (ac_cost ch) then (maintain, false) else if Rlt_bool (tn_r2 x) (conf * acc) then (ch, true) else (maintain, false))).
  { unfold proposed, ProposeAdjustment. fold a1. cbv zeta. fold cur tgt. cbn [nlt RNum]. rewrite E3, E2. fold e.
    destruct (Rlt_bool (tn_r1 x) (bd_stub (ag_bd a))); [reflexivity|]. rewrite Hst.
    pose proof (decide_R cur prop _ E4) as Q. cbv zeta in Q. fold sc in Q. rewrite <- Q. reflexivity. }
  split; [|split; [|exact KB]].
  - intros Hs. unfold a', turn, ok. cbv zeta. fold a1. rewrite P. rewrite (Rlt_bool_true sc 5 Hs). cbn [ac_cost].
    destruct (Rlt_bool_spec (tn_r1 x) (bd_stub (ag_bd a))) as [H1|H1]; cbn [snd fst].
    { rewrite E1, E2. fold e. split; [reflexivity|]. split; [|lra]. split; [discriminate|lra]. }
    destruct (Rlt_bool_spec e (1 / 10)) as [H2|H2]; cbn [snd fst].
    { rewrite E1, E2. fold e. split; [reflexivity|]. split; [|lra]. split; [discriminate|lra]. }
    destruct (Rlt_bool_spec (tn_r2 x) (conf * 1)) as [H3|H3]; cbn [snd fst].
    2:{ rewrite E1, E2. fold e. split; [reflexivity|]. split; [|lra]. split; [discriminate|lra]. }
    unfold ApplyAction. cbn [ac_cost ac_type nlt RNum]. rewrite E2. fold e. rewrite (Rlt_bool_false e (1 / 10)) by lra.
    cbn [phaseAction String.eqb]. split; [exact E1|]. split; [split; [intros _; lra|reflexivity]|].
    cbn -[Rmax Rlt_bool IZR]. change (Rmax 0 (sd_energy (ag_sd a1) - 1 / 10) = e - 1 / 10). rewrite E2. fold e. apply Rmax_right. lra.
  - intros Hs Ht. unfold a', turn, ok. cbv zeta. fold a1. rewrite P. rewrite (Rlt_bool_false sc 5) by lra.
    destruct (Rlt_bool_spec (tn_r1 x) (bd_stub (ag_bd a))) as [H1|H1]; cbn [snd fst].
    { rewrite E1, E2. fold e. split; [split; [discriminate|lra]|]. split; [reflexivity|lra]. }
    destruct (Rlt_bool_spec e (ac_cost prop)) as [H2|H2]; cbn [snd fst].
    { rewrite E1, E2. fold e. split; [split; [discriminate|lra]|]. split; [reflexivity|lra]. }
    destruct (Rlt_bool_spec (tn_r2 x) (conf * 1)) as [H3|H3]; cbn [snd fst].
    2:{ rewrite E1, E2. fold e. split; [split; [discriminate|lra]|]. split; [reflexivity|lra]. }
    unfold ApplyAction. cbn [nlt RNum]. rewrite E2. fold e. rewrite (Rlt_bool_false e (ac_cost prop)) by lra. rewrite Ht.
    split; [split; [intros _; lra|reflexivity]|]. split.
    + change (@WrapPhase R RNum (sd_phase (ag_sd a1) + ac_value prop) = @WrapPhase R RNum (sd_phase (ag_sd a) + ac_value prop)). now rewrite E1.
    + change (Rmax 0 (sd_energy (ag_sd a1) - ac_cost prop) = e - ac_cost prop). rewrite E2. fold e. apply Rmax_right. lra.
Qed.

Lemma arc_near a b d : is_arc a b d -> Rabs (Rabs (@PhaseDifference R RNum a b) - d) <= 2 / 10000000000.
Proof.
  intros H. destruct (RPD_arc a b d H) as [E|[E1 E2]]; [rewrite E, Rminus_diag_eq, Rabs_R0 by reflexivity; lra|].
  rewrite E1, <- Rabs_Ropp. replace (- (PI / 2 - d)) with (d - PI / 2) by ring. exact E2.
Qed.

Lemma Rmax_near x y c e : Rabs (x - y) <= e -> Rmax y c - e <= Rmax x c.
Proof. intros H. apply Rabs_le_inv in H. unfold Rmax. destruct (Rle_dec y c), (Rle_dec x c); lra. Qed.

Lemma score_lt b c : b < 5 * Rmax c (1 / 10) -> b / Rmax c (1 / 10) < 5.
Proof.
  intros H. assert (0 < Rmax c (1 / 10)) by (pose proof (Rmax_r c (1 / 10)); lra).
  apply (Rmult_lt_reg_r (Rmax c (1 / 10))); auto. unfold Rdiv. rewrite Rmult_assoc, Rinv_l by lra. lra.
Qed.
Lemma score_ge b c : 5 * Rmax c (1 / 10) <= b -> 5 <= b / Rmax c (1 / 10).
Proof.
  intros H. assert (0 < Rmax c (1 / 10)) by (pose proof (Rmax_r c (1 / 10)); lra).
  apply (Rmult_le_reg_r (Rmax c (1 / 10))); auto. unfold Rdiv. rewrite Rmult_assoc, Rinv_l by lra. lra.
Qed.

Section Frozen.
Variable st : Strat R.
(** Turns in which the proposal is worth less than keeping still. *)
Definition dullTurn (p : R) (x : Turn R) : Prop := exists rho m d D, faces (tn_nb x) m rho /\ is_arc m p d /\ D = (1 + rho) / 2 * d /\
  forall cur tgt cx, st_phase cur = p -> is_arc (st_phase tgt) p D -> cx_lc cx = rho ->
    ac_benefit (fst (st cur tgt cx)) / Rmax (ac_cost (fst (st cur tgt cx))) (1 / 10) < 5.
Lemma frozen xs : forall a : Agent R, Forall (dullTurn (sd_phase (ag_sd a))) xs ->
  let a' := @turns R RNum st a xs in
  sd_phase (ag_sd a') = sd_phase (ag_sd a) /\
  sd_energy (ag_sd a') = sd_energy (ag_sd a) - INR (@accepted R RNum st a xs) / 10 /\
  (0 <= sd_energy (ag_sd a) -> 0 <= sd_energy (ag_sd a')).
Proof.
  induction xs as [|x xs IH]; intros a H; cbv zeta.
  - cbn. repeat split; auto. lra.
  - inversion H as [|? ? (rho & m & d & D & Hf & Ha & ED & Hd) H']; subst. clear H.
    destruct (look _ _ _ _ _ _ Hf Ha eq_refl) as [E1 E2 E3 E4 _ E5 _ _ _].
    set (a1 := @UpdateContext R RNum (tn_nb x) a) in *.
    set (cur := mkState (sd_phase (ag_sd a1)) (sd_freq (ag_sd a1)) (@localCoherence R RNum (sd_phase (ag_sd a1)) (tn_nb x))).
    set (tgt := mkState (sd_goal (ag_sd a1)) (sd_freq (ag_sd a1)) (st_coh (tn_goal x))).
    destruct (st cur tgt (ag_ctx a1)) as [prop conf] eqn:Hst.
    specialize (Hd cur tgt (ag_ctx a1) E1 E4 E5). rewrite Hst in Hd. cbn [fst] in Hd.
    destruct (turn_R st x a rho m d _ prop conf Hf Ha eq_refl Hst) as (T & _ & _). destruct (T Hd) as (T1 & T2 & T3). clear T.
    cbn [turns fold_left accepted]. change (fold_left (@turn R RNum st) xs (@turn R RNum st a x)) with (@turns R RNum st (@turn R RNum st a x) xs).
    rewrite <- T1 in H'. destruct (IH _ H') as (I1 & I2 & I3). cbv zeta in *. rewrite plus_INR.
    split; [congruence|]. destruct (snd (proposed st x a)); cbn [INR].
    + destruct T2 as [T2 _]. specialize (T2 eq_refl). split; [lra|]. intros _. apply I3. lra.
    + split; [lra|]. intros Hn. apply I3. lra.
Qed.
End Frozen.

(** A nudging agent whose neighbors pull from so far that moving is worth less than keeping still never moves; all it does is spend its energy. *)
Theorem C89_nudge_frozen_refuted : forall r (xs : list (Turn R)) (a : Agent R), 0 <= r <= 1 ->
  (forall x, In x xs -> exists rho D, pulled (tn_nb x) (sd_phase (ag_sd a)) rho D /\ nudge_dull r D) ->
  let a' := @turns R RNum (@PhaseNudgePropose R RNum r) a xs in
  sd_phase (ag_sd a') = sd_phase (ag_sd a) /\
  sd_energy (ag_sd a') = sd_energy (ag_sd a) - INR (@accepted R RNum (@PhaseNudgePropose R RNum r) a xs) / 10 /\
  (0 <= sd_energy (ag_sd a) -> 0 <= sd_energy (ag_sd a')).
Proof.
  intros r xs a Hr H. apply frozen. apply Forall_forall. intros x Hx. destruct (H x Hx) as (rho & D & (m & d & Hf & Ha & ED) & Hd).
  exists rho, m, d, D. repeat (split; [assumption|]). intros cur tgt cx Ec At _.
  unfold PhaseNudgePropose. rewrite Ec. pose proof (arc_near _ _ _ At) as N. set (v := @PhaseDifference R RNum _ _) in *.
  cbn [fst ac_benefit ac_cost nmul nabs nsub ndiv nlit npi n1 nofZ RNum]. fold v. apply score_lt. unfold nudge_dull in Hd.
  change (@n1 R RNum) with 1. replace (@npi R RNum) with PI by (unfold npi; cbn [nhalfpi RNum]; field).
  assert (PI > 3) by (pose proof PI_gt3; lra).
  assert (Ev : Rabs (v * r) * 2 = 2 * r * Rabs v) by (rewrite Rabs_mult, (Rabs_pos_eq r) by lra; ring). rewrite Ev.
  assert (M : Rmax (2 * r * D) (1 / 10) - 4 / 10000000000 <= Rmax (2 * r * Rabs v) (1 / 10)).
  { apply Rmax_near. replace (2 * r * Rabs v - 2 * r * D) with ((2 * r) * (Rabs v - D)) by ring. rewrite Rabs_mult, (Rabs_pos_eq (2 * r)) by lra.
    replace (4 / 10000000000) with (2 * (2 / 10000000000)) by lra. apply Rmult_le_compat; try lra. apply Rabs_pos. }
  assert (B : D / PI - Rabs v / PI <= 1 / 10000000000).
  { apply Rabs_le_inv in N. replace (D / PI - Rabs v / PI) with ((D - Rabs v) / PI) by (field; lra).
    apply (Rmult_le_reg_r PI); [lra|]. unfold Rdiv at 1. rewrite Rmult_assoc, Rinv_l by lra. lra. }
  lra.
Qed.
Print Assumptions C89_nudge_frozen_refuted.

(** The same for the frequency-locking strategy: the less coherent the neighbors, the closer one has to be to move at all. *)
Theorem C89_lock_frozen_refuted : forall r (xs : list (Turn R)) (a : Agent R), 0 <= r <= 1 ->
  (forall x, In x xs -> exists rho D, pulled (tn_nb x) (sd_phase (ag_sd a)) rho D /\ lock_dull r rho D) ->
  let a' := @turns R RNum (@FrequencyLockPropose R RNum r) a xs in
  sd_phase (ag_sd a') = sd_phase (ag_sd a) /\
  sd_energy (ag_sd a') = sd_energy (ag_sd a) - INR (@accepted R RNum (@FrequencyLockPropose R RNum r) a xs) / 10 /\
  (0 <= sd_energy (ag_sd a) -> 0 <= sd_energy (ag_sd a')).
Proof.
  intros r xs a Hr H. apply frozen. apply Forall_forall. intros x Hx. destruct (H x Hx) as (rho & D & (m & d & Hf & Ha & ED) & Hd).
  exists rho, m, d, D. repeat (split; [assumption|]). intros cur tgt cx Ec At El.
  unfold FrequencyLockPropose. rewrite Ec, El. pose proof (arc_near _ _ _ At) as N. set (v := @PhaseDifference R RNum _ _) in *.
  cbn [fst ac_benefit ac_cost nmul nabs nofZ RNum]. apply score_lt. unfold lock_dull in Hd.
  assert (Ev : Rabs (v * r) * 3 = 3 * r * Rabs v) by (rewrite Rabs_mult, (Rabs_pos_eq r) by lra; ring). rewrite Ev.
  assert (M : Rmax (3 * r * D) (1 / 10) - 6 / 10000000000 <= Rmax (3 * r * Rabs v) (1 / 10)).
  { apply Rmax_near. replace (3 * r * Rabs v - 3 * r * D) with ((3 * r) * (Rabs v - D)) by ring. rewrite Rabs_mult, (Rabs_pos_eq (3 * r)) by lra.
    replace (6 / 10000000000) with (3 * (2 / 10000000000)) by lra. apply Rmult_le_compat; try lra. apply Rabs_pos. }
  lra.
Qed.
Print Assumptions C89_lock_frozen_refuted.

(** The nudge, once it is worth it. *)
Lemma nudge_turn r x a rho m d : / 20 <= r <= 1 -> faces (tn_nb x) m rho -> is_arc m (sd_phase (ag_sd a)) d -> nudge_worth r ((1 + rho) / 2 * d) ->
  let q := r * ((1 + rho) / 2) in
  let ok := snd (@proposed R RNum (@PhaseNudgePropose R RNum r) x a) in
  let a' := @turn R RNum (@PhaseNudgePropose R RNum r) a x in
  0 < q <= 1 /\
  (ok = true <-> bd_stub (ag_bd a) <= tn_r1 x /\ 2 * q * d <= sd_energy (ag_sd a) /\ tn_r2 x < Rmax (1 / 2) (1 - rho)) /\
  is_arc m (sd_phase (ag_sd a')) (if ok then (1 - q) * d else d) /\
  sd_energy (ag_sd a') = sd_energy (ag_sd a) - (if ok then 2 * q * d else 0) /\
  bd_stub (ag_bd a') = bd_stub (ag_bd a).
Proof.
  intros Hr Hf Ha Hw q ok a'. set (D := (1 + rho) / 2 * d) in *.
  destruct (look _ _ _ D _ _ Hf Ha eq_refl) as [E1 E2 E3 E4 E5 E6 E7 E8 (t & Ht & Hm & Hg & Et)].
  set (a1 := @UpdateContext R RNum (tn_nb x) a) in *.
  pose proof PI_gt3 as P3. pose proof PI_bounds as PB. assert (Hq : 0 < q <= 1).
  { unfold q. split; [apply Rmult_lt_0_compat; lra|]. apply Rle_trans with (1 * 1); [apply Rmult_le_compat; lra|lra]. }
  split; [exact Hq|]. pose proof (is_arc_bounds _ _ _ Ha) as Hd.
  set (g := sd_goal (ag_sd a1)) in *. set (ph := sd_phase (ag_sd a)) in *.
  assert (HD : D < PI / 2 - 1 / 100).
  { unfold nudge_worth in Hw. pose proof (Rmax_l (2 * r * D) (1 / 10)) as M1. assert (2 * / 20 * D <= 2 * r * D) by (apply Rmult_le_compat_r; lra).
    assert (31 / 10 < PI) by lra.
    destruct (Rlt_or_le D (PI / 2 - 1 / 100)) as [|C]; auto. exfalso.
    assert (D / PI >= 1 / 2 - 1 / 300).
    { apply Rle_ge. apply (Rmult_le_reg_r PI); [lra|]. unfold Rdiv at 3. rewrite (Rmult_assoc D), Rinv_l by lra. lra. }
    lra. }
  assert (NS : ~ pd_special g ph).
  { intros S. destruct (RPD_arc g ph D E4) as [E|[_ E]]; [|apply Rabs_le_inv in E; lra].
    assert (Rabs (@PhaseDifference R RNum g ph) = PI / 2).
    { destruct S as [[S1 S2]|[S1 S2]]; [rewrite (RPD_special1 _ _ S1 S2), Rabs_Ropp|rewrite (RPD_special2 _ _ S1 S2)]; apply Rabs_pos_eq; lra. }
    lra. }
  destruct (RPD_spec g ph NS) as (V1 & V2 & V3). set (v := @PhaseDifference R RNum g ph) in *.
  pose proof (is_arc_unique _ _ _ _ E4 V3) as Ev.
  set (k := (1 + rho) / 2) in *. assert (Hk : 1 / 2 <= k <= 1) by (unfold k; lra).
  assert (Hv : v = k * t).
  { apply cong_unique_pi; [lra| |].
    - split.
      + destruct (Rle_or_lt 0 t); [pose proof (Rmult_le_pos k t); lra|]. pose proof (Rmult_le_compat_r (- t) k 1); lra.
      + destruct (Rle_or_lt 0 t); [apply Rle_trans with (1 * t); [apply Rmult_le_compat_r; lra|lra]|]. apply Rle_trans with 0; [|lra]. pose proof (Rmult_le_pos k (- t)). lra.
    - destruct V2 as [i I]. destruct Hg as [j J]. exists (i + j)%Z. rewrite plus_IZR. lra. }
  set (cur := mkState (sd_phase (ag_sd a1)) (sd_freq (ag_sd a1)) (@localCoherence R RNum (sd_phase (ag_sd a1)) (tn_nb x))).
  set (tgt := mkState (sd_goal (ag_sd a1)) (sd_freq (ag_sd a1)) (st_coh (tn_goal x))).
  destruct (@PhaseNudgePropose R RNum r cur tgt (ag_ctx a1)) as [prop conf] eqn:Hst.
  destruct (turn_R (@PhaseNudgePropose R RNum r) x a rho m d D prop conf Hf Ha eq_refl Hst) as (_ & T & TB).
  unfold PhaseNudgePropose in Hst. cbn [st_phase cur tgt] in Hst. rewrite E1 in Hst. fold g ph v in Hst. inversion Hst. subst prop conf. clear Hst.
  cbn [ac_benefit ac_cost ac_value ac_type nmul nabs nsub ndiv nlit n1 nofZ nmax RNum] in T.
  change (@n1 R RNum) with 1 in T. replace (2 * PI / 2) with PI in T by field.
  rewrite <- Ev, E6 in T. replace (Rabs (v * r) * 2) with (2 * r * D) in T by (rewrite Rabs_mult, (Rabs_pos_eq r), <- Ev by lra; ring).
  assert (Cq : 2 * r * D = 2 * q * d) by (unfold q, D; ring).
  destruct T as (T1 & T2 & T3); [apply score_ge; unfold nudge_worth in Hw; lra|reflexivity|].
  change (snd (@proposed R RNum (@PhaseNudgePropose R RNum r) x a)) with ok in T1, T2, T3.
  change (@turn R RNum (@PhaseNudgePropose R RNum r) a x) with a' in T2, T3, TB.
  rewrite Cq in T1, T3. replace (5 / 10) with (1 / 2) in T1 by lra.
  split; [exact T1|]. split; [|split; [exact T3|exact TB]]. rewrite T2. destruct ok; [|exact Ha].
  destruct (RWrap_spec (ph + v * r)) as [_ W].
  assert (A : is_arc m (@WrapPhase R RNum (ph + v * r)) (Rabs ((1 - q) * t))).
  { apply is_arc_of_rep.
    - apply Rabs_le_inv. rewrite Rabs_mult, (Rabs_pos_eq (1 - q)), <- Et by lra. apply Rle_trans with (1 * d); [apply Rmult_le_compat_r; lra|lra].
    - destruct W as [i I]. destruct Hm as [j J]. exists (j - i)%Z. rewrite minus_IZR. rewrite I, J, Hv. unfold q. ring. }
  rewrite Rabs_mult, (Rabs_pos_eq (1 - q)), <- Et in A by lra. exact A.
Qed.

Lemma worth_closer r D D' : 0 <= r -> 0 <= D' <= D -> nudge_worth r D -> nudge_worth r D'.
Proof.
  unfold nudge_worth. intros Hr HD H. pose proof PI_gt3. assert (D' / PI <= D / PI) by (apply Rmult_le_compat_r; [apply Rlt_le, Rinv_0_lt_compat; lra|lra]).
  assert (Rmax (2 * r * D') (1 / 10) <= Rmax (2 * r * D) (1 / 10)).
  { apply Rle_max_compat_r. apply Rmult_le_compat_l; lra. }
  lra.
Qed.

(** Within reach: with every accepted turn the agent covers the same share of its way to the mean direction of its neighbors, and in the
    end it has spent twice the way it went.  With enough energy and every draw in its favour, every turn is accepted. *)
Theorem C89_approach : forall r m rho (xs : list (Turn R)) (a : Agent R) d, / 20 <= r <= 1 ->
  (forall x, In x xs -> faces (tn_nb x) m rho) -> is_arc m (sd_phase (ag_sd a)) d -> nudge_worth r ((1 + rho) / 2 * d) ->
  let st := @PhaseNudgePropose R RNum r in let n := @accepted R RNum st a xs in let a' := @turns R RNum st a xs in
  let left := (1 - r * ((1 + rho) / 2)) ^ n * d in
  is_arc m (sd_phase (ag_sd a')) left /\ sd_energy (ag_sd a') = sd_energy (ag_sd a) - 2 * (d - left) /\
  (2 * d <= sd_energy (ag_sd a) -> (forall x, In x xs -> bd_stub (ag_bd a) <= tn_r1 x /\ tn_r2 x < 1 / 2) -> n = List.length xs).
Proof.
  intros r m rho xs. induction xs as [|x xs IH]; intros a d Hr Hx Ha Hw; cbv zeta.
  - cbn [turns fold_left accepted pow List.length]. rewrite Rmult_1_l. split; [exact Ha|]. split; [lra|reflexivity].
  - destruct (nudge_turn r x a rho m d Hr (Hx x (or_introl eq_refl)) Ha Hw) as (Q & A1 & A2 & A3 & A4). cbv zeta in *.
    pose proof (is_arc_bounds _ _ _ Ha) as Bd. set (q := r * ((1 + rho) / 2)) in *. set (st := @PhaseNudgePropose R RNum r) in *.
    cbn [turns fold_left accepted]. change (fold_left (@turn R RNum st) xs (@turn R RNum st a x)) with (@turns R RNum st (@turn R RNum st a x) xs).
    pose proof (Rmax_l (1 / 2) (1 - rho)) as ML. destruct (Hx x (or_introl eq_refl)) as (_ & Rp & _).
    set (d' := if snd (@proposed R RNum st x a) then (1 - q) * d else d) in *.
    assert (Bd' : 0 <= d' <= d).
    { unfold d'. destruct (snd _); [|lra]. split; [apply Rmult_le_pos; lra|]. apply Rle_trans with (1 * d); [apply Rmult_le_compat_r; lra|lra]. }
    destruct (IH (@turn R RNum st a x) d' Hr (fun y Hy => Hx y (or_intror Hy)) A2) as (I1 & I2 & I3).
    { apply (worth_closer r ((1 + rho) / 2 * d)); auto; [lra|]. split; [apply Rmult_le_pos; lra|apply Rmult_le_compat_l; lra]. }
    cbv zeta in *. fold st q in I1, I2, I3. set (n := @accepted R RNum st (@turn R RNum st a x) xs) in *.
    unfold d' in *. destruct (snd (@proposed R RNum st x a)) eqn:OK.
    + replace ((1 - q) ^ (1 + n) * d) with ((1 - q) ^ n * ((1 - q) * d)) by (cbn [plus pow]; ring).
      split; [exact I1|]. split; [rewrite I2, A3; ring|]. intros He Hall. cbn [plus List.length]. f_equal. apply I3.
      * rewrite A3. lra.
      * intros y Hy. rewrite A4. apply Hall. now right.
    + change (0 + n)%nat with n. split; [exact I1|]. split; [rewrite I2, A3; ring|]. intros He Hall. exfalso.
      destruct (Hall x (or_introl eq_refl)) as [R1 R2]. destruct A1 as [_ A1]. assert (false = true); [|discriminate]. apply A1.
      split; auto. split; [|lra]. apply Rle_trans with (2 * 1 * d); [|lra]. apply Rmult_le_compat_r; lra.
Qed.
Print Assumptions C89_approach.

Lemma one_neighbor p q : - PI <= q - p <= PI -> pulled [q] p 1 (Rabs (q - p)) /\ faces [q] q 1.
Proof.
  intros H. assert (Fq : faces [q] q 1).
  { split; [discriminate|]. split; [lra|]. cbn [fold_right List.length Z.of_nat Pos.of_succ_nat]. split; ring. }
  split; [|exact Fq]. exists q, (Rabs (q - p)). split; [exact Fq|]. split; [apply is_arc_of_rep; [exact H|exists 0%Z; ring]|field].
Qed.

(** Half a radian is already too far at the default rate: two agents half a radian apart, neighbors of one another, never come closer. *)
Theorem C89_half_radian_refuted : forall (xs : list (Turn R)) (a : Agent R), sd_phase (ag_sd a) = 0 -> (forall x, In x xs -> tn_nb x = [1 / 2]) ->
  sd_phase (ag_sd (@turns R RNum (@PhaseNudgePropose R RNum (3 / 10)) a xs)) = 0.
Proof.
  intros xs a E H. rewrite <- E. apply C89_nudge_frozen_refuted; [lra|]. intros x Hx. rewrite (H x Hx), E. exists 1, (Rabs (1 / 2 - 0)).
  pose proof PI_bounds as PB. split; [apply one_neighbor; lra|]. unfold nudge_dull. rewrite Rabs_pos_eq by lra.
  rewrite Rmax_left by lra. assert (1 / 8 <= (1 / 2 - 0) / PI); [|lra]. apply (Rmult_le_reg_r PI); [lra|]. unfold Rdiv at 2. rewrite Rmult_assoc, Rinv_l by lra. lra.
Qed.
Print Assumptions C89_half_radian_refuted.

(** The hypotheses can be met: an agent at 0 with a neighbor half a radian ahead, or a fifth of a radian ahead. *)
Example C89_frozen_hyp : exists (a : Agent R) x, sd_phase (ag_sd a) = 0 /\ tn_nb x = [1 / 2] /\ 10 <= sd_energy (ag_sd a) /\
  snd (@proposed R RNum (@PhaseNudgePropose R RNum (3 / 10)) x a) = true.
Proof.
  set (a := mkAgent "a" (mkSD 0 100 0 1%Z) (mkBD (1 / 2) 0) (@ctx0 R RNum) 2 1 true true None None).
  exists a, (mkTurn [1 / 2] 0 0 (mkState 0 1%Z 0)).
  pose proof PI_bounds as PB. destruct (one_neighbor 0 (1 / 2)) as [P Hf]; [lra|].
  split; [reflexivity|]. split; [reflexivity|]. split; [cbn; lra|].
  assert (Ha : is_arc (1 / 2) (sd_phase (ag_sd a)) (1 / 2)).
  { replace (1 / 2) with (Rabs (1 / 2)) at 2 by (apply Rabs_pos_eq; lra). apply is_arc_of_rep; [lra|]. exists 0%Z. cbn. lra. }
  set (x := mkTurn _ _ _ _). 
  destruct (turn_R (@PhaseNudgePropose R RNum (3 / 10)) x a 1 (1 / 2) (1 / 2) (1 / 2) _ _ Hf Ha ltac:(lra) (surjective_pairing _)) as (T & _ & _).
  destruct T as (_ & T & _).
  2:{ apply T. cbn [bd_stub ag_bd a tn_r1 tn_r2 x sd_energy ag_sd]. split; [lra|]. split; [lra|]. unfold PhaseNudgePropose. cbn [snd nmax RNum].
      apply Rlt_le_trans with (5 / 10); [lra|]. apply Rmax_l. }
  apply score_lt. unfold PhaseNudgePropose. cbn [fst ac_benefit ac_cost st_phase].
  destruct (look _ _ _ (1 / 2) _ _ Hf Ha ltac:(lra)) as [E1 _ _ E4 _ _ _ _ _]. cbn [tn_nb x]. rewrite E1.
  pose proof (arc_near _ _ _ E4) as N. set (v := @PhaseDifference R RNum _ _) in *. apply Rabs_le_inv in N.
  cbn [nmul nabs nsub ndiv nlit n1 nofZ RNum]. change (@n1 R RNum) with 1. replace (@npi R RNum) with PI by (unfold npi; cbn [nhalfpi RNum]; field).
  rewrite Rabs_mult, (Rabs_pos_eq (3 / 10)) by lra. rewrite Rmax_left by lra.
  assert (1 / 8 <= Rabs v / PI); [|lra]. apply (Rmult_le_reg_r PI); [lra|]. unfold Rdiv at 2. rewrite Rmult_assoc, Rinv_l by lra. lra.
Qed.
Example C89_approach_hyp : pulled [1 / 5] 0 1 (1 / 5) /\ faces [1 / 5] (1 / 5) 1 /\ nudge_worth (3 / 10) ((1 + 1) / 2 * (1 / 5)).
Proof.
  pose proof PI_bounds as PB. destruct (one_neighbor 0 (1 / 5)) as [P Hf]; [lra|]. rewrite Rabs_pos_eq, Rminus_0_r in P by lra.
  split; [exact P|]. split; [exact Hf|]. unfold nudge_worth. rewrite Rmax_left by lra.
  assert ((1 + 1) / 2 * (1 / 5) / PI <= 1 / 10); [|lra]. apply (Rmult_le_reg_r PI); [lra|]. unfold Rdiv at 1. rewrite Rmult_assoc, Rinv_l by lra. lra.
Qed.
(** A frequency-locking agent whose neighbors are barely coherent (less than a quarter) never moves, wherever they are. *)
Example C89_lock_hyp : forall r D rho, rho <= 0.249 -> lock_dull r rho D.
Proof. intros r D rho H. unfold lock_dull. pose proof (Rmax_r (3 * r * D) (1 / 10)). lra. Qed.
