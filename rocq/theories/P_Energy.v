(** C93: energy over the life of an agent. *)
From Coq Require Import ZArith Reals Psatz Bool List String Lia.
Require Import Flocq.Prop.Plus_error Flocq.Prop.Relative.
From Flocq Require Import Core.Core IEEE754.BinarySingleNaN.
From Verif Require Import Num GoBase F64 RealNum L_F64 L_State L_Circle L_Pattern M_Random M_Core M_Resource M_Strategy M_Agent S_Circle S_Loop L_Agent P_Agent P_SimReset P_RoundDir.
Import ListNotations.
Open Scope list_scope.

(** ** Vocabulary *)
(** A call that neither sets the energy nor hands over a new resource manager, and whose action does not cost a negative amount. *)
Definition plain (o : AgentOp F) : Prop :=
  match o with
  | OSetEnergy _ | OWithTokens _ => False
  | OApply act => is_finite (ac_cost act) = true /\ 0 <= B2R (ac_cost act)
  | _ => True
  end.
Definition energyF (a : Agent F) : R := B2R (sd_energy (ag_sd a)).
Definition charged (a : Agent F) : Prop := is_finite (sd_energy (ag_sd a)) = true /\ 0 <= energyF a.

Section Floats.
Variable tr : Trig.
(** How many actions of a history succeeded and cost at least [c]. *)
Fixpoint dear (c : R) (a : Agent F) (l : list (AgentOp F)) : nat :=
  match l with
  | [] => O
  | o :: r =>
    ((match o with
      | OApply act => match snd (@ApplyAction F (FNum tr) a act) with ApplyOK _ => if Rle_bool c (B2R (ac_cost act)) then 1 else 0 | _ => 0 end
      | _ => 0
      end) + dear c (@agentStep F (FNum tr) a o) r)%nat
  end.
Lemma spend_le e k : fmt e -> fmt k -> 0 <= k <= e -> rnd (e - k) <= e - k + bpow radix2 (-53) * e.
Proof.
  intros He Hk H. destruct (FLT_plus_error_N_ex radix2 (SpecFloat.emin 53 1024) 53 (fun x => negb (Z.even x)) e (- k)) as (eps & E1 & E2); [exact He|now apply generic_format_opp|].
  unfold rnd, Rminus. change (SpecFloat.fexp 53 1024) with (FLT_exp (SpecFloat.emin 53 1024) 53). rewrite E2. clear E2.
  assert (B : u_ro radix2 53 = bpow radix2 (-53)) by (unfold u_ro; change (bpow radix2 (- (53) + 1)) with (/ 4503599627370496); change (bpow radix2 (-53)) with (/ 9007199254740992); lra).
  rewrite B in E1. pose proof (bpow_gt_0 radix2 (-53)) as P. set (u := bpow radix2 (-53)) in *. clearbody u.
  assert (U : u / (1 + u) <= u). { apply Rmult_le_reg_r with (1 + u); [lra|]. unfold Rdiv. rewrite Rmult_assoc, Rinv_l by lra. nra. }
  apply Rabs_le_inv in E1. nra.
Qed.
Lemma step_energy a o : charged a -> plain o -> charged (@agentStep F (FNum tr) a o) /\ energyF (@agentStep F (FNum tr) a o) <= energyF a.
Proof.
  intros [C1 C2] P. destruct o as [p|b|f|e|g|b|x|x|rm|act]; try contradiction; try (split; [split|apply Rle_refl]; assumption). destruct P as [P1 P2]. cbn [agentStep].
  destruct (snd (@ApplyAction F (FNum tr) a act)) as [c| |] eqn:E.
  - destruct (C08_energy_float tr a act c C1 C2 P1 P2 E) as (A & B & D). cbv zeta in *. split; [split; [|apply D]|apply D].
    assert (NZ : is_finite (sd_energy (ag_sd (fst (@ApplyAction F (FNum tr) a act)))) = true).
    { destruct (@apply_ok F (FNum tr) a act c E) as (_ & K & _). cbv zeta in K. rewrite K. change (@nmax F (FNum tr)) with fmax. change (@n0 F (FNum tr)) with (fofZ 0). change (@nsub F (FNum tr)) with fsub.
      destruct (fsub_ord (sd_energy (ag_sd a)) (ac_cost act) C1 P1) as [S1 S2]. pose proof (B2R_lt_BIG (sd_energy (ag_sd a))) as BB.
      assert (S3 : 0 <= rnd (B2R (sd_energy (ag_sd a)) - B2R (ac_cost act)) <= B2R (sd_energy (ag_sd a))) by (split; [apply rnd_ge_0; lra|apply rnd_le_fmt; [apply fmt_B2R|lra]]).
      rewrite sat_id in S2 by lra. destruct (fmax_cases (fofZ 0) (fsub (sd_energy (ag_sd a)) (ac_cost act)) (fofZ_nan 0) S1) as [M1 M2]. rewrite f0_ord, S2, Rmax_right in M2 by lra. apply ford_fin_inv; auto; lra. }
    exact NZ.
  - rewrite (apply_err_unchanged a act _ E) by discriminate. split; [split; assumption|apply Rle_refl].
  - rewrite (apply_err_unchanged a act _ E) by discriminate. split; [split; assumption|apply Rle_refl].
Qed.
(** Energy never comes back: over any history of such calls it only falls. *)
Theorem C93_no_recovery_refuted : forall l a, charged a -> Forall plain l -> charged (@agentRun F (FNum tr) a l) /\ energyF (@agentRun F (FNum tr) a l) <= energyF a.
Proof.
  unfold agentRun. induction l as [|o l IH]; intros a C P; cbn [fold_left]; [split; [exact C|apply Rle_refl]|]. inversion P as [|? ? P1 P2]. subst.
  destruct (step_energy a o C P1) as [A B]. destruct (IH _ A P2) as [D E]. split; [exact D|]. eapply Rle_trans; [exact E|exact B].
Qed.
(** So an agent can take only so many steps that cost at least [c] (the quarter pays for the rounding). *)
Theorem C93_actions_bounded : forall c l a, charged a -> Forall plain l -> 0 < c -> bpow radix2 (-51) * energyF a <= c -> 3 / 4 * c * INR (dear c a l) <= energyF a.
Proof.
  intros c l a C P Hc. set (m := energyF a) at 1. intros Hm. assert (K : energyF a <= m) by apply Rle_refl. clearbody m. revert a C K.
  induction l as [|o l IH]; intros a C K; cbn [dear]; [cbn [INR]; destruct C; lra|]. inversion P as [|? ? P1 P2]. subst. destruct (step_energy a o C P1) as [A B].
  assert (D : 3 / 4 * c * INR (dear c (@agentStep F (FNum tr) a o) l) <= energyF (@agentStep F (FNum tr) a o)) by (apply (IH P2); [exact A|lra]).
  rewrite plus_INR. enough (E : energyF (@agentStep F (FNum tr) a o) + 3 / 4 * c * INR (match o with OApply act => match snd (@ApplyAction F (FNum tr) a act) with ApplyOK _ => if Rle_bool c (B2R (ac_cost act)) then 1 else 0 | _ => 0 end | _ => 0 end) <= energyF a) by lra.
  destruct o as [p|b|f|e|g|b|x|x|rm|act]; cbn [INR]; try (rewrite Rmult_0_r; lra). destruct (snd (@ApplyAction F (FNum tr) a act)) as [k| |] eqn:E; cbn [INR]; try (rewrite Rmult_0_r; lra).
  destruct (Rle_bool_spec c (B2R (ac_cost act))) as [L|L]; cbn [INR]; [|rewrite Rmult_0_r; lra]. destruct C as [C1 C2]. destruct P1 as [Q1 Q2].
  destruct (C08_energy_float tr a act k C1 C2 Q1 Q2 E) as (S1 & S2 & _). cbv zeta in *. cbn [agentStep]. unfold energyF at 1. rewrite S2. fold (rnd (B2R (sd_energy (ag_sd a)) - B2R (ac_cost act))).
  pose proof (spend_le (B2R (sd_energy (ag_sd a))) (B2R (ac_cost act)) (fmt_B2R _) (fmt_B2R _) ltac:(split; assumption)) as SP. fold (energyF a) in SP, S1 |- *.
  change (bpow radix2 (-51)) with (/ 2251799813685248) in Hm. change (bpow radix2 (-53)) with (/ 9007199254740992) in SP. lra.
Qed.
End Floats.

(** ** Energy does not keep an agent from moving *)
Definition fAgent (e : F) : Agent F := mkAgent "a" (mkSD (fofZ 0) e (fofZ 0) 100000000) (mkBD (fofZ 0) (fofZ 0)) (mkCtx 0 (fofZ 0) (fofZ 0) (fofZ 0) (fofZ 0)) 0 0 true true None None.
Definition tiny : F := flit 1 1152921504606846976.
Lemma feq_inj (x y : F) : feq x y = true -> is_finite_strict x = true -> is_finite_strict y = true -> x = y.
Proof.
  intros H A B. apply B2R_inj; [exact A|exact B|]. unfold feq in H. rewrite Beqb_correct in H by (destruct x, y; easy). destruct (Req_bool_spec (B2R x) (B2R y)); [assumption|discriminate].
Qed.
Lemma absorbed : fmax (fofZ 0) (fsub (fofZ 100) tiny) = fofZ 100.
Proof. apply feq_inj; vm_compute; reflexivity. Qed.
(** An action that costs, though little: it can be repeated for ever, and the agent moves each time for nothing. *)
Theorem C93_unlimited_refuted : forall tr, exists act : Action F, 0 < B2R (ac_cost act) /\ phaseAction (ac_type act) = true /\
  forall n, let a := @agentRun F (FNum tr) (fAgent (fofZ 100)) (repeat (OApply act) n) in
    sd_energy (ag_sd a) = fofZ 100 /\ snd (@ApplyAction F (FNum tr) a act) = ApplyOK (ac_cost act) /\
    sd_phase (ag_sd (fst (@ApplyAction F (FNum tr) a act))) = @WrapPhase F (FNum tr) (fadd (sd_phase (ag_sd a)) (fofZ 1)).
Proof.
  intros tr. exists (mkAction "adjust_phase" (fofZ 1) tiny (fofZ 0)). split; [|split; [reflexivity|]].
  { assert (H : flt (fofZ 0) tiny = true) by (vm_compute; reflexivity). apply flt_true in H. destruct H as (_ & _ & H). rewrite f0_ord, ford_fin in H by (vm_compute; reflexivity). exact H. }
  intros n. cbv zeta. set (act := mkAction "adjust_phase" (fofZ 1) tiny (fofZ 0)).
  assert (OK : forall a : Agent F, sd_energy (ag_sd a) = fofZ 100 -> snd (@ApplyAction F (FNum tr) a act) = ApplyOK (ac_cost act)).
  { intros a E. unfold ApplyAction. rewrite E. change (@nlt F (FNum tr)) with flt. change (ac_cost act) with tiny. assert (L : flt (fofZ 100) tiny = false) by (vm_compute; reflexivity). rewrite L. reflexivity. }
  assert (K : sd_energy (ag_sd (@agentRun F (FNum tr) (fAgent (fofZ 100)) (repeat (OApply act) n))) = fofZ 100).
  { unfold agentRun. assert (G : forall a : Agent F, sd_energy (ag_sd a) = fofZ 100 -> sd_energy (ag_sd (fold_left (@agentStep F (FNum tr)) (repeat (OApply act) n) a)) = fofZ 100); [|apply G; reflexivity].
    induction n as [|n IH]; intros a E; cbn [repeat fold_left]; [exact E|]. apply IH. cbn [agentStep]. destruct (@apply_ok F (FNum tr) a act _ (OK a E)) as (_ & Q & _). cbv zeta in Q. rewrite Q, E. exact absorbed. }
  split; [exact K|]. split; [apply OK; exact K|]. destruct (@apply_ok F (FNum tr) _ act _ (OK _ K)) as (_ & _ & _ & _ & _ & _ & _ & Q). cbv zeta in Q. apply Q. discriminate.
Qed.
(** Nor does a depleted agent stand still: actions without a cost always succeed. *)
Theorem C93_depleted_refuted : forall tr v b, let a := fAgent (fofZ 0) in let r := @ApplyAction F (FNum tr) a (mkAction "adjust_phase" v (fofZ 0) b) in
  snd r = ApplyOK (fofZ 0) /\ sd_phase (ag_sd (fst r)) = @WrapPhase F (FNum tr) (fadd (fofZ 0) v).
Proof. intros tr v b. cbv zeta. split; reflexivity. Qed.
(** An action with a negative cost creates energy. *)
Theorem C93_created_refuted : forall tr, exists act : Action F, feq (sd_energy (ag_sd (fst (@ApplyAction F (FNum tr) (fAgent (fofZ 100)) act)))) (fofZ 150) = true.
Proof. intros tr. exists (mkAction "maintain" (fofZ 0) (fofZ (-50)) (fofZ 0)). vm_compute. reflexivity. Qed.
(** And there is no upper limit: SetEnergy stores any non-negative amount. *)
Theorem C93_no_maximum_refuted : forall tr (a : Agent F) x, is_finite_strict x = true -> 0 < B2R x -> sd_energy (ag_sd (@SetEnergy F (FNum tr) x a)) = x.
Proof.
  intros tr a x H P. change (fmax (fofZ 0) x = x). assert (Fx : is_finite x = true) by (destruct x; easy). destruct (fmax_cases (fofZ 0) x (fofZ_nan 0) (fin_nan _ Fx)) as [M1 M2].
  rewrite f0_ord, (ford_fin x) in M2 by auto. rewrite Rmax_right in M2 by lra. pose proof (B2R_lt_BIG x). assert (Fm : is_finite (fmax (fofZ 0) x) = true) by (apply ford_fin_inv; auto; lra). rewrite ford_fin in M2 by auto.
  apply B2R_inj; [|exact H|exact M2]. destruct (fmax (fofZ 0) x); try discriminate; [|reflexivity]. exfalso. cbn in M2. lra.
Qed.

(** ** Costs of the strategies *)
Lemma clamp_unit x : 0 <= @clampRate R RNum x <= 1.
Proof. unfold clampRate. rops. unfold Rmax, Rmin. repeat destruct (Rle_dec _ _); lra. Qed.
Lemma abs_share (d r : R) : 0 <= Rabs d <= PI -> 0 <= r <= 1 -> 0 <= Rabs (d * r) <= PI.
Proof. intros D Hr. rewrite Rabs_mult, (Rabs_pos_eq r) by lra. split; [apply Rmult_le_pos; lra|]. nra. Qed.
Theorem C93_costs : forall x cur tgt cx,
  0 <= ac_cost (fst (@PhaseNudgePropose R RNum (@NewPhaseNudge R RNum x) cur tgt cx)) <= 2 * PI /\
  0 <= ac_cost (fst (@FrequencyLockPropose R RNum (@NewFrequencyLock R RNum x) cur tgt cx)) <= 3 * PI /\
  (let c := ac_cost (fst (@EnergyAwarePropose R RNum cur tgt cx)) in c = 1 / 10 \/ c = 1 / 2).
Proof.
  intros x cur tgt cx. pose proof (RPD_abs_range (st_phase tgt) (st_phase cur)) as D. pose proof (clamp_unit x) as C. pose proof (abs_share _ _ D C) as S. repeat split.
  1-4: unfold PhaseNudgePropose, FrequencyLockPropose, NewPhaseNudge, NewFrequencyLock; cbv zeta; cbn [fst ac_cost]; rops; lra.
  unfold EnergyAwarePropose. cbv zeta. rops. destruct (Rlt_bool _ _); cbn [fst ac_cost]; [left; reflexivity|right]. rewrite Rmax_left; [lra|]. rewrite Rabs_mult, (Rabs_pos_eq (1 / 10)) by lra.
  pose proof PI_4. lra.
Qed.
(** A pulse costs at most 4 * PI, never the 20 to 50 units documented; a nudge may cost more than the 5 documented, or as good as nothing. *)
Theorem C93_documented_costs_refuted :
  (forall period amp t0 now cur tgt cx, ac_cost (fst (snd (@PulsePropose R RNum (@NewPulse R RNum period amp t0) now cur tgt cx))) < 20) /\
  (exists cur tgt, 5 < ac_cost (fst (@PhaseNudgePropose R RNum (@NewPhaseNudge R RNum 1) cur tgt ctx0))) /\
  (exists cur tgt, ac_value (fst (@PhaseNudgePropose R RNum (@NewPhaseNudge R RNum (3 / 10)) cur tgt ctx0)) <> 0 /\ ac_cost (fst (@PhaseNudgePropose R RNum (@NewPhaseNudge R RNum (3 / 10)) cur tgt ctx0)) < 1).
Proof.
  assert (PD : forall q, 0 < q < PI -> @PhaseDifference R RNum q 0 = q).
  { intros q Q1. assert (NS : ~ pd_special q 0) by (pose proof PI2_3_2; intros [[_ A]|[A _]]; apply Rabs_def2 in A; destruct A; lra).
    destruct (RPD_spec q 0 NS) as (A & B & _). apply cong_unique_pi; [lra|lra|]. rewrite Rplus_0_l in B. exact B. }
  repeat split.
  - intros period amp t0 now cur tgt cx. unfold PulsePropose, NewPulse. cbn [pu_last pu_period pu_amp]. destruct (_ <? _)%Z; cbn [fst snd ac_cost]; rops; [lra|].
    pose proof (abs_share _ _ (RPD_abs_range (st_phase tgt) (st_phase cur)) (clamp_unit amp)). pose proof PI_4. lra.
  - exists (mkState 0 0 0), (mkState 3 0 0). unfold PhaseNudgePropose, NewPhaseNudge, clampRate. cbv zeta. cbn [fst ac_cost st_phase]. pose proof PI_lo. rewrite (PD 3) by lra. rops.
    rewrite (Rmin_left 1 1), (Rmax_right 0 1) by lra. rewrite Rabs_pos_eq; lra.
  - exists (mkState 0 0 0), (mkState 1 0 0). unfold PhaseNudgePropose, NewPhaseNudge, clampRate. cbv zeta. cbn [fst ac_cost ac_value st_phase]. pose proof PI_lo. rewrite (PD 1) by lra. rops.
    rewrite (Rmin_right 1 (3 / 10)), (Rmax_right 0 (3 / 10)) by lra. split; [lra|]. rewrite Rabs_pos_eq; lra.
Qed.

(** ** An agent left to itself runs down *)
(** A strategy whose proposals can be applied and cost at least [c]. *)
Definition costs_at_least (c : R) (st : Strat R) : Prop := forall cur tgt cx, let act := fst (st cur tgt cx) in c <= ac_cost act /\ (phaseAction (ac_type act) = true \/ ac_type act = "maintain"%string).
Lemma decide_in s (p q : Action R) : fst (@Decide R RNum s [p; q]) = p \/ fst (@Decide R RNum s [p; q]) = q.
Proof. unfold Decide. cbn [fold_left fst]. set (x := decideStep _ p). assert (X : fst x = p) by (unfold x, decideStep; destruct (nlt _ _); reflexivity). clearbody x. unfold decideStep. destruct (nlt _ _); cbn [fst]; auto. Qed.
Lemma ctx_energy nb (a : Agent R) : sd_energy (ag_sd (@UpdateContext R RNum nb a)) = sd_energy (ag_sd a) /\ sd_phase (ag_sd (@UpdateContext R RNum nb a)) = sd_phase (ag_sd a).
Proof. destruct nb; split; reflexivity. Qed.
Lemma turn_pays c st x (a : Agent R) : costs_at_least c st -> 0 < c <= 1 / 10 ->
  if snd (@proposed R RNum st x a) then sd_energy (ag_sd (@turn R RNum st a x)) <= sd_energy (ag_sd a) - c /\ 0 <= sd_energy (ag_sd (@turn R RNum st a x))
  else sd_energy (ag_sd (@turn R RNum st a x)) = sd_energy (ag_sd a) /\ sd_phase (ag_sd (@turn R RNum st a x)) = sd_phase (ag_sd a).
Proof.
  intros HS Hc. unfold turn. cbv zeta. destruct (ctx_energy (tn_nb x) a) as [X1 X2]. destruct (snd (proposed st x a)) eqn:E; [|split; assumption].
  unfold proposed in *. set (a1 := UpdateContext (tn_nb x) a) in *. destruct (ProposeAdjustment _ _ _ _ _ _ _) as [act b] eqn:P. cbn [fst snd] in *. subst b.
  apply C09_accept_iff in P. destruct P as (_ & prop & conf & acc & P1 & P2 & P3 & _). cbv zeta in *.
  assert (K : c <= ac_cost act /\ (phaseAction (ac_type act) = true \/ ac_type act = "maintain"%string)).
  { apply (f_equal fst) in P1. cbn [fst] in P1. pose proof (HS (mkState (sd_phase (ag_sd a1)) (sd_freq (ag_sd a1)) (localCoherence (sd_phase (ag_sd a1)) (tn_nb x))) (mkState (sd_goal (ag_sd a1)) (sd_freq (ag_sd a1)) (st_coh (tn_goal x))) (ag_ctx a1)) as Q.
    cbv zeta in Q. rewrite P1 in Q. apply (f_equal fst) in P2. cbn [fst] in P2. rewrite <- P2.
    match goal with |- context [@Decide R RNum ?s [?p; ?q]] => destruct (decide_in s p q) as [-> | ->] end; [exact Q|]. cbn [ac_cost ac_type]. rops. split; [lra|now right]. }
  destruct K as [K1 K2]. change (Rlt_bool (sd_energy (ag_sd a1)) (ac_cost act) = false) in P3. destruct (Rlt_bool_spec (sd_energy (ag_sd a1)) (ac_cost act)) as [|L]; [discriminate|]. clear P3.
  destruct (snd (@ApplyAction R RNum a1 act)) as [k| |] eqn:A.
  - destruct (C08_energy_exact a1 act ltac:(lra) ltac:(lra)) as [B D]. cbv zeta in B. rewrite A in B. destruct (apply_ok a1 act k A) as (-> & _). rewrite B in *. rewrite X1 in *. split; lra.
  - exfalso. apply apply_energy_err in A. change (Rlt_bool (sd_energy (ag_sd a1)) (ac_cost act) = true) in A. rewrite Rlt_bool_false in A by exact L. discriminate.
  - exfalso. unfold ApplyAction in A. destruct (nlt _ _); [discriminate|]. destruct (phaseAction (ac_type act)); [discriminate|]. destruct K2 as [K2|K2]; [discriminate|]. rewrite K2 in A. discriminate.
Qed.
(** At most [energy / c] proposals are ever accepted, however long the agent lives. *)
Theorem C93_turns_bounded : forall c st xs (a : Agent R), costs_at_least c st -> 0 < c <= 1 / 10 -> 0 <= sd_energy (ag_sd a) -> c * INR (@accepted R RNum st a xs) <= sd_energy (ag_sd a).
Proof.
  intros c st xs a HS Hc. revert a. induction xs as [|x xs IH]; intros a Ha; cbn [accepted]; [cbn [INR]; lra|]. pose proof (turn_pays c st x a HS Hc) as K. rewrite plus_INR.
  destruct (snd (proposed st x a)); destruct K as [K1 K2]; cbn [INR].
  - specialize (IH _ K2). lra.
  - assert (Q : 0 <= sd_energy (ag_sd (turn st a x))) by lra. specialize (IH _ Q). lra.
Qed.
(** Once the energy is below the price, the agent never accepts anything again and never moves again: there is no recovery to wait for. *)
Theorem C93_exhausted_refuted : forall c st xs (a : Agent R), costs_at_least c st -> 0 < c <= 1 / 10 -> sd_energy (ag_sd a) < c ->
  @accepted R RNum st a xs = O /\ sd_phase (ag_sd (@turns R RNum st a xs)) = sd_phase (ag_sd a) /\ sd_energy (ag_sd (@turns R RNum st a xs)) = sd_energy (ag_sd a).
Proof.
  intros c st xs a HS Hc. revert a. unfold turns. induction xs as [|x xs IH]; intros a Ha; cbn [accepted fold_left]; [auto|]. pose proof (turn_pays c st x a HS Hc) as K.
  destruct (snd (proposed st x a)); destruct K as [K1 K2]; [exfalso; lra|]. destruct (IH (@turn R RNum st a x) ltac:(rewrite K1; exact Ha)) as (A & B & C). rewrite A, B, C. auto.
Qed.

(** ** Examples *)
(** The energy-aware strategy costs at least a tenth: a fresh agent accepts at most a thousand times. *)
Example C93_energy_aware : costs_at_least (1 / 10) (@EnergyAwarePropose R RNum) /\
  forall xs (a : Agent R), sd_energy (ag_sd a) = 100 -> INR (@accepted R RNum (@EnergyAwarePropose R RNum) a xs) <= 1000.
Proof.
  assert (H : costs_at_least (1 / 10) (@EnergyAwarePropose R RNum)).
  { intros cur tgt cx. cbv zeta. destruct (C93_costs 0 cur tgt cx) as (_ & _ & C). cbv zeta in C. split; [destruct C as [-> | ->]; lra|]. unfold EnergyAwarePropose. cbv zeta. destruct (nlt _ _); cbn; auto. }
  split; [exact H|]. intros xs a E. pose proof (C93_turns_bounded _ _ xs a H ltac:(lra) ltac:(lra)). lra.
Qed.
(** A history that meets the conditions of the bound, and comes up to it: energy 1, four actions at a quarter. *)
Definition quarter : AgentOp F := OApply (mkAction "maintain" (fofZ 0) (flit 1 4) (fofZ 0)).
Lemma quarter_val : B2R (flit 1 4) = 1 / 4. Proof. unfold flit. vm_compute. lra. Qed.
Example C93_applies : forall tr, charged (fAgent (fofZ 1)) /\ Forall plain (repeat quarter 4) /\ bpow radix2 (-51) * energyF (fAgent (fofZ 1)) <= 1 / 4 /\
  feq (sd_energy (ag_sd (@agentRun F (FNum tr) (fAgent (fofZ 1)) (repeat quarter 4)))) (fofZ 0) = true /\
  snd (@ApplyAction F (FNum tr) (@agentRun F (FNum tr) (fAgent (fofZ 1)) (repeat quarter 4)) (mkAction "maintain" (fofZ 0) (flit 1 4) (fofZ 0))) = ErrInsufficientEnergy.
Proof.
  intros tr. assert (E1 : energyF (fAgent (fofZ 1)) = 1) by (unfold energyF, fAgent; cbn [ag_sd sd_energy]; vm_compute; lra). repeat split.
  - rewrite E1. lra.
  - repeat constructor; cbn [ac_cost]; rewrite quarter_val; lra.
  - rewrite E1. change (bpow radix2 (-51)) with (/ 2251799813685248). lra.
Qed.
Print Assumptions C93_no_recovery_refuted. Print Assumptions C93_actions_bounded. Print Assumptions C93_unlimited_refuted. Print Assumptions C93_turns_bounded.
