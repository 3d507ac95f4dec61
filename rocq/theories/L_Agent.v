(** Lemmas about M_Agent: attribute invariants, energy accounting, gating. *)
From Coq Require Import ZArith Reals Psatz Bool List String.
From Flocq Require Import Core.Core IEEE754.BinarySingleNaN.
From Verif Require Import Num F64 RealNum S_Circle S_Agent M_Core M_Random M_Resource M_Strategy M_Agent
  L_F64 L_PhaseF L_F64x L_State L_Random L_Token L_Circle.
Import ListNotations.
Open Scope R_scope.

Section FA.
Context (tr : Trig).
Notation wrap := (@WrapPhase F (FNum tr)).
Notation Ag := (Agent F).
Notation step := (@agentStep F (FNum tr)).
Notation run := (@agentRun F (FNum tr)).
Notation apply := (@ApplyAction F (FNum tr)).

Lemma in_turn_eq x : in_turn x <-> phase_ok x.
Proof. unfold in_turn, phase_ok. fold f2pi. rewrite f2pi_val. tauto. Qed.

Lemma nonneg_eq x : nonneg x <-> fisnan x = false /\ 0 <= ford x.
Proof.
  split.
  - intros [[A B]| ->]; [split; [now apply fin_nan|rewrite ford_fin; auto]|].
    split; auto. simpl. pose proof BIG_pos. lra.
  - intros [A B]. destruct (not_nan_cases x A) as [C|[s ->]].
    + left. rewrite ford_fin in B; auto.
    + destruct s; [|now right]. simpl in B. pose proof BIG_pos. lra.
Qed.

Lemma wrap_turn x : is_finite x = true -> in_turn (wrap x).
Proof. intros H. apply in_turn_eq. destruct (wrap_spec tr x H) as (A & _ & B & _). split; auto. Qed.

Lemma clamp01_F x : @clamp01 F (FNum tr) x =
  if flt x (fofZ 0) then fofZ 0 else if flt (fofZ 1) x then fofZ 1 else x.
Proof. reflexivity. Qed.
Lemma clamp01_unit x : fisnan x = false -> in_unit (@clamp01 F (FNum tr) x).
Proof.
  intros N. rewrite clamp01_F. pose proof (norm_coh_ok x N) as H. unfold norm_coh in H.
  rewrite N in H. exact H.
Qed.

Lemma max0_nonneg e : fisnan e = false -> nonneg (fmax (fofZ 0) e).
Proof.
  intros N. apply nonneg_eq. destruct (fmax_cases (fofZ 0) e (fofZ_nan 0) N) as [A B].
  split; auto. rewrite B, f0_ord. apply Rmax_l.
Qed.

Lemma sub_nonnan e c : nonneg e -> is_finite c = true -> fisnan (fsub e c) = false.
Proof.
  intros [[A B]| ->] Hc; [now apply fsub_ord|now rewrite fsub_inf_fin].
Qed.

(** Views of the record updates. *)
Lemma apply_unfold a act : apply a act =
  if flt (sd_energy (ag_sd a)) (ac_cost act) then (a, ErrInsufficientEnergy)
  else if phaseAction (ac_type act) then
    (set_res (@request_opt F (FNum tr) (ag_res a) (ac_cost act))
       (upd_sd (@fMoveSpend F (FNum tr) (ac_value act) (ac_cost act)) a), ApplyOK (ac_cost act))
  else if String.eqb (ac_type act) "maintain" then
    (set_res (@request_opt F (FNum tr) (ag_res a) (ac_cost act))
       (upd_sd (@fSpend F (FNum tr) (ac_cost act)) a), ApplyOK (ac_cost act))
  else (a, ErrUnknownActionType).
Proof. reflexivity. Qed.

Lemma new_attrs_ok id b1 b2 b3 : attrs_ok (@NewAgent F (FNum tr) id b1 b2 b3 []).
Proof.
  pose proof (RandPhase_ok tr b1) as P1. pose proof (RandPhase_ok tr b2) as P2.
  assert (U1 : in_unit (flit 1 10)).
  { destruct (flit_fin 1 10) as [A B]; try lia. split; auto. rewrite B. split; [apply rnd_ge_0; lra|].
    apply rnd_le_fmt; [|lra]. apply (fmt_IZR 1). lia. }
  assert (U2 : in_unit (flit 2 10)).
  { destruct (flit_fin 2 10) as [A B]; try lia. split; auto. rewrite B. split; [apply rnd_ge_0; lra|].
    apply rnd_le_fmt; [|lra]. apply (fmt_IZR 1). lia. }
  destruct (fofZ_fin 100 ltac:(lia)) as [E1 E2].
  constructor; cbn [NewAgent fold_left set_ctx ag_sd ag_bd sd_phase sd_goal sd_energy bd_infl bd_stub].
  - now apply in_turn_eq.
  - now apply in_turn_eq.
  - left. split; [exact E1|]. change (0 <= B2R (fofZ 100)). rewrite E2. lra.
  - exact U1.
  - exact U2.
Qed.

Lemma tok_ok_of_history m l : is_finite m = true -> Forall tok_arg_fin l ->
  tm_ok (@tokRun F (FNum tr) (@NewTokenManager F (FNum tr) m) l).
Proof.
  intros Hm Hl. apply run_ok.
  - now apply new_ok.
  - intros o Ho. rewrite Forall_forall in Hl. specialize (Hl o Ho). destruct o; now apply fin_nan.
Qed.

Ltac view := cbn [SetPhase SetFrequency SetEnergy SetLocalGoal SetInfluence SetStubbornness upd_sd upd_bd
  fPhase fRandPhase fFreq fEnergy fGoal fRandGoal fInfl fStub ag_sd ag_bd sd_phase sd_goal sd_energy bd_infl bd_stub].
Lemma step_attrs a o : attrs_ok a -> arg_fin tr o -> attrs_ok (step a o).
Proof.
  intros [P G E I S] H. destruct o as [p|b|f|e|g|b|x|x|rm|act]; cbn [agentStep arg_fin] in *.
  - constructor; view; auto. now apply wrap_turn.
  - constructor; view; auto. apply in_turn_eq. apply RandPhase_ok.
  - constructor; view; auto.
  - constructor; view; auto. change (nonneg (fmax (fofZ 0) e)). now apply max0_nonneg, fin_nan.
  - constructor; view; auto. now apply wrap_turn.
  - constructor; view; auto. apply in_turn_eq. apply RandPhase_ok.
  - constructor; view; auto. now apply clamp01_unit, fin_nan.
  - constructor; view; auto. now apply clamp01_unit, fin_nan.
  - destruct H as (m & l & Hm & Hl & ->). pose proof (tok_ok_of_history m l Hm Hl) as (A & B & C).
    constructor; cbn [WithResourceManager set_res upd_sd ag_sd ag_bd sd_phase sd_goal sd_energy]; auto.
    left. split; [exact B|]. apply C.
  - destruct H as [Hv Hc]. rewrite apply_unfold.
    destruct (flt _ _); [constructor; auto|].
    assert (E' : nonneg (fmax (fofZ 0) (fsub (sd_energy (ag_sd a)) (ac_cost act)))).
    { apply max0_nonneg. now apply sub_nonnan. }
    destruct (phaseAction _).
    + cbn [fst]. constructor; cbn [set_res upd_sd fMoveSpend ag_sd ag_bd sd_phase sd_goal sd_energy bd_infl bd_stub]; auto.
      apply wrap_turn. apply (proj1 (in_turn_eq _)) in P. destruct P as [P1 [P2 P3]]. destruct r2pi_bounds as [Q1 Q2].
      refine (proj1 (fadd_small_fin _ _ P1 Hv _)). apply Rabs_le. lra.
    + destruct (String.eqb _ _); [|constructor; auto].
      cbn [fst]. constructor; cbn [set_res upd_sd fSpend ag_sd ag_bd sd_phase sd_goal sd_energy bd_infl bd_stub]; auto.
Qed.

Lemma run_attrs l : forall a, attrs_ok a -> Forall (arg_fin tr) l -> attrs_ok (run a l).
Proof.
  induction l as [|o l IH]; intros a Ha Hl; [exact Ha|]. inversion Hl as [|? ? H1 H2]; subst.
  change (run a (o :: l)) with (run (step a o) l). apply IH; auto. now apply step_attrs.
Qed.
End FA.

(** ApplyAction, any arithmetic. *)
Section AnyT.
Context {T : Type} {N : Num T}.
Lemma apply_energy_err (a : Agent T) act :
  snd (ApplyAction a act) = ErrInsufficientEnergy <-> nlt (sd_energy (ag_sd a)) (ac_cost act) = true.
Proof.
  unfold ApplyAction. destruct (nlt _ _) eqn:E; [split; auto|]. split; [|discriminate].
  destruct (phaseAction _); [discriminate|]. destruct (String.eqb _ _); discriminate.
Qed.
Definition supported (ty : string) : Prop :=
  In ty ["adjust_phase"; "phase_nudge"; "frequency_lock"; "energy_save"; "pulse"; "maintain"]%string.
Lemma phaseAction_iff ty : phaseAction ty = true <->
  In ty ["adjust_phase"; "phase_nudge"; "frequency_lock"; "energy_save"; "pulse"]%string.
Proof.
  unfold phaseAction. rewrite !orb_true_iff, !String.eqb_eq. simpl. intuition congruence.
Qed.
Lemma apply_type_err (a : Agent T) act :
  snd (ApplyAction a act) = ErrUnknownActionType <->
  nlt (sd_energy (ag_sd a)) (ac_cost act) = false /\ ~ supported (ac_type act).
Proof.
  unfold ApplyAction. destruct (nlt _ _) eqn:E; [split; [discriminate|intros [? _]; discriminate]|].
  assert (S : supported (ac_type act) <-> phaseAction (ac_type act) = true \/ ac_type act = "maintain"%string).
  { unfold supported. rewrite phaseAction_iff. simpl. intuition. }
  destruct (phaseAction (ac_type act)) eqn:P; [split; [discriminate|tauto]|].
  destruct (String.eqb_spec (ac_type act) "maintain"); [split; [discriminate|tauto]|].
  split; auto. intros _. split; auto. rewrite S. intuition.
Qed.
Lemma apply_err_unchanged (a : Agent T) act r : snd (ApplyAction a act) = r ->
  (forall c, r <> ApplyOK c) -> fst (ApplyAction a act) = a.
Proof.
  unfold ApplyAction. destruct (nlt _ _); auto. destruct (phaseAction _); [simpl; intros <- H; now elim (H (ac_cost act))|].
  destruct (String.eqb _ _); auto. simpl; intros <- H; now elim (H (ac_cost act)).
Qed.
Lemma apply_ok (a : Agent T) act c : snd (ApplyAction a act) = ApplyOK c ->
  let s := ag_sd a in let s' := ag_sd (fst (ApplyAction a act)) in
  c = ac_cost act /\ sd_energy s' = nmax n0 (nsub (sd_energy s) (ac_cost act)) /\
  sd_goal s' = sd_goal s /\ sd_freq s' = sd_freq s /\
  ag_bd (fst (ApplyAction a act)) = ag_bd a /\ ag_ctx (fst (ApplyAction a act)) = ag_ctx a /\
  (ac_type act = "maintain"%string -> sd_phase s' = sd_phase s) /\
  (ac_type act <> "maintain"%string -> sd_phase s' = WrapPhase (nadd (sd_phase s) (ac_value act))).
Proof.
  cbv zeta. unfold ApplyAction. destruct (nlt _ _); [discriminate|].
  destruct (phaseAction (ac_type act)) eqn:P.
  - cbn. intros [= <-]. repeat split; auto. intros E. rewrite E in P. discriminate.
  - destruct (String.eqb_spec (ac_type act) "maintain"); [|discriminate].
    cbn. intros [= <-]. repeat split; auto. congruence.
Qed.
End AnyT.

(** Exact reals: the budget. *)
Section RA.
Notation run := (fold_left (fun (a : Agent R) act => fst (@ApplyAction R RNum a act))).
(** What the successful actions of a history were billed. *)
Fixpoint spent (a : Agent R) (l : list (Action R)) : R :=
  match l with
  | [] => 0
  | act :: r => (match snd (@ApplyAction R RNum a act) with ApplyOK c => c | _ => 0 end)
                + spent (fst (@ApplyAction R RNum a act)) r
  end.
Lemma Rapply_energy (a : Agent R) act : 0 <= ac_cost act -> 0 <= sd_energy (ag_sd a) ->
  let r := @ApplyAction R RNum a act in
  sd_energy (ag_sd (fst r)) = sd_energy (ag_sd a) - (match snd r with ApplyOK c => c | _ => 0 end) /\
  0 <= sd_energy (ag_sd (fst r)).
Proof.
  intros Hc He. cbv zeta. destruct (snd (@ApplyAction R RNum a act)) as [c| |] eqn:E.
  - pose proof (apply_ok a act c E) as (-> & B & _). cbv zeta in B. rewrite B.
    assert (L : @nlt R RNum (sd_energy (ag_sd a)) (ac_cost act) = false).
    { destruct (nlt _ _) eqn:L; auto. apply apply_energy_err in L. congruence. }
    apply Rlt_bool_false_iff in L || (cbn in L; destruct (Rlt_bool_spec (sd_energy (ag_sd a)) (ac_cost act)); [discriminate|]).
    cbn [nmax RNum nsub]. change (@n0 R RNum) with 0. rewrite Rmax_right by lra. lra.
  - rewrite (apply_err_unchanged a act _ E) by discriminate. lra.
  - rewrite (apply_err_unchanged a act _ E) by discriminate. lra.
Qed.
Lemma Rbudget l : forall a : Agent R, 0 <= sd_energy (ag_sd a) -> Forall (fun act => 0 <= ac_cost act) l ->
  spent a l + sd_energy (ag_sd (run l a)) = sd_energy (ag_sd a) /\ 0 <= sd_energy (ag_sd (run l a)).
Proof.
  induction l as [|act l IH]; intros a He Hl; simpl; [lra|].
  inversion Hl as [|? ? H1 H2]; subst. destruct (Rapply_energy a act H1 He) as [A B].
  destruct (IH _ B H2) as [C D]. split; auto. lra.
Qed.
End RA.

(** randFreq stays within 100..149 ms. *)
Lemma randFreq_range (tr : Trig) b :
  exists k, (0 <= k < 50)%Z /\ @randFreq F (FNum tr) b = ((100 + k) * 1000000)%Z.
Proof.
  unfold randFreq. set (u := @Float64 F (FNum tr) b).
  change (@nmul F (FNum tr) u (@nofZ F (FNum tr) 50)) with (fmul u (fofZ 50)).
  change (@ntrunc F (FNum tr)) with ftrunc.
  destruct (Float64_exact tr b) as [A E]. fold u in A, E.
  destruct (fofZ_fin 50 ltac:(lia)) as [B1 B2].
  pose proof (Z.mod_pos_bound b (2 ^ 53) ltac:(lia)) as Hm.
  assert (P : 0 < IZR (2 ^ 53)) by (apply IZR_lt; lia).
  assert (U : 0 <= B2R u <= 1 - / IZR (2 ^ 53)).
  { rewrite E. split; [apply Rmult_le_pos; [apply IZR_le; lia|left; now apply Rinv_0_lt_compat]|].
    apply Rmult_le_reg_r with (IZR (2 ^ 53)); auto. field_simplify; try lra.
    replace (IZR (2 ^ 53) - 1) with (IZR (2 ^ 53 - 1)) by (rewrite minus_IZR; reflexivity).
    apply IZR_le. lia. }
  set (h := / IZR (2 ^ 53)) in *.
  assert (Hh : 0 < h) by (now apply Rinv_0_lt_compat).
  assert (Fy : fmt (50 - 64 * h)).
  { replace (50 - 64 * h) with (F2R (Float radix2 (50 * 2 ^ 47 - 1) (-47))).
    - apply fmt_F2R; lia.
    - unfold F2R. cbn [Fnum Fexp]. unfold h. rewrite minus_IZR, mult_IZR.
      replace (IZR (2 ^ 53)) with (64 * IZR (2 ^ 47)) by (rewrite <- mult_IZR; reflexivity).
      change (bpow radix2 (-47)) with (/ IZR (2 ^ 47)). assert (IZR (2 ^ 47) <> 0) by (apply IZR_neq; lia).
      field; auto. }
  assert (R1 : 0 <= rnd (B2R u * 50) < 50).
  { split; [apply rnd_ge_0; lra|]. apply Rle_lt_trans with (rnd (50 - 50 * h)); [apply rnd_le; lra|].
    pose proof (rnd_near (50 - 50 * h) _ Fy) as Q.
    replace (50 - 64 * h - (50 - 50 * h)) with (- (14 * h)) in Q by ring.
    rewrite Rabs_Ropp, (Rabs_right (14 * h)) in Q by lra. apply Rabs_le_inv in Q. lra. }
  destruct (fmul_ord u (fofZ 50) A B1) as [M1 M2]. rewrite B2 in M2.
  pose proof BIG_ge_1000. rewrite sat_id in M2 by lra.
  assert (Fi : is_finite (fmul u (fofZ 50)) = true) by (apply ford_fin_inv; auto; lra).
  rewrite ford_fin in M2 by auto.
  assert (K : (0 <= Ztrunc (rnd (B2R u * 50)) < 50)%Z).
  { rewrite Ztrunc_floor by lra. split; [apply Zfloor_lub; simpl; lra|].
    apply lt_IZR. eapply Rle_lt_trans; [apply Zfloor_lb|lra]. }
  exists (Ztrunc (rnd (B2R u * 50))). split; auto.
  rewrite ftrunc_spec; auto; rewrite M2; lia.
Qed.
