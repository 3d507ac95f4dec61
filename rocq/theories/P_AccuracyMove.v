(** Float accuracy of a move along the circle: blending (C12) and the strategies (C10). *)
From Coq Require Import ZArith Reals Psatz Bool List Lia String.
From Flocq Require Import Core.Core IEEE754.BinarySingleNaN.
From Verif Require Import Num F64 RealNum M_Core M_Agent M_Strategy S_Circle S_Agent S_Sync S_Acc L_F64 L_F64x L_Circle L_PhaseF L_Acc P_Core P_Converge P_Accuracy P_AccuracySwarm.
Import ListNotations.
Open Scope R_scope.

(** WrapPhase changes a moderate phase by whole turns, up to 2^-49. *)
Theorem C01_wrap_float_turns : forall tr x, is_finite x = true -> Rabs (B2R x) <= 12 ->
  exists k, Rabs (B2R (@WrapPhase F (FNum tr) x) - B2R x - IZR k * (2 * PI)) <= / 2 ^ 49.
Proof.
  intros tr x Fx Bx. destruct (C01_wrap_float tr x Fx) as (_ & _ & Rg & k & K). set (r := B2R (WrapPhase x)) in *.
  pose proof f2pi_near as P2. fold f2pi in *. pose proof PI_bounds as PB. change (bpow radix2 (-50)) with (/ IZR (2 ^ 50)) in K. change (2 ^ 50)%Z with 1125899906842624%Z in K.
  rewrite pow_Z in P2. cbn [Z.of_nat Pos.of_succ_nat Pos.succ] in P2. change (2 ^ 51)%Z with 2251799813685248%Z in P2. set (w := B2R f2pi) in *.
  apply Rabs_le_inv in K. apply Rabs_le_inv in Bx.
  assert (K1 : (-3 < k < 3)%Z).
  { split; apply lt_IZR; apply Rnot_le_lt; intros C; [assert (IZR k * w <= -3 * w) by nra|assert (3 * w <= IZR k * w) by nra]; lra. }
  exists (- k)%Z. rewrite opp_IZR, (pow_Z 49). cbn [Z.of_nat Pos.of_succ_nat Pos.succ]. change (2 ^ 49)%Z with 562949953421312%Z. apply Rabs_le.
  assert (C : (k = -2 \/ k = -1 \/ k = 0 \/ k = 1 \/ k = 2)%Z) by lia. destruct C as [->|[->|[->|[->| ->]]]]; lra.
Qed.
Print Assumptions C01_wrap_float_turns.

(** A share [w] of the way from [p] to [q], computed in floats.  [dp], [dr]: the true arcs from [q] before and after. *)
Lemma float_move tr e p q w dp dq dr : trig_sane tr -> trig_acc tr e -> 0 <= e <= 1 / 4 -> in_turn p -> in_turn q -> in_unit w ->
  ~ (near0 (B2R q) /\ near34 (B2R p)) -> ~ (near34 (B2R q) /\ near0 (B2R p)) ->
  let D := @PhaseDifference F (FNum tr) q p in let adj := fmul D w in let r := @WrapPhase F (FNum tr) (fadd p adj) in
  is_arc (B2R q) (B2R p) dp -> is_arc (B2R q) (B2R r) dq -> is_arc (B2R p) (B2R r) dr ->
  in_turn r /\ is_finite adj = true /\ Rabs (B2R adj) <= 4 /\ Rabs (Rabs (B2R adj) - B2R w * dp) <= 8 * e + / 2 ^ 47 /\
  Rabs (Rabs (B2R D) - dp) <= 8 * e + / 2 ^ 48 /\ is_finite D = true /\ Rabs (B2R D) <= PI /\
  Rabs (dq - (1 - B2R w) * dp) <= 16 * e + / 2 ^ 46 /\ Rabs (dr - B2R w * dp) <= 8 * e + / 2 ^ 46.
Proof.
  intros HS HA He Hp Hq Hw N1 N2 D adj r Adp Adq Adr.
  destruct (turn_R p Hp) as [Tp Bp]. destruct (turn_R q Hq) as [Tq Bq]. unfold turn in Tp, Tq. destruct Hw as (Fw & W).
  pose proof PI_bounds as PB. pose proof tiny_le_u as TU. pose proof tiny_pos as TP. pose proof u_pos as U.
  assert (P28 : 2 ^ 28 = 268435456) by lra.
  assert (Rp : Rabs (B2R p) <= 63 / 10) by (rewrite Rabs_pos_eq; lra). assert (Rq : Rabs (B2R q) <= 63 / 10) by (rewrite Rabs_pos_eq; lra).
  destruct (C02_float_accuracy tr e q p dp HS HA He (proj1 Hq) (proj1 Hp) ltac:(lra) ltac:(lra) N1 N2 Adp) as (FD & BD & (k1 & K1) & AD).
  fold D in FD, BD, K1, AD. set (del := 8 * e + _) in K1, AD.
  assert (Hdel : del <= 8 * e + 29 * u53).
  { unfold del. rewrite pow_Z. cbn [Z.of_nat Pos.of_succ_nat Pos.succ]. change (2 ^ 52)%Z with 4503599627370496%Z. unfold u53. lra. }
  assert (BW : Rabs (B2R D * B2R w) <= PI).
  { rewrite Rabs_mult, (Rabs_pos_eq (B2R w)) by lra. rewrite <- (Rmult_1_r PI). apply Rmult_le_compat; try lra; apply Rabs_pos. }
  pose proof big1023 as BG. assert (P5 : 2 ^ 10 <= 2 ^ 500) by (apply Rle_pow; [lra|lia]).
  destruct (fmul_fin D w FD Fw) as [Fm Vm]; [lra|]. fold adj in Fm, Vm. pose proof (rnd_abs (B2R D * B2R w)) as Em. rewrite <- Vm in Em.
  assert (Em' : Rabs (B2R adj - B2R D * B2R w) <= 5 * u53) by nra.
  assert (Ba : Rabs (B2R adj) <= 4) by (replace (B2R adj) with (B2R adj - B2R D * B2R w + B2R D * B2R w) by ring; eapply Rle_trans; [apply Rabs_triang|]; lra).
  assert (Bs : Rabs (B2R p + B2R adj) <= 11) by (eapply Rle_trans; [apply Rabs_triang|]; lra).
  destruct (fadd_fin p adj (proj1 Hp) Fm) as [Fs Vs]; [lra|]. pose proof (rnd_abs (B2R p + B2R adj)) as Es. rewrite <- Vs in Es. set (s := fadd p adj) in *.
  assert (Es' : Rabs (B2R s - (B2R p + B2R adj)) <= 12 * u53) by nra.
  assert (Bs' : Rabs (B2R s) <= 12) by (replace (B2R s) with (B2R s - (B2R p + B2R adj) + (B2R p + B2R adj)) by ring; eapply Rle_trans; [apply Rabs_triang|]; lra).
  destruct (C01_wrap_float tr s Fs) as (Fr & _ & Rg & _). destruct (C01_wrap_float_turns tr s Fs Bs') as [k2 K2]. fold r in Fr, Rg, K2.
  assert (V49 : / 2 ^ 49 = 16 * u53) by (rewrite pow_Z; unfold u53; cbn; lra). assert (V48 : / 2 ^ 48 = 32 * u53) by (rewrite pow_Z; unfold u53; cbn; lra).
  assert (V47 : / 2 ^ 47 = 64 * u53) by (rewrite pow_Z; unfold u53; cbn; lra). assert (V46 : / 2 ^ 46 = 128 * u53) by (rewrite pow_Z; unfold u53; cbn; lra).
  rewrite V49 in K2. rewrite V48, V47, V46.
  pose proof (is_arc_bounds _ _ _ Adp) as Bdp.
  apply Rabs_le_inv in K1. apply Rabs_le_inv in K2. apply Rabs_le_inv in Es'. apply Rabs_le_inv in Em'. pose proof AD as AD'. apply Rabs_le_inv in AD'.
  set (x := B2R w) in *. set (d := B2R D) in *.
  assert (MW : Rabs (d * x) = x * Rabs d) by (rewrite Rabs_mult, (Rabs_pos_eq x) by lra; ring).
  assert (MW1 : Rabs ((1 - x) * d) = (1 - x) * Rabs d) by (rewrite Rabs_mult, (Rabs_pos_eq (1 - x)) by lra; ring).
  assert (PP : 0 <= Rabs d) by apply Rabs_pos. assert (Pdel : 0 <= del) by (apply Rle_trans with (Rabs (Rabs d - dp)); [apply Rabs_pos|exact AD]).
  assert (X1 : Rabs (x * Rabs d - x * dp) <= del).
  { replace (x * Rabs d - x * dp) with (x * (Rabs d - dp)) by ring. rewrite Rabs_mult, (Rabs_pos_eq x) by lra. pose proof (Rabs_pos (Rabs d - dp)). nra. }
  assert (X2 : Rabs ((1 - x) * Rabs d - (1 - x) * dp) <= del).
  { replace ((1 - x) * Rabs d - (1 - x) * dp) with ((1 - x) * (Rabs d - dp)) by ring. rewrite Rabs_mult, (Rabs_pos_eq (1 - x)) by lra. pose proof (Rabs_pos (Rabs d - dp)). nra. }
  apply Rabs_le_inv in X1. apply Rabs_le_inv in X2.
  split; [split; [exact Fr|exact Rg]|]. split; [exact Fm|]. split; [exact Ba|]. split.
  { assert (Y : Rabs (Rabs (B2R adj) - Rabs (d * x)) <= 5 * u53). { eapply Rle_trans; [apply Rabs_triang_inv2|]. apply Rabs_le. lra. }
    rewrite MW in Y. apply Rabs_le_inv in Y. apply Rabs_le. lra. }
  split; [apply Rabs_le; lra|]. split; [exact FD|]. split; [exact BD|]. split.
  - assert (Y : Rabs (Rabs ((1 - x) * d) - dq) <= del + 33 * u53).
    { apply (arc_near _ _ dq ((1 - x) * d) _ (k1 + k2)%Z Adq); [rewrite MW1; nra|]. rewrite plus_IZR. apply Rabs_le. lra. }
    rewrite MW1 in Y. apply Rabs_le_inv in Y. apply Rabs_le. lra.
  - assert (Adr' : is_arc (B2R r) (B2R p) dr) by now apply is_arc_sym.
    assert (Y : Rabs (Rabs (d * x) - dr) <= 33 * u53).
    { apply (arc_near _ _ dr (d * x) _ (- k2)%Z Adr'); [exact BW|]. rewrite opp_IZR. apply Rabs_le. lra. }
    rewrite MW in Y. apply Rabs_le_inv in Y. apply Rabs_le. lra.
Qed.

Section Moves.
Variables (tr : Trig) (e : R).
Let NF := FNum tr.
Local Existing Instance NF.
(** The phases of two states for which PhaseDifference does not take its special branch. *)
Definition plain_pair (q p : F) : Prop := in_turn q /\ in_turn p /\
  ~ (near0 (B2R q) /\ near34 (B2R p)) /\ ~ (near34 (B2R q) /\ near0 (B2R p)).
(** [cur] after an action, and the two statements about it: arcs left and gone. *)
Definition movedF (p : F) (act : Action F) : F := @WrapPhase F (FNum tr) (fadd p (ac_value act)).
Definition share (q p r : F) (x : R) : Prop := in_turn r /\ forall dp dq dr,
  is_arc (B2R q) (B2R p) dp -> is_arc (B2R q) (B2R r) dq -> is_arc (B2R p) (B2R r) dr ->
  Rabs (dq - (1 - x) * dp) <= 16 * e + / 2 ^ 45 /\ Rabs (dr - x * dp) <= 16 * e + / 2 ^ 45.
Hypothesis HS : trig_sane tr.
Hypothesis HA : trig_acc tr e.
Hypothesis He : 0 <= e <= 1 / 4.

Lemma v46 : / 2 ^ 45 = 2 * / 2 ^ 46 /\ 0 < / 2 ^ 46 /\ / 2 ^ 46 = 128 * u53. Proof. rewrite !pow_Z. unfold u53. cbn. lra. Qed.
Lemma share_move q p w : plain_pair q p -> in_unit w ->
  share q p (@WrapPhase F (FNum tr) (fadd p (fmul (@PhaseDifference F (FNum tr) q p) w))) (B2R w).
Proof using HS HA He.
  intros (Hq & Hp & N1 & N2) Hw. pose proof v46 as V. split.
  - destruct (is_arc_exists (B2R q) (B2R p)) as [dp A]. set (r := WrapPhase _). destruct (is_arc_exists (B2R q) (B2R r)) as [dq B]. destruct (is_arc_exists (B2R p) (B2R r)) as [dr C].
    exact (proj1 (float_move tr e p q w dp dq dr HS HA He Hp Hq Hw N1 N2 A B C)).
  - intros dp dq dr A B C. destruct (float_move tr e p q w dp dq dr HS HA He Hp Hq Hw N1 N2 A B C) as (_ & _ & _ & _ & _ & _ & _ & X & Y). apply Rabs_le_inv in X. apply Rabs_le_inv in Y. split; apply Rabs_le; lra.
Qed.
(** The amount moved. *)
Lemma adj_move q p w dp : plain_pair q p -> in_unit w -> is_arc (B2R q) (B2R p) dp ->
  let a := fmul (@PhaseDifference F (FNum tr) q p) w in
  is_finite a = true /\ Rabs (B2R a) <= 4 /\ Rabs (Rabs (B2R a) - B2R w * dp) <= 8 * e + / 2 ^ 47.
Proof using HS HA He.
  intros (Hq & Hp & N1 & N2) Hw A a. set (r := @WrapPhase F (FNum tr) (fadd p a)).
  destruct (is_arc_exists (B2R q) (B2R r)) as [dq B]. destruct (is_arc_exists (B2R p) (B2R r)) as [dr C].
  destruct (float_move tr e p q w dp dq dr HS HA He Hp Hq Hw N1 N2 A B C) as (_ & X & Y & Z & _). auto.
Qed.
Lemma diff_move q p dp : plain_pair q p -> is_arc (B2R q) (B2R p) dp ->
  let D := @PhaseDifference F (FNum tr) q p in is_finite D = true /\ Rabs (B2R D) <= PI /\ Rabs (Rabs (B2R D) - dp) <= 8 * e + / 2 ^ 48.
Proof using HS HA He.
  intros (Hq & Hp & N1 & N2) A D. assert (Hw : in_unit (fofZ 1)) by (destruct (fofZ_fin 1 ltac:(lia)) as [X Y]; split; [exact X|rewrite Y; lra]).
  set (r := @WrapPhase F (FNum tr) (fadd p (fmul D (fofZ 1)))).
  destruct (is_arc_exists (B2R q) (B2R r)) as [dq B]. destruct (is_arc_exists (B2R p) (B2R r)) as [dr C].
  destruct (float_move tr e p q _ dp dq dr HS HA He Hp Hq Hw N1 N2 A B C) as (_ & _ & _ & _ & X & Y & Z & _). auto.
Qed.
(** Cost: a small whole number times the amount moved. *)
Lemma cost_acc a k : is_finite a = true -> Rabs (B2R a) <= 4 -> (1 <= k <= 4)%Z ->
  ap (fmul (fabs a) (fofZ k)) (IZR k * Rabs (B2R a)) (/ 2 ^ 48).
Proof.
  intros Fa Ba Hk. assert (A : ap (fabs a) (Rabs (B2R a)) 0) by (rewrite <- B2R_fabs; apply ap_exact; now rewrite fin_fabs).
  pose proof (ap_Z k ltac:(lia)) as K. assert (1 <= IZR k <= 4) by (split; apply IZR_le; lia). pose proof (Rabs_pos (B2R a)). pose proof tiny_le_u as TU. pose proof u_pos as U.
  assert (X : ap (fmul (fabs a) (fofZ k)) (Rabs (B2R a) * IZR k) (Rabs (Rabs (B2R a)) * 0 + 0 * Rabs (IZR k) + 0 * 0 + u53 * 16 + tiny)).
  { apply ap_mul; auto; try lra. rewrite Rabs_Rabsolu, (Rabs_pos_eq (IZR k)) by lra. nra. }
  rewrite (Rmult_comm (IZR k)). eapply ap_weak; [exact X|]. rewrite pow_Z. unfold u53 in *. cbn. lra.
Qed.

Lemma flt_fin x y : is_finite x = true -> is_finite y = true -> flt x y = Rlt_bool (B2R x) (B2R y).
Proof. intros A B. rewrite flt_ord, !ford_fin by auto using fin_nan. reflexivity. Qed.
(** ** C12 *)
Theorem C12_float_accuracy : forall (l g : State F) w, plain_pair (st_phase g) (st_phase l) -> in_unit w ->
  in_unit (st_coh l) -> in_unit (st_coh g) ->
  let b := @Blend F (FNum tr) l g w in
  share (st_phase g) (st_phase l) (st_phase b) (B2R w) /\ st_freq b = st_freq l /\
  ap (st_coh b) ((1 - B2R w) * B2R (st_coh l) + B2R w * B2R (st_coh g)) (/ 2 ^ 49).
Proof using HS HA He.
  intros l g w HP Hw Cl Cg b. destruct (ap_Z 0 ltac:(lia)) as [F0 _]. destruct (ap_Z 1 ltac:(lia)) as [F1 _]. destruct (fofZ_fin 0 ltac:(lia)) as [_ V0]. destruct (fofZ_fin 1 ltac:(lia)) as [_ V1].
  destruct Hw as [Fw W]. assert (EW : b = mkState (@WrapPhase F (FNum tr) (fadd (st_phase l) (fmul (@PhaseDifference F (FNum tr) (st_phase g) (st_phase l)) w))) (st_freq l)
     (fadd (fmul (st_coh l) (fsub (fofZ 1) w)) (fmul (st_coh g) w))).
  { unfold b, Blend. cbn [nlt n0 n1 nofZ nadd nsub nmul FNum]. rewrite (flt_fin w (fofZ 0)), (flt_fin (fofZ 1) w), V0, V1, !Rlt_bool_false by (auto; lra). reflexivity. }
  rewrite EW. cbn [st_phase st_freq st_coh]. split; [apply share_move; [exact HP|now split]|]. split; [reflexivity|].
  destruct Cl as [Fl L], Cg as [Fg G]. set (x := B2R w) in *. set (a := B2R (st_coh l)) in *. set (c := B2R (st_coh g)) in *.
  pose proof tiny_le_u as TU. pose proof u_pos as U. assert (TT : tiny <= u53 / 1000) by exact tiny_u1000.
  pose proof (ap_exact _ Fw) as Aw. pose proof (ap_exact _ Fl) as Al. pose proof (ap_exact _ Fg) as Ag. pose proof (ap_exact _ F1) as A1. rewrite V1 in A1. fold x in Aw. fold a in Al. fold c in Ag.
  assert (S1 : ap (fsub (fofZ 1) w) (1 - x) (2 * u53)).
  { eapply ap_weak; [apply (ap_sub _ _ 1 x 0 0 1 A1 Aw); [lra|rewrite Rabs_pos_eq; lra]|lra]. }
  assert (0 <= a * (1 - x) <= 1 - x) by (split; [apply Rmult_le_pos; lra|nra]). assert (0 <= c * x <= x) by (split; [apply Rmult_le_pos; lra|nra]).
  assert (0 <= a * (2 * u53) <= 2 * u53) by (split; [apply Rmult_le_pos; lra|nra]).
  assert (M1 : ap (fmul (st_coh l) (fsub (fofZ 1) w)) (a * (1 - x)) (5 * u53)).
  { eapply ap_weak; [apply (ap_mul _ _ a (1 - x) 0 (2 * u53) 2 Al S1); try lra; rewrite (Rabs_pos_eq a), (Rabs_pos_eq (1 - x)) by lra; lra|]. rewrite (Rabs_pos_eq a), (Rabs_pos_eq (1 - x)) by lra. lra. }
  assert (M2 : ap (fmul (st_coh g) w) (c * x) (2 * u53)).
  { eapply ap_weak; [apply (ap_mul _ _ c x 0 0 1 Ag Aw); try lra; rewrite (Rabs_pos_eq c), (Rabs_pos_eq x) by lra; lra|]. lra. }
  replace ((1 - x) * a + x * c) with (a * (1 - x) + c * x) by ring. assert (V49 : / 2 ^ 49 = 16 * u53) by (rewrite pow_Z; unfold u53; cbn; lra).
  eapply ap_weak; [apply (ap_add _ _ _ _ _ _ (1 + 7 * u53) M1 M2); [lra|rewrite Rabs_pos_eq; lra]|]. nra.
Qed.

(** ** C10 *)
(** The value and the cost of an action that moves by the share [x] of an arc [dp]. *)
Definition pays (act : Action F) (k : Z) (x dp : R) : Prop :=
  ap (ac_cost act) (IZR k * Rabs (B2R (ac_value act))) (/ 2 ^ 48) /\ Rabs (Rabs (B2R (ac_value act)) - x * dp) <= 8 * e + / 2 ^ 47.

Theorem C10_float_phase_nudge : forall rate (cur tgt : State F) cx, in_unit rate -> plain_pair (st_phase tgt) (st_phase cur) ->
  let act := fst (@PhaseNudgePropose F (FNum tr) rate cur tgt cx) in
  share (st_phase tgt) (st_phase cur) (movedF (st_phase cur) act) (B2R rate) /\
  forall dp, is_arc (B2R (st_phase tgt)) (B2R (st_phase cur)) dp ->
    pays act 2%Z (B2R rate) dp /\ Rabs (B2R (ac_benefit act) - 3 / 2 * (1 - dp / PI)) <= 8 * e + / 2 ^ 46.
Proof using HS HA He.
  intros rate cur tgt cx Hr HP act. split; [now apply share_move|]. intros dp A.
  destruct (adj_move _ _ _ _ HP Hr A) as (Fa & Ba & Ea). destruct (diff_move _ _ _ HP A) as (FD & BD & ED). split; [split; [exact (cost_acc _ 2 Fa Ba ltac:(lia))|exact Ea]|].
  unfold act, PhaseNudgePropose. cbn [fst ac_benefit nmul nsub n1 nofZ ndiv nabs npi nlit FNum]. set (D := @PhaseDifference F (FNum tr) (st_phase tgt) (st_phase cur)) in *.
  destruct fpi_val as [Fp _]. pose proof fpi_near as PN. unfold fpi in PN. pose proof PI_bounds as PB. pose proof tiny_le_u as TU. pose proof u_pos as U. assert (TT : tiny <= u53 / 1000) by exact tiny_u1000. pose proof tiny_pos as TP.
  assert (V52 : / 2 ^ 52 = 2 * u53) by (rewrite pow_Z; unfold u53; cbn; lra). assert (V48 : / 2 ^ 48 = 32 * u53) by (rewrite pow_Z; unfold u53; cbn; lra). assert (V46 : / 2 ^ 46 = 128 * u53) by (rewrite pow_Z; unfold u53; cbn; lra).
  rewrite V52 in PN. rewrite V48 in ED. rewrite V46. change (@nhalfpi F (FNum tr)) with fhalfpi. set (P := B2R (fhalfpi 2)) in *.
  pose proof (is_arc_bounds _ _ _ A) as Bd. set (m := Rabs (B2R D)) in *. assert (Pm : 0 <= m) by apply Rabs_pos.
  assert (AD : ap (fabs D) m 0) by (unfold m; rewrite <- B2R_fabs; apply ap_exact; now rewrite fin_fabs).
  assert (BQ : 0 <= m / P <= 11 / 10).
  { split; [apply Rmult_le_pos; [lra|left; apply Rinv_0_lt_compat; lra]|]. apply Rmult_le_reg_r with P; [lra|]. unfold Rdiv at 1. rewrite Rmult_assoc, Rinv_l by lra. lra. }
  assert (AQ : ap (fdiv (fabs D) (fhalfpi 2)) (m / P) (2 * u53)).
  { eapply ap_weak; [apply (ap_div _ _ m 0 (11 / 10) AD Fp); fold P; try lra; rewrite ?(Rabs_pos_eq m), ?(Rabs_pos_eq P) by lra; try lra|].
    fold P. unfold Rdiv at 1. rewrite Rmult_0_l. lra. }
  pose proof (ap_Z 1 ltac:(lia)) as A1.
  assert (AS : ap (fsub (fofZ 1) (fdiv (fabs D) (fhalfpi 2))) (1 - m / P) (4 * u53)).
  { eapply ap_weak; [apply (ap_sub _ _ 1 (m / P) 0 (2 * u53) (3 / 2) A1 AQ); [lra|]|lra]. assert (Rabs (1 - m / P) <= 1) by (apply Rabs_le; lra). lra. }
  destruct (flit_fin 15 10 ltac:(lia) ltac:(lia)) as [F15 V15].
  assert (A15 : ap (flit 15 10) (3 / 2) (2 * u53)).
  { split; [exact F15|]. rewrite V15. replace (15 / 10) with (3 / 2) by lra. eapply Rle_trans; [apply rnd_abs|]. rewrite Rabs_pos_eq by lra. lra. }
  assert (AB : Rabs (1 - m / P) <= 1) by (apply Rabs_le; lra). pose proof (Rabs_pos (1 - m / P)) as AB0.
  destruct (ap_mul _ _ (1 - m / P) (3 / 2) (4 * u53) (2 * u53) 2 AS A15 ltac:(lra) ltac:(lra) ltac:(lra)) as [_ M].
  { rewrite (Rabs_pos_eq (3 / 2)) by lra. nra. }
  rewrite (Rabs_pos_eq (3 / 2)) in M by lra.
  assert (DP : Rabs (m / P - dp / PI) <= 8 / 3 * e + 13 * u53).
  { replace (m / P - dp / PI) with ((m - dp) / PI + m / P * ((PI - P) / PI)) by (field; lra). eapply Rle_trans; [apply Rabs_triang|].
    assert (IP : 0 < / PI <= 1 / 3). { split; [apply Rinv_0_lt_compat; lra|]. apply Rmult_le_reg_r with PI; [lra|]. rewrite Rinv_l; lra. }
    assert (X : Rabs ((m - dp) / PI) <= (8 * e + 32 * u53) * (1 / 3)). { unfold Rdiv. rewrite Rabs_mult, (Rabs_pos_eq (/ PI)) by lra. apply Rmult_le_compat; try lra; apply Rabs_pos. }
    assert (Y : Rabs (m / P * ((PI - P) / PI)) <= u53). { rewrite Rabs_pos_eq; [|apply Rmult_le_pos; [lra|apply Rmult_le_pos; lra]]. assert ((PI - P) / PI <= 2 * u53 * (1 / 3)) by (unfold Rdiv; apply Rmult_le_compat; lra). assert (0 <= (PI - P) / PI) by (apply Rmult_le_pos; lra). nra. }
    lra. }
  set (z := fmul _ _) in M. change (Rabs (B2R z - 3 / 2 * (1 - dp / PI)) <= 8 * e + 128 * u53).
  apply Rabs_le_inv in DP. apply Rabs_le_inv in M. apply Rabs_le.
  assert (Rabs (1 - m / P) * (2 * u53) <= 2 * u53) by nra. assert (4 * u53 * (2 * u53) <= u53) by nra. split; lra.
Qed.

Theorem C10_float_frequency_lock : forall rate (cur tgt : State F) cx, in_unit rate -> plain_pair (st_phase tgt) (st_phase cur) ->
  let act := fst (@FrequencyLockPropose F (FNum tr) rate cur tgt cx) in
  share (st_phase tgt) (st_phase cur) (movedF (st_phase cur) act) (B2R rate) /\
  forall dp, is_arc (B2R (st_phase tgt)) (B2R (st_phase cur)) dp -> pays act 3%Z (B2R rate) dp.
Proof using HS HA He.
  intros rate cur tgt cx Hr HP act. split; [now apply share_move|]. intros dp A.
  destruct (adj_move _ _ _ _ HP Hr A) as (Fa & Ba & Ea). split; [exact (cost_acc _ 3 Fa Ba ltac:(lia))|exact Ea].
Qed.

(** The pulse strategy at its time. *)
Theorem C10_float_pulse : forall (p : Pulse F) now (cur tgt : State F) cx, in_unit (pu_amp p) -> (pu_period p <= now - pu_last p)%Z ->
  plain_pair (st_phase tgt) (st_phase cur) ->
  let act := fst (snd (@PulsePropose F (FNum tr) p now cur tgt cx)) in
  share (st_phase tgt) (st_phase cur) (movedF (st_phase cur) act) (B2R (pu_amp p)) /\
  forall dp, is_arc (B2R (st_phase tgt)) (B2R (st_phase cur)) dp -> pays act 4%Z (B2R (pu_amp p)) dp.
Proof using HS HA He.
  intros p now cur tgt cx Hr Ht HP. unfold PulsePropose. replace (now - pu_last p <? pu_period p)%Z with false by (symmetry; apply Z.ltb_ge; lia). cbv zeta. cbn [fst snd].
  split; [now apply share_move|]. intros dp A.
  destruct (adj_move _ _ _ _ HP Hr A) as (Fa & Ba & Ea). split; [exact (cost_acc _ 4 Fa Ba ltac:(lia))|exact Ea].
Qed.

(** The energy-aware strategy: a clear arc is reduced by a tenth, a clearly small one is left alone. *)
Theorem C10_float_energy_aware : forall (cur tgt : State F) cx dp, plain_pair (st_phase tgt) (st_phase cur) ->
  is_arc (B2R (st_phase tgt)) (B2R (st_phase cur)) dp ->
  let act := fst (@EnergyAwarePropose F (FNum tr) cur tgt cx) in
  (1 / 10 + (8 * e + / 2 ^ 47) <= dp -> share (st_phase tgt) (st_phase cur) (movedF (st_phase cur) act) (B2R (flit 1 10)) /\
     ac_type act = "energy_save"%string) /\
  (dp < 1 / 10 - (8 * e + / 2 ^ 47) -> act = mkAction "maintain" (fofZ 0) (flit 1 10) (cx_stability cx)).
Proof using HS HA He.
  intros cur tgt cx dp HP A. destruct (diff_move _ _ _ HP A) as (FD & BD & ED). destruct (flit_fin 1 10 ltac:(lia) ltac:(lia)) as [F1 V1].
  pose proof tiny_le_u as TU. pose proof u_pos as U. assert (TT : tiny <= u53 / 1000) by exact tiny_u1000. pose proof (rnd_abs (1 / 10)) as E1. rewrite <- V1, (Rabs_pos_eq (1 / 10)) in E1 by lra. apply Rabs_le_inv in E1. apply Rabs_le_inv in ED.
  assert (V48 : / 2 ^ 48 = 32 * u53) by (rewrite pow_Z; unfold u53; cbn; lra). assert (V47 : / 2 ^ 47 = 64 * u53) by (rewrite pow_Z; unfold u53; cbn; lra). rewrite V48 in ED. rewrite V47.
  assert (IU : in_unit (flit 1 10)) by (split; [exact F1|lra]).
  unfold EnergyAwarePropose. cbn [nlt nabs nlit FNum]. set (D := @PhaseDifference F (FNum tr) (st_phase tgt) (st_phase cur)) in *.
  rewrite (flt_fin (fabs D) (flit 1 10)) by (auto; now rewrite fin_fabs). rewrite B2R_fabs. split; intros H.
  - rewrite Rlt_bool_false by lra. cbv zeta. cbn [fst ac_type]. split; [now apply share_move|reflexivity].
  - rewrite Rlt_bool_true by lra. reflexivity.
Qed.
End Moves.
(** Phases 1 and 2 and the share 1/2 meet the hypotheses. *)
Example float_moves_apply : plain_pair (fofZ 1) (fofZ 2) /\ in_unit (flit 1 2).
Proof.
  destruct (fofZ_fin 1 ltac:(lia)) as [A1 B1]. destruct (fofZ_fin 2 ltac:(lia)) as [A2 B2]. pose proof PI_bounds. pose proof f2pi_near as P2. rewrite pow_Z in P2. cbn [Z.of_nat Pos.of_succ_nat Pos.succ] in P2. change (2 ^ 51)%Z with 2251799813685248%Z in P2. destruct (flit_fin 1 2 ltac:(lia) ltac:(lia)) as [F1 V1].
  split; [|split; [exact F1|]].
  - unfold plain_pair, in_turn, near0. fold f2pi. rewrite A1, A2, B1, B2, (Rabs_pos_eq 1), (Rabs_pos_eq 2) by lra. split; [split; [reflexivity|lra]|]. split; [split; [reflexivity|lra]|]. split; intros [C1 C2]; lra.
  - rewrite V1. split; [apply rnd_ge_0; lra|apply rnd_le_fmt; [apply (fmt_IZR 1); lia|lra]].
Qed.
Print Assumptions C12_float_accuracy.
Print Assumptions C10_float_phase_nudge.
Print Assumptions C10_float_frequency_lock.
Print Assumptions C10_float_pulse.
Print Assumptions C10_float_energy_aware.
