(** Float accuracy of the attractor basins (C43): distance, force and suggested move. *)
From Coq Require Import ZArith Reals Psatz Bool List Lia.
From Flocq Require Import Core.Core IEEE754.BinarySingleNaN.
From Verif Require Import Num F64 RealNum M_Core M_Basin S_Circle S_Agent S_Sync S_Acc L_F64 L_F64x L_Circle L_PhaseF L_Acc P_Core P_Converge P_Accuracy P_AccuracySwarm P_AccuracyMove P_Patterns P_Basin.
Open Scope R_scope.

(** How far the float distance may be from the true arc, for phases [a] and [b]. *)
Definition distErr (a b : F) : R := (Rabs (B2R a) + Rabs (B2R b) + 2) / 2 ^ 52.
Theorem C43_float_distance : forall tr (b : Basin F) s d, is_finite (st_phase s) = true -> is_finite (st_phase (ba_target b)) = true ->
  Rabs (B2R (st_phase s)) <= 2 ^ 300 -> Rabs (B2R (st_phase (ba_target b))) <= 2 ^ 300 ->
  is_arc (B2R (st_phase s)) (B2R (st_phase (ba_target b))) d ->
  ap (@DistanceToTarget F (FNum tr) b s) d (distErr (st_phase s) (st_phase (ba_target b))).
Proof.
  intros tr b s d Fs Ft Bs Bt A. unfold DistanceToTarget, distErr. change (@nabs F (FNum tr)) with fabs. change (@nrem F (FNum tr)) with frem. change (@nsub F (FNum tr)) with fsub. change (@n2pi F (FNum tr)) with f2pi.
  set (x := st_phase s) in *. set (t := st_phase (ba_target b)) in *.
  pose proof big1023 as BG. assert (P3 : 2 * 2 ^ 300 <= 2 ^ 500) by (change (2 * 2 ^ 300) with (2 ^ 301); apply Rle_pow; [lra|lia]).
  assert (BX : Rabs (B2R x - B2R t) <= Rabs (B2R x) + Rabs (B2R t)) by (unfold Rminus; eapply Rle_trans; [apply Rabs_triang|]; rewrite Rabs_Ropp; lra).
  destruct (fsub_fin x t Fs Ft) as [FD VD]; [lra|]. pose proof (rnd_abs (B2R x - B2R t)) as ED. rewrite <- VD in ED.
  destruct (frem_fin _ f2pi FD f2pi_fin f2pi_nz) as (FR & BR & k & K).
  set (r := frem _ _) in *. set (D := fsub x t) in *. clearbody r D. pose proof f2pi_near as P2. fold f2pi in P2. pose proof PI_bounds as PB.
  rewrite pow_Z in P2. cbn [Z.of_nat Pos.of_succ_nat Pos.succ] in P2. change (2 ^ 51)%Z with 2251799813685248%Z in P2. set (w := B2R f2pi) in *. clearbody w.
  rewrite (Rabs_pos_eq w) in BR by lra. pose proof tiny_le_u as TU. pose proof tiny_pos as TP. pose proof u_pos as U. assert (TT : tiny <= u53 / 1000) by exact tiny_u1000.
  set (A1 := Rabs (B2R x) + Rabs (B2R t)) in *. assert (PA : 0 <= A1) by (unfold A1; pose proof (Rabs_pos (B2R x)); pose proof (Rabs_pos (B2R t)); lra).
  assert (E1 : Rabs (B2R D - (B2R x - B2R t)) <= u53 * A1 + tiny) by nra.
  assert (BD : Rabs (B2R D) <= A1 * (101 / 100) + 1).
  { replace (B2R D) with (B2R D - (B2R x - B2R t) + (B2R x - B2R t)) by ring. eapply Rle_trans; [apply Rabs_triang|]. assert (u53 <= 1 / 100) by (unfold u53; lra). nra. }
  assert (KB : Rabs (IZR k) * 6 <= A1 * (101 / 100) + 5).
  { assert (Rabs (IZR k * w) <= Rabs (B2R D) + Rabs (B2R r)). { replace (IZR k * w) with (B2R D + - B2R r) by lra. eapply Rle_trans; [apply Rabs_triang|]. rewrite Rabs_Ropp. lra. }
    rewrite Rabs_mult, (Rabs_pos_eq w) in H by lra. pose proof (Rabs_pos (IZR k)). nra. }
  destruct (fabs_fin _ FR) as [FA VA]. split; [exact FA|]. rewrite VA.
  apply (arc_near _ _ d (B2R r) _ (- k)%Z A); [lra|]. rewrite opp_IZR.
  replace (B2R r - (B2R x - B2R t) - - IZR k * (2 * PI)) with (B2R D - (B2R x - B2R t) + IZR k * (2 * PI - w)) by (rewrite K; ring).
  eapply Rle_trans; [apply Rabs_triang|]. rewrite (Rabs_mult (IZR k)).
  assert (W : Rabs (2 * PI - w) <= 4 * u53) by (apply Rabs_le; unfold u53; lra).
  assert (X : Rabs (IZR k) * Rabs (2 * PI - w) <= (A1 * (101 / 100) + 5) / 6 * (4 * u53)) by (apply Rmult_le_compat; try apply Rabs_pos; [lra|exact W]).
  assert (V52 : / 2 ^ 52 = 2 * u53) by (rewrite pow_Z; unfold u53; cbn; lra). unfold Rdiv at 1. rewrite V52. fold A1. nra.
Qed.
Print Assumptions C43_float_distance.

(** The boost of a basin, as an exact number. *)
Definition boostOf (b : Basin F) (s : State F) : R := if Rlt_dec (B2R (st_phase s)) 0 then if Rlt_dec 0 (B2R (st_phase (ba_target b))) then 2 else 1 else 1.
(** Wherever the state is, also at the rim, the float force is the ideal one (a straight line from the strength at the
    target to 0 at the rim, doubled by the boost) up to the relative error of the distance. *)
Theorem C43_float_force : forall tr (b : Basin F) s d, is_finite (st_phase s) = true -> is_finite (st_phase (ba_target b)) = true ->
  Rabs (B2R (st_phase s)) <= 2 ^ 300 -> Rabs (B2R (st_phase (ba_target b))) <= 2 ^ 300 -> in_unit (ba_strength b) ->
  is_finite (ba_radius b) = true -> 0 < B2R (ba_radius b) -> is_arc (B2R (st_phase s)) (B2R (st_phase (ba_target b))) d ->
  ap (@AttractionForce F (FNum tr) b s) (boostOf b s * (B2R (ba_strength b) * Rmax 0 (1 - d / B2R (ba_radius b))))
     (boostOf b s * (distErr (st_phase s) (st_phase (ba_target b)) / B2R (ba_radius b)) + / 2 ^ 49).
Proof.
  intros tr b s d Fs Ft Bs Bt [FS BS] FR PR A. destruct (C43_float_distance tr b s d Fs Ft Bs Bt A) as [FD ED].
  set (del := distErr _ _) in *. assert (Pdel : 0 <= del) by (eapply Rle_trans; [apply Rabs_pos|exact ED]).
  assert (D0 : 0 <= B2R (@DistanceToTarget F (FNum tr) b s)). { unfold DistanceToTarget. change (@nabs F (FNum tr)) with fabs. rewrite B2R_fabs. apply Rabs_pos. }
  pose proof (is_arc_bounds _ _ _ A) as Bd. unfold AttractionForce, boostOf. cbv zeta. revert FD ED D0. generalize (@DistanceToTarget F (FNum tr) b s) as D. intros D FD ED D0.
  set (R := B2R (ba_radius b)) in *. set (S := B2R (ba_strength b)) in *.
  destruct (fofZ_fin 0 ltac:(lia)) as [F0 V0]. pose proof (ap_Z 1 ltac:(lia)) as A1. pose proof (ap_Z 2 ltac:(lia)) as A2.
  change (@nlt F (FNum tr)) with flt. change (@n0 F (FNum tr)) with (fofZ 0). change (@n1 F (FNum tr)) with (fofZ 1). change (@nmul F (FNum tr)) with fmul. change (@nsub F (FNum tr)) with fsub. change (@ndiv F (FNum tr)) with fdiv. change (@nofZ F (FNum tr) 2) with (fofZ 2).
  rewrite !flt_fin, V0 by assumption. fold R. assert (V49 : / 2 ^ 49 = 16 * u53) by (rewrite pow_Z; unfold u53; cbn; lra). rewrite V49.
  pose proof tiny_le_u as TU. pose proof tiny_pos as TP. pose proof u_pos as U. assert (TT : tiny <= u53 / 1000) by exact tiny_u1000. assert (UU : u53 * u53 <= u53 / 1000) by nra.
  apply Rabs_le_inv in ED. assert (IR : 0 < / R) by now apply Rinv_0_lt_compat. assert (Q0 : 0 <= del / R) by (apply Rmult_le_pos; lra).
  destruct (Rlt_bool_spec R (B2R D)) as [L|L].
  - (* outside *)
    assert (M : 0 <= Rmax 0 (1 - d / R) <= del / R).
    { split; [apply Rmax_l|]. apply Rmax_lub; [exact Q0|]. assert (E : 1 - d / R = (R - d) / R) by (field; lra). rewrite E. apply Rmult_le_compat_r; lra. }
    assert (MS : 0 <= S * Rmax 0 (1 - d / R) <= del / R) by (split; [apply Rmult_le_pos; lra|nra]).
    split; [exact F0|]. rewrite V0. set (z := S * Rmax 0 (1 - d / R)) in *. clearbody z.
    destruct (Rlt_dec (B2R (st_phase s)) 0), (Rlt_dec 0 (B2R (st_phase (ba_target b)))); apply Rabs_le; lra.
  - set (m := B2R D / R). assert (Hm : 0 <= m <= 1).
    { split; [apply Rmult_le_pos; lra|]. unfold m. apply Rmult_le_reg_r with R; [exact PR|]. unfold Rdiv. rewrite Rmult_assoc, Rinv_l by lra. lra. }
    assert (Q : ap (fdiv D (ba_radius b)) m (2 * u53)).
    { assert (Hx : ap D (B2R D) 0) by now apply ap_exact. eapply ap_weak; [apply (ap_div _ _ _ 0 1 Hx FR); fold R; rewrite ?Rabs_pos_eq, ?Rplus_0_r by lra; try lra|].
      - apply Hm.
      - fold R. unfold Rdiv at 1. rewrite Rmult_0_l. lra. }
    assert (S1 : ap (fsub (fofZ 1) (fdiv D (ba_radius b))) (1 - m) (4 * u53)).
    { eapply ap_weak; [apply (ap_sub _ _ 1 m 0 (2 * u53) (3 / 2) A1 Q); [lra|]|lra]. rewrite Rabs_pos_eq by lra. unfold u53. lra. }
    assert (S2 : ap (fmul (ba_strength b) (fsub (fofZ 1) (fdiv D (ba_radius b)))) (S * (1 - m)) (6 * u53)).
    { assert (Hx : ap (ba_strength b) S 0) by now apply ap_exact. eapply ap_weak; [apply (ap_mul _ _ S (1 - m) 0 (4 * u53) (3 / 2) Hx S1); try lra|].
      - rewrite !Rabs_pos_eq by lra. assert (4 * u53 <= 1 / 4) by (unfold u53; lra). nra.
      - rewrite !Rabs_pos_eq by lra. nra. }
    assert (SM : 0 <= S * (1 - m) <= 1) by nra.
    assert (S4 : ap (fmul (fmul (ba_strength b) (fsub (fofZ 1) (fdiv D (ba_radius b)))) (fofZ 2)) (2 * (S * (1 - m))) (15 * u53)).
    { rewrite (Rmult_comm 2). eapply ap_weak; [apply (ap_mul _ _ (S * (1 - m)) 2 (6 * u53) 0 (5 / 2) S2 A2); try lra|].
      - rewrite !Rabs_pos_eq by lra. assert (6 * u53 <= 1 / 4) by (unfold u53; lra). lra.
      - rewrite !Rabs_pos_eq by lra. lra. }
    (* the ideal value *)
    assert (MD : Rabs (m - d / R) <= del / R).
    { unfold m. replace (B2R D / R - d / R) with ((B2R D - d) * / R) by (field; lra). rewrite Rabs_mult, (Rabs_pos_eq (/ R)) by lra. apply Rmult_le_compat_r; [lra|]. apply Rabs_le. lra. }
    apply Rabs_le_inv in MD.
    assert (X : Rabs (1 - m - Rmax 0 (1 - d / R)) <= del / R). { apply Rabs_le. unfold Rmax. destruct (Rle_dec 0 (1 - d / R)); lra. }
    assert (Y : Rabs (S * (1 - m) - S * Rmax 0 (1 - d / R)) <= del / R).
    { rewrite <- Rmult_minus_distr_l, Rabs_mult, (Rabs_pos_eq S) by lra. pose proof (Rabs_pos (1 - m - Rmax 0 (1 - d / R))). nra. }
    apply Rabs_le_inv in Y. set (z := S * Rmax 0 (1 - d / R)) in *. clearbody z. destruct S2 as [G1 E1], S4 as [G2 E2]. apply Rabs_le_inv in E1. apply Rabs_le_inv in E2.
    assert (N : ap (fmul (ba_strength b) (fsub (fofZ 1) (fdiv D (ba_radius b)))) (1 * z) (1 * (del / R) + 16 * u53)) by (split; [exact G1|apply Rabs_le; lra]).
    assert (W : ap (fmul (fmul (ba_strength b) (fsub (fofZ 1) (fdiv D (ba_radius b)))) (fofZ 2)) (2 * z) (2 * (del / R) + 16 * u53)) by (split; [exact G2|apply Rabs_le; lra]).
    destruct (Rlt_bool_spec (B2R (st_phase s)) 0) as [C1|C1]; destruct (Rlt_dec (B2R (st_phase s)) 0); try lra; cbn [andb]; try exact N.
    destruct (Rlt_bool_spec 0 (B2R (st_phase (ba_target b)))) as [C2|C2]; destruct (Rlt_dec 0 (B2R (st_phase (ba_target b)))); try lra; assumption.
Qed.
(** The move OptimalAdjustment suggests goes the share [x] of the arc toward the target, [x] being the float force, or
    1/100 where it is zero; the state ends nearer up to the error of the functions of package math. *)
Theorem C43_float_adjustment : forall tr e (b : Basin F) s, trig_sane tr -> trig_acc tr e -> 0 <= e <= 1 / 4 ->
  plain_pair (st_phase (ba_target b)) (st_phase s) -> in_unit (ba_strength b) -> is_finite (ba_radius b) = true -> 0 < B2R (ba_radius b) ->
  let f := @AttractionForce F (FNum tr) b s in let adj := @OptimalAdjustment F (FNum tr) b s in
  exists x, in_unit x /\ 0 < B2R x /\ (B2R f <> 0 -> x = f) /\ (B2R f = 0 -> x = flit 1 100) /\
  P_AccuracyMove.share e (st_phase (ba_target b)) (st_phase s) (@WrapPhase F (FNum tr) (fadd (st_phase s) adj)) (B2R x) /\
  forall d, is_arc (B2R (st_phase (ba_target b))) (B2R (st_phase s)) d -> Rabs (Rabs (B2R adj) - B2R x * d) <= 8 * e + / 2 ^ 47.
Proof.
  intros tr e b s HS HA He HP HU FR PR f adj. pose proof HP as (Tt & Ts & _). destruct (turn_R _ Tt) as [_ Bt]. destruct (turn_R _ Ts) as [_ Bs].
  assert (M : forall x, in_turn x -> P_Patterns.moderate x).
  { intros x Tx. destruct (turn_R x Tx) as [X1 X2]. destruct Tx as [Fx _]. split; [exact Fx|]. unfold turn in X1. rewrite Rabs_pos_eq by lra. pose proof PI_bounds.
    apply Rle_trans with (bpow radix2 3); [change (bpow radix2 3) with 8; lra|apply bpow_le; lia]. }
  assert (NB : ~ boostedF b s).
  { intros [X _]. destruct (fofZ_fin 0 ltac:(lia)) as [F0 V0]. rewrite flt_fin, V0 in X by (auto; apply Ts). destruct (Rlt_bool_spec (B2R (st_phase s)) 0); [|discriminate]. destruct Ts as [_ ?]. lra. }
  destruct (C43_force_range_float tr b s (M _ Ts) (M _ Tt) HU FR PR NB) as (UF & _ & _). fold f in UF.
  destruct (flit_fin 1 100 ltac:(lia) ltac:(lia)) as [F1 V1].
  pose proof tiny_le_u as TU. pose proof u_pos as U. assert (TT : tiny <= u53 / 1000) by exact tiny_u1000. pose proof (rnd_abs (1 / 100)) as E1. rewrite <- V1, (Rabs_pos_eq (1 / 100)) in E1 by lra. apply Rabs_le_inv in E1.
  assert (U1 : u53 <= 1 / 1000) by (unfold u53; lra).
  assert (UL : in_unit (flit 1 100)) by (split; [exact F1|lra]).
  assert (EZ : feq f (fofZ 0) = Req_bool (B2R f) 0).
  { destruct (fofZ_fin 0 ltac:(lia)) as [F0 V0]. destruct UF as [Ff _]. rewrite feq_ord, !ford_fin by auto using fin_nan. now rewrite V0. }
  exists (if Req_bool (B2R f) 0 then flit 1 100 else f).
  assert (EA : adj = fmul (@PhaseDifference F (FNum tr) (st_phase (ba_target b)) (st_phase s)) (if Req_bool (B2R f) 0 then flit 1 100 else f)).
  { unfold adj, OptimalAdjustment. change (@neqb F (FNum tr)) with feq. change (@n0 F (FNum tr)) with (fofZ 0). change (@nlit F (FNum tr)) with flit. change (@nmul F (FNum tr)) with fmul. cbv zeta. fold f. rewrite EZ. destruct (Req_bool (B2R f) 0); reflexivity. }
  set (x := if Req_bool (B2R f) 0 then flit 1 100 else f) in *.
  assert (UX : in_unit x) by (unfold x; destruct (Req_bool (B2R f) 0); assumption).
  split; [exact UX|]. split.
  { unfold x. destruct (Req_bool_spec (B2R f) 0) as [Z|Z]; [lra|]. destruct UF as [_ [UF0 _]]. destruct UF0 as [UF0|UF0]; [exact UF0|exfalso; apply Z; symmetry; exact UF0]. }
  split; [intros Z; unfold x; now rewrite Req_bool_false by assumption|]. split; [intros Z; unfold x; now rewrite Req_bool_true by assumption|].
  rewrite EA. split; [now apply (share_move tr e HS HA He)|]. intros d A. exact (proj2 (proj2 (adj_move tr e HS HA He _ _ _ _ HP UX A))).
Qed.
(** Strength 1/2, radius 3, target phase 1, state phase 2 meets the hypotheses of all three, with the correctly rounded
    functions. *)
Example float_basin_applies : exists (b : Basin F) s, trig_sane crTrig /\ trig_acc crTrig (/ 2 ^ 51) /\ plain_pair (st_phase (ba_target b)) (st_phase s) /\
  in_unit (ba_strength b) /\ is_finite (ba_radius b) = true /\ 0 < B2R (ba_radius b) /\ Rabs (B2R (st_phase s)) <= 2 ^ 300.
Proof.
  exists (mkBasin (mkState (fofZ 1) 1%Z (fofZ 0)) (flit 1 2) (fofZ 3)), (mkState (fofZ 2) 1%Z (fofZ 0)). cbn [ba_target ba_strength ba_radius st_phase].
  destruct float_moves_apply as [A B]. destruct (fofZ_fin 3 ltac:(lia)) as [C D]. destruct (fofZ_fin 2 ltac:(lia)) as [E G].
  refine (conj cr_sane (conj cr_acc (conj A (conj B (conj C (conj _ _)))))); [rewrite D; lra|]. rewrite G, Rabs_pos_eq by lra. apply Rle_trans with (2 ^ 1); [lra|apply Rle_pow; [lra|lia]].
Qed.
Print Assumptions C43_float_force.
Print Assumptions C43_float_adjustment.
