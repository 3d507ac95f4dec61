(** Accuracy of the float pattern distance (emerge/core/pattern.go), shared by C06 and C91. *)
From Coq Require Import ZArith Reals Psatz Bool List String Lia.
From Flocq Require Import Core.Core IEEE754.BinarySingleNaN.
From Verif Require Import Num GoBase F64 RealNum M_Core S_Sync S_Acc S_Agent S_Round L_F64 L_F64x L_Ford L_Acc L_Bnd P_Accuracy P_Round P_Periods.
Open Scope Z_scope.
Section Distance.
Open Scope R_scope.
Lemma rn x : Rabs x <= 4 -> Rabs (rnd x - x) <= 1 / 10 ^ 15.
Proof.
  intros H. pose proof (rnd_abs x) as A. pose proof tiny_60 as T. assert (P60 : 2 ^ 60 = 1152921504606846976) by (rewrite pow_Z; reflexivity). rewrite P60 in T.
  assert (U : 0 < u53 <= 112 / 10 ^ 18) by (unfold u53; lra). assert (u53 * Rabs x <= 112 / 10 ^ 18 * 4) by (apply Rmult_le_compat; try lra; apply Rabs_pos). lra.
Qed.
Lemma le1023 x : x <= 100 -> x <= bpow radix2 1023.
Proof. intros H. pose proof big1023. assert (2 ^ 10 <= 2 ^ 500) by (apply Rle_pow; [lra|lia]). lra. Qed.
Lemma lit_near n d : (0 < n <= d)%Z -> (d <= 1000)%Z -> is_finite (flit n d) = true /\ Rabs (B2R (flit n d) - IZR n / IZR d) <= 1 / 10 ^ 15.
Proof.
  intros H D. destruct (flit_fin n d ltac:(lia) ltac:(lia)) as [A B]. split; [exact A|]. rewrite B. apply rn. assert (0 < IZR n <= IZR d) by (split; [apply IZR_lt|apply IZR_le]; lia).
  assert (Q : IZR n / IZR d * IZR d = IZR n) by (field; lra). apply Rabs_le. assert (0 <= IZR n / IZR d) by (apply Rmult_le_pos; [lra|apply Rlt_le, Rinv_0_lt_compat; lra]).
  assert (IZR n / IZR d <= 1) by (apply Rmult_le_reg_r with (IZR d); lra). lra.
Qed.
Section Trig.
Variable tr : Trig.
Hypothesis SANE : trig_sane tr.
Local Notation NF := (FNum tr).
Lemma pd_pi a b k : bnd a k -> bnd b k -> (0 <= k <= 900)%Z -> is_finite (@PhaseDifference F NF a b) = true /\ Rabs (B2R (@PhaseDifference F NF a b)) <= B2R (fhalfpi 2).
Proof.
  intros A B K. unfold PhaseDifference. cbv zeta. change (@nhalfpi F NF) with fhalfpi.
  assert (H : forall z, (z = 1 \/ z = -1)%Z -> is_finite (fhalfpi z) = true /\ Rabs (B2R (fhalfpi z)) <= B2R (fhalfpi 2)).
  { intros z [-> | ->]; (split; [reflexivity|]); apply Rabs_le.
    - assert (L : (fle (fofZ 0) (fhalfpi 1) && fle (fhalfpi 1) (fhalfpi 2))%bool = true) by (vm_compute; reflexivity). apply andb_prop in L. destruct L as [L1 L2]. apply fle_true in L1, L2. destruct L1 as (_ & _ & L1). destruct L2 as (_ & _ & L2). rewrite (ford_fofZ 0) in L1 by (clear; lia). rewrite (ford_fin (fhalfpi 1)) in * by reflexivity. rewrite (ford_fin (fhalfpi 2)) in * by reflexivity. lra.
    - assert (L : (fle (fhalfpi (-1)) (fofZ 0) && fle (fneg (fhalfpi 2)) (fhalfpi (-1)))%bool = true) by (vm_compute; reflexivity). apply andb_prop in L. destruct L as [L1 L2]. apply fle_true in L1, L2. destruct L1 as (_ & _ & L1). destruct L2 as (_ & _ & L2). rewrite (ford_fofZ 0) in L1 by (clear; lia). rewrite (ford_fin (fhalfpi (-1))) in * by reflexivity. rewrite (ford_fin (fneg (fhalfpi 2))) in * by reflexivity. rewrite B2R_Bopp in L2. lra. }
  destruct (_ && _)%bool; [apply H; auto|]. destruct (_ && _)%bool; [apply H; auto|].
  change (@nsub F NF) with fsub. destruct (b_sub a b k k A B ltac:(lia)) as [D _]. apply (sane_atan2 tr SANE); [apply (sane_sin tr SANE); exact D|apply (sane_cos tr SANE); exact D].
Qed.
Lemma abs_le_rnd x y : fmt y -> Rabs x <= y -> Rabs (rnd x) <= y.
Proof. intros Fy H. apply Rabs_le_inv in H. apply Rabs_le. split; [rewrite <- (rnd_fmt (- y)) by now apply fmt_opp|rewrite <- (rnd_fmt y) by exact Fy]; apply rnd_le; lra. Qed.
(** The distance of a measured pattern from another one, up to rounding. *)
Lemma distance_gen (c t : TargetPattern F) : bnd (tp_phase c) 60 -> bnd (tp_phase t) 60 -> (Z.abs (tp_freq c - tp_freq t) <= 2 ^ 53)%Z -> (0 < tp_freq t <= 2 ^ 53)%Z ->
  is_finite (tp_coh c) = true -> is_finite (tp_coh t) = true -> 0 <= B2R (tp_coh c) <= 2 -> 0 <= B2R (tp_coh t) <= 1 ->
  let z := @PatternDistance F NF (Some c) (Some t) in
  let d := Rabs (B2R (@PhaseDifference F NF (tp_phase t) (tp_phase c))) in
  d <= B2R (fhalfpi 2) /\ is_finite z = true /\
    Rabs (B2R z - (4 / 10 * (d / B2R (fhalfpi 2)) + 3 / 10 * Rmin (Rabs (IZR (tp_freq c) - IZR (tp_freq t)) / IZR (tp_freq t)) 1 + 3 / 10 * Rabs (B2R (tp_coh t) - B2R (tp_coh c)))) <= 2 / 10 ^ 14.
Proof.
  intros Pc Pt Fc Ft Cc Ct Bc Bt z d0. unfold z, PatternDistance. cbv zeta. rewrite (proj2 (Z.ltb_lt 0 (tp_freq t))) by lia.
  change (@nadd F NF) with fadd. change (@nsub F NF) with fsub. change (@nmul F NF) with fmul. change (@ndiv F NF) with fdiv. change (@nabs F NF) with fabs. change (@nofZ F NF) with fofZ. change (@nmin F NF) with fmin. change (@n1 F NF) with (fofZ 1). change (@npi F NF) with (fhalfpi 2). change (@nlit F NF) with flit.
  destruct (pd_pi _ _ 60 Pt Pc ltac:(lia)) as [D1 D2]. split; [exact D2|]. set (d := @PhaseDifference F NF _ _) in *. clearbody d.
  destruct (fabs_fin d D1) as [A1 A2].
  (* phase *)
  destruct (fpi_val) as [Fpi Vpi]. assert (PP : 3 <= B2R (fhalfpi 2)). { assert (L : fle (fofZ 3) (fhalfpi 2) = true) by (vm_compute; reflexivity). apply fle_true in L. rewrite (ford_fofZ 3), ford_fin in L by (reflexivity || (clear; lia)). apply L. }
  set (pi2 := fhalfpi 2) in *. clearbody pi2. clear Vpi.
  assert (Q1 : 0 <= Rabs (B2R d) / B2R pi2 <= 1). { split; [apply Rmult_le_pos; [apply Rabs_pos|apply Rlt_le, Rinv_0_lt_compat; lra]|]. apply Rmult_le_reg_r with (B2R pi2); [lra|]. replace (Rabs (B2R d) / B2R pi2 * B2R pi2) with (Rabs (B2R d)) by (field; lra). lra. }
  destruct (fdiv_fin (fabs d) pi2 A1 Fpi) as [H1 H2]; [lra|rewrite A2, Rabs_pos_eq by tauto; apply le1023; lra|]. rewrite A2 in H2.
  assert (R1 : 0 <= B2R (fdiv (fabs d) pi2) <= 1) by (rewrite H2; split; [now apply rnd_ge_0|apply rnd_le_fmt; [apply (fmt_IZR 1); lia|tauto]]).
  pose proof (rn (Rabs (B2R d) / B2R pi2) ltac:(rewrite Rabs_pos_eq by tauto; lra)) as NP. rewrite <- H2 in NP. unfold d0. clear d0. set (dp := Rabs (B2R d) / B2R pi2) in *. set (p := fdiv (fabs d) pi2) in *. clearbody p dp. clear H2 A1 A2 D1 D2 d PP Fpi pi2.
  (* period *)
  destruct (fofZ_fin (tp_freq c - tp_freq t) ltac:(lia)) as [G1 G2]. destruct (fofZ_fin (tp_freq t) ltac:(lia)) as [G3 G4]. destruct (fabs_fin _ G1) as [G5 G6]. rewrite G2 in G6.
  assert (TP : 0 < IZR (tp_freq t)) by (apply (IZR_lt 0); lia).
  assert (Q2 : 0 <= Rabs (IZR (tp_freq c) - IZR (tp_freq t)) / IZR (tp_freq t) <= 2 ^ 54).
  { split; [apply Rmult_le_pos; [apply Rabs_pos|apply Rlt_le, Rinv_0_lt_compat; lra]|]. apply Rmult_le_reg_r with (IZR (tp_freq t)); [lra|]. rewrite <- minus_IZR, <- abs_IZR. replace (IZR (Z.abs (tp_freq c - tp_freq t)) / IZR (tp_freq t) * IZR (tp_freq t)) with (IZR (Z.abs (tp_freq c - tp_freq t))) by (field; lra).
    assert (A : IZR (Z.abs (tp_freq c - tp_freq t)) <= 2 ^ 54) by (rewrite pow_Z; apply IZR_le; lia). assert (B : 1 <= IZR (tp_freq t)) by (apply (IZR_le 1); lia). assert (0 < 2 ^ 54) by (apply pow_lt; lra). replace (IZR (Z.abs (tp_freq c - tp_freq t))) with (IZR (Z.abs (tp_freq c - tp_freq t)) * 1) by ring. apply Rmult_le_compat; try lra. apply (IZR_le 0). lia. }
  rewrite minus_IZR in G6. set (v := Rabs (IZR (tp_freq c) - IZR (tp_freq t)) / IZR (tp_freq t)) in *.
  destruct (fdiv_fin (fabs (fofZ (tp_freq c - tp_freq t))) (fofZ (tp_freq t)) G5 G3) as [I1 I2]; [rewrite G4; lra|rewrite G6, G4; fold v; rewrite Rabs_pos_eq by tauto; pose proof big1023; assert (2 ^ 54 <= 2 ^ 500) by (apply Rle_pow; [lra|lia]); lra|].
  rewrite G6, G4 in I2. fold v in I2. set (f0 := fdiv (fabs (fofZ (tp_freq c - tp_freq t))) (fofZ (tp_freq t))) in *. clearbody f0.
  destruct (fofZ_fin 1 ltac:(lia)) as [F1 V1].
  assert (FM : is_finite (fmin f0 (fofZ 1)) = true /\ B2R (fmin f0 (fofZ 1)) = rnd (Rmin v 1)).
  { destruct (fmin_cases f0 (fofZ 1)) as [C1 C2]; auto using fin_nan. rewrite (ford_fin f0 I1), (ford_fin _ F1) in C2.
    assert (C3 : is_finite (fmin f0 (fofZ 1)) = true). { apply ford_fin_inv; [exact C1|]. rewrite C2. apply Rmin_case; apply B2R_lt_BIG. } split; [exact C3|]. rewrite (ford_fin _ C3) in C2. rewrite C2, I2, V1.
    assert (R1' : rnd 1 = 1) by (apply rnd_fmt, (fmt_IZR 1); lia). destruct (Rle_dec v 1) as [L|L].
    - rewrite (Rmin_left v 1) by exact L. apply Rmin_left. rewrite <- R1'. now apply rnd_le.
    - rewrite (Rmin_right v 1), R1' by lra. apply Rmin_right. rewrite <- R1' at 1. apply rnd_le. lra. }
  assert (Q3 : 0 <= Rmin v 1 <= 1) by (split; [apply Rmin_glb; lra|apply Rmin_r]). set (v1 := Rmin v 1) in *. clearbody v1. clear Q2 I2. clear v TP G1 G2 G5 G6 G3 G4.
  assert (R2 : 0 <= rnd v1 <= 1) by (split; [now apply rnd_ge_0|apply rnd_le_fmt; [apply (fmt_IZR 1); lia|tauto]]).
  destruct FM as [M1 M2]. set (m := fmin f0 (fofZ 1)) in *. clearbody m. clear I1 f0.
  (* coherence *)
  destruct (fsub_fin (tp_coh t) (tp_coh c) Ct Cc) as [K1 K2]; [apply le1023; apply Rabs_le; lra|]. destruct (fabs_fin _ K1) as [K3 K4]. rewrite K2 in K4.
  set (w := B2R (tp_coh t) - B2R (tp_coh c)) in *. assert (BW : Rabs w <= 2) by (unfold w; apply Rabs_le; lra). clearbody w.
  assert (RW : Rabs (rnd w) <= 2) by (apply abs_le_rnd; [apply (fmt_IZR 2); lia|exact BW]). pose proof (rn w ltac:(lra)) as NW.
  assert (NA : Rabs (Rabs (rnd w) - Rabs w) <= 1 / 10 ^ 15). { eapply Rle_trans; [|exact NW]. apply Rabs_triang_inv2. }
  set (q := fabs _) in *. clearbody q. clear K1 K2 NW.
  (* sum *)
  destruct (lit_near 4 10 ltac:(lia) ltac:(lia)) as [L1 L2]. destruct (lit_near 3 10 ltac:(lia) ltac:(lia)) as [L3 L4].
  set (l4 := flit 4 10) in *. set (l3 := flit 3 10) in *. clearbody l4 l3. apply Rabs_le_inv in L2. apply Rabs_le_inv in L4. set (ep := 1 / 10 ^ 15) in *. assert (EP : 0 < ep <= 1 / 1000000) by (unfold ep; lra).
  assert (P1 : Rabs (B2R l4 * B2R p) <= 1) by (rewrite Rabs_pos_eq; [|apply Rmult_le_pos; lra]; replace 1 with (1 * 1) by ring; apply Rmult_le_compat; lra).
  destruct (fmul_fin l4 p L1 H1) as [S1 S2]; [apply le1023; lra|]. assert (T1 : Rabs (rnd (B2R l4 * B2R p) - B2R l4 * B2R p) <= ep) by (apply rn; lra).
  assert (P2 : Rabs (B2R l3 * B2R m) <= 1) by (rewrite M2, Rabs_pos_eq; [|apply Rmult_le_pos; lra]; replace 1 with (1 * 1) by ring; apply Rmult_le_compat; lra).
  destruct (fmul_fin l3 m L3 M1) as [S3 S4]; [apply le1023; lra|]. assert (T2 : Rabs (rnd (B2R l3 * B2R m) - B2R l3 * B2R m) <= ep) by (apply rn; lra).
  assert (P3 : Rabs (B2R l3 * B2R q) <= 2) by (rewrite K4, Rabs_mult, Rabs_Rabsolu, (Rabs_pos_eq (B2R l3)) by lra; replace 2 with (1 * 2) by ring; apply Rmult_le_compat; try lra; apply Rabs_pos).
  destruct (fmul_fin l3 q L3 K3) as [S5 S6]; [apply le1023; lra|]. assert (T3 : Rabs (rnd (B2R l3 * B2R q) - B2R l3 * B2R q) <= ep) by (apply rn; lra).
  rewrite <- S2 in T1. rewrite <- S4 in T2. rewrite <- S6 in T3. clear S2 S4 S6.
  set (x1 := fmul l4 p) in *. set (x2 := fmul l3 m) in *. set (x3 := fmul l3 q) in *. clearbody x1 x2 x3.
  apply Rabs_le_inv in T1. apply Rabs_le_inv in T2. apply Rabs_le_inv in T3. apply Rabs_le_inv in P1. apply Rabs_le_inv in P2. apply Rabs_le_inv in P3.
  destruct (fadd_fin x1 x2 S1 S3) as [U1 U2]; [apply le1023; apply Rabs_le; lra|]. assert (T4 := rn (B2R x1 + B2R x2) ltac:(apply Rabs_le; lra)). fold ep in T4. rewrite <- U2 in T4. apply Rabs_le_inv in T4. set (y := fadd x1 x2) in *. clearbody y.
  destruct (fadd_fin y x3 U1 S5) as [U3 U4]; [apply le1023; apply Rabs_le; lra|].
  assert (T5 : Rabs (rnd (B2R y + B2R x3) - (B2R y + B2R x3)) <= 2 * ep).
  { pose proof (rnd_abs (B2R y + B2R x3)) as A. pose proof tiny_60 as T. assert (P60 : 2 ^ 60 = 1152921504606846976) by (rewrite pow_Z; reflexivity). rewrite P60 in T. assert (U : 0 < u53 <= 112 / 10 ^ 18) by (unfold u53; lra). assert (B : Rabs (B2R y + B2R x3) <= 5) by (apply Rabs_le; lra). assert (u53 * Rabs (B2R y + B2R x3) <= 112 / 10 ^ 18 * 5) by (apply Rmult_le_compat; try lra; apply Rabs_pos). unfold ep. lra. }
  rewrite <- U4 in T5. apply Rabs_le_inv in T5. set (s := fadd y x3) in *. clearbody s.
  split; [exact U3|].
  pose proof (rn v1 ltac:(apply Rabs_le; lra)) as NV. fold ep in NV. rewrite M2 in *. rewrite K4 in *. apply Rabs_le_inv in NA. apply Rabs_le_inv in NV. set (aw := Rabs w) in *. set (rw := Rabs (rnd w)) in *. assert (0 <= aw) by apply Rabs_pos. assert (0 <= rw) by apply Rabs_pos.
  assert (X1 : Rabs (B2R l4 * B2R p - 4 / 10 * B2R p) <= ep).
  { replace (B2R l4 * B2R p - 4 / 10 * B2R p) with ((B2R l4 - 4 / 10) * B2R p) by ring. rewrite Rabs_mult, (Rabs_pos_eq (B2R p)) by lra. replace ep with (ep * 1) by ring. apply Rmult_le_compat; try lra; try apply Rabs_pos. apply Rabs_le. lra. }
  assert (X2 : Rabs (B2R l3 * rnd v1 - 3 / 10 * v1) <= 2 * ep).
  { replace (B2R l3 * rnd v1 - 3 / 10 * v1) with ((B2R l3 - 3 / 10) * rnd v1 + 3 / 10 * (rnd v1 - v1)) by ring. eapply Rle_trans; [apply Rabs_triang|]. rewrite !Rabs_mult, (Rabs_pos_eq (rnd v1)), (Rabs_pos_eq (3 / 10)) by lra.
    assert (Rabs (B2R l3 - 3 / 10) * rnd v1 <= ep * 1) by (apply Rmult_le_compat; try lra; try apply Rabs_pos; apply Rabs_le; lra). assert (Rabs (rnd v1 - v1) <= ep) by (apply Rabs_le; lra). lra. }
  assert (X3 : Rabs (B2R l3 * rw - 3 / 10 * aw) <= 3 * ep).
  { replace (B2R l3 * rw - 3 / 10 * aw) with ((B2R l3 - 3 / 10) * rw + 3 / 10 * (rw - aw)) by ring. eapply Rle_trans; [apply Rabs_triang|]. rewrite !Rabs_mult, (Rabs_pos_eq rw), (Rabs_pos_eq (3 / 10)) by lra.
    assert (Rabs (B2R l3 - 3 / 10) * rw <= ep * 2) by (apply Rmult_le_compat; try lra; try apply Rabs_pos; apply Rabs_le; lra). assert (Rabs (rw - aw) <= ep) by (apply Rabs_le; lra). lra. }
  apply Rabs_le_inv in X1. apply Rabs_le_inv in X2. apply Rabs_le_inv in X3. apply Rabs_le. replace (2 / 10 ^ 14) with (20 * ep) by (unfold ep; lra). fold ep in NP. apply Rabs_le_inv in NP. lra.
Qed.
Lemma fpi_3 : 3 <= B2R (fhalfpi 2).
Proof. assert (L : fle (fofZ 3) (fhalfpi 2) = true) by (vm_compute; reflexivity). apply fle_true in L. rewrite (ford_fofZ 3), ford_fin in L by (reflexivity || (clear; lia)). apply L. Qed.
Lemma distance_near (c t : TargetPattern F) : bnd (tp_phase c) 60 -> bnd (tp_phase t) 60 -> (0 <= tp_freq c <= 2 * tp_freq t)%Z -> (0 < tp_freq t <= 2 ^ 53)%Z ->
  is_finite (tp_coh c) = true -> is_finite (tp_coh t) = true -> 0 <= B2R (tp_coh c) <= 2 -> 0 <= B2R (tp_coh t) <= 1 ->
  let z := @PatternDistance F NF (Some c) (Some t) in
  exists p, 0 <= p <= 1 /\ is_finite z = true /\
    Rabs (B2R z - (4 / 10 * p + 3 / 10 * (Rabs (IZR (tp_freq c) - IZR (tp_freq t)) / IZR (tp_freq t)) + 3 / 10 * Rabs (B2R (tp_coh t) - B2R (tp_coh c)))) <= 2 / 10 ^ 14.
Proof.
  intros Pc Pt Fc Ft Cc Ct Bc Bt z. destruct (distance_gen c t Pc Pt ltac:(lia) Ft Cc Ct Bc Bt) as (A & B & C). fold z in B, C. rewrite Rmin_left in C.
  - eexists. split; [|split; [exact B|exact C]]. pose proof fpi_3 as PP. split; [apply Rmult_le_pos; [apply Rabs_pos|apply Rlt_le, Rinv_0_lt_compat; lra]|]. apply Rmult_le_reg_r with (B2R (fhalfpi 2)); [lra|]. unfold Rdiv. rewrite Rmult_assoc, Rinv_l by lra. lra.
  - assert (TP : 0 < IZR (tp_freq t)) by (apply (IZR_lt 0); lia). apply Rmult_le_reg_r with (IZR (tp_freq t)); [lra|]. unfold Rdiv. rewrite Rmult_assoc, Rinv_l by lra. rewrite <- minus_IZR, <- abs_IZR, Rmult_1_r, Rmult_1_l. apply IZR_le. lia.
Qed.
End Trig.
End Distance.
