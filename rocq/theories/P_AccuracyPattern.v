(** Float accuracy of the pattern functions (C06, and the magnitude half of C02 for all phases). *)
From Coq Require Import ZArith Reals Psatz Bool List String Lia.
From Flocq Require Import Core.Core IEEE754.BinarySingleNaN.
From Verif Require Import Num GoBase F64 RealNum M_Core S_Circle S_Sync S_Acc L_F64 L_F64x L_Ford L_Circle L_PhaseF L_Acc L_AccRes L_Bnd P_Accuracy P_Round P_Periods L_Dist.
Import ListNotations.
Open Scope list_scope.
Open Scope R_scope.

Section Acc.
Variable tr : Trig.
Variable e : R.
Hypothesis SANE : trig_sane tr.
Hypothesis ACC : trig_acc tr e.
Hypothesis EB : 0 <= e <= 1 / 4.
Local Notation NF := (FNum tr).

(** ** Phases *)
Lemma pi2_near z : (z = 1 \/ z = -1)%Z -> is_finite (fhalfpi z) = true /\ Rabs (B2R (fhalfpi z) - IZR z * (PI / 2)) <= / 10 ^ 15.
Proof.
  intros [-> | ->].
  - assert (H : exists m, B2SF (fhalfpi 1) = SpecFloat.S754_finite false m (-52) /\ m = 7074237752028440%positive) by (eexists; split; [vm_compute; reflexivity|reflexivity]).
    destruct H as (m & H & ->). apply B2R_of_B2SF in H. destruct H as [A B]. split; [exact A|]. rewrite B. unfold F2R. cbn [Fnum Fexp cond_Zopp Z.opp]. change (bpow radix2 (-52)) with (/ IZR (2 ^ 52)). pose proof PI_bounds. apply Rabs_le. lra.
  - assert (H : exists m, B2SF (fhalfpi (-1)) = SpecFloat.S754_finite true m (-52) /\ m = 7074237752028440%positive) by (eexists; split; [vm_compute; reflexivity|reflexivity]).
    destruct H as (m & H & ->). apply B2R_of_B2SF in H. destruct H as [A B]. split; [exact A|]. rewrite B. unfold F2R. cbn [Fnum Fexp cond_Zopp Z.opp]. change (bpow radix2 (-52)) with (/ IZR (2 ^ 52)). pose proof PI_bounds. apply Rabs_le. lra.
Qed.
(** The general formula, wherever the code uses it. *)
Lemma pd_general a b d : is_finite a = true -> is_finite b = true -> Rabs (B2R a) <= 2 ^ 28 -> Rabs (B2R b) <= 2 ^ 28 -> is_arc (B2R a) (B2R b) d ->
  let r := tatan2 tr (tsin tr (fsub a b)) (tcos tr (fsub a b)) in
  is_finite r = true /\ Rabs (Rabs (B2R r) - d) <= 8 * e + (Rabs (B2R a) + Rabs (B2R b) + 1) / 2 ^ 52.
Proof.
  intros Fa Fb Ba Bb Hd r. set (del := 8 * e + _).
  assert (P29 : 2 ^ 29 = 2 * 2 ^ 28) by (simpl; ring). assert (P28 : 1 <= 2 ^ 28) by (apply pow_R1_Rle; lra).
  assert (BD : Rabs (B2R a - B2R b) <= Rabs (B2R a) + Rabs (B2R b)) by (unfold Rminus; eapply Rle_trans; [apply Rabs_triang|]; rewrite Rabs_Ropp; lra).
  destruct (fsub_fin a b Fa Fb) as [Fd Vd]. { pose proof big1023. assert (2 ^ 29 <= 2 ^ 500) by (apply Rle_pow; [lra|lia]). lra. }
  pose proof (rnd_abs (B2R a - B2R b)) as E1. rewrite <- Vd in E1. unfold r. clear r. set (x := fsub a b) in *. set (r := tatan2 tr _ _).
  assert (FM : fmt (2 ^ 29)). { rewrite pow_Z. apply fmt_IZR. cbn. lia. }
  assert (Bx : Rabs (B2R x) <= 2 ^ 29).
  { rewrite Vd. apply Rabs_le. assert (Q : Rabs (B2R a - B2R b) <= 2 ^ 29) by lra. apply Rabs_le_inv in Q. split; [apply rnd_ge_fmt; [now apply fmt_opp|lra]|apply rnd_le_fmt; [exact FM|lra]]. }
  destruct (sane_sin tr SANE x Fd) as [Fs _]. destruct (sane_cos tr SANE x Fd) as [Fc _].
  pose proof (acc_sin tr e ACC x Fd Bx) as As. pose proof (acc_cos tr e ACC x Fd Bx) as Ac.
  destruct (dir_acc (B2R (tsin tr x)) (B2R (tcos tr x)) 1 (B2R x) e) as (NZ & t & Ht & Ct); try lra; [now rewrite Rmult_1_l|now rewrite Rmult_1_l|].
  destruct (sane_atan2 tr SANE _ _ Fs Fc) as [Fr Br]. fold r in Fr, Br.
  destruct (acc_atan2 tr e ACC _ _ Fs Fc NZ) as (t' & Ct' & _ & At). fold r in At.
  assert (Bpi : Rabs (B2R r) <= PI). { pose proof fpi_near as FN. unfold fpi in FN. lra. }
  assert (K : exists k, Rabs (B2R r - (B2R a - B2R b) - IZR k * (2 * PI)) <= del).
  { destruct (cong_trans _ _ _ Ct' Ct) as [k Ck]. exists k.
    replace (B2R r - (B2R a - B2R b) - IZR k * (2 * PI)) with ((B2R r - t') + (t + (B2R x - (B2R a - B2R b)))) by lra.
    eapply Rle_trans; [apply Rabs_triang|]. eapply Rle_trans; [apply Rplus_le_compat_l, Rabs_triang|]. unfold del. pose proof tiny_le_u as TU. pose proof (Rabs_pos (B2R a)). pose proof (Rabs_pos (B2R b)).
    replace (2 ^ 52) with 4503599627370496 by (rewrite pow_Z; reflexivity). unfold u53 in *. lra. }
  split; [exact Fr|]. destruct K as [k K]. exact (arc_near _ _ _ _ _ k Hd Bpi K).
Qed.
(** The magnitude is the arc for all phases: the special cases only get the direction wrong. *)
Definition arcErr (a b : R) : R := 8 * e + (Rabs a + Rabs b + 1) / 2 ^ 52 + 5 / 10 ^ 10.
Theorem C02_float_magnitude : forall a b d, is_finite a = true -> is_finite b = true -> Rabs (B2R a) <= 2 ^ 28 -> Rabs (B2R b) <= 2 ^ 28 -> is_arc (B2R a) (B2R b) d ->
  let r := @PhaseDifference F NF a b in is_finite r = true /\ Rabs (Rabs (B2R r) - d) <= arcErr (B2R a) (B2R b).
Proof.
  intros a b d Fa Fb Ba Bb Hd r. destruct (pd_general a b d Fa Fb Ba Bb Hd) as [G1 G2]. unfold arcErr.
  assert (EX : 0 <= 8 * e + (Rabs (B2R a) + Rabs (B2R b) + 1) / 2 ^ 52). { pose proof (Rabs_pos (B2R a)). pose proof (Rabs_pos (B2R b)). assert (0 < / 2 ^ 52) by (apply Rinv_0_lt_compat, pow_lt; lra). assert (0 <= (Rabs (B2R a) + Rabs (B2R b) + 1) / 2 ^ 52) by (apply Rmult_le_pos; lra). lra. }
  set (E := 8 * e + _) in *. pose proof PI_bounds as PB. unfold r, PhaseDifference, pd_eps. cbn [nabs nsub nlt nlit nhalfpi natan2 nsin ncos FNum]. fold fpi in *.
  destruct (flt (fabs a) (flit 1 10000000000) && flt (fabs (fsub b (fhalfpi 3))) (flit 1 10000000000))%bool eqn:T1.
  { apply andb_prop in T1. destruct T1 as [T1 T2]. apply near0_test in T1; [|exact Fa]. apply near34_test in T2; [|exact Fb|exact Bb]. unfold near0, near34 in *. destruct (pi2_near (-1) ltac:(auto)) as [A B]. split; [exact A|].
    apply Rabs_def2 in T1. apply Rabs_def2 in T2. apply Rabs_le_inv in B. replace (Rabs (B2R (fhalfpi (-1)))) with (Rabs (- B2R (fhalfpi (-1)))) by apply Rabs_Ropp.
    eapply Rle_trans; [apply (arc_near _ _ _ _ (5 / 10 ^ 10) (1)%Z Hd)|lra]; [apply Rabs_le; lra|]. apply Rabs_le. lra. }
  destruct (flt (fabs (fsub a (fhalfpi 3))) (flit 1 10000000000) && flt (fabs b) (flit 1 10000000000))%bool eqn:T2.
  { apply andb_prop in T2. destruct T2 as [T3 T2]. apply near0_test in T2; [|exact Fb]. apply near34_test in T3; [|exact Fa|exact Ba]. unfold near0, near34 in *. destruct (pi2_near 1 ltac:(auto)) as [A B]. split; [exact A|].
    apply Rabs_def2 in T2. apply Rabs_def2 in T3. apply Rabs_le_inv in B. replace (Rabs (B2R (fhalfpi 1))) with (Rabs (- B2R (fhalfpi 1))) by apply Rabs_Ropp.
    eapply Rle_trans; [apply (arc_near _ _ _ _ (5 / 10 ^ 10) (-1)%Z Hd)|lra]; [apply Rabs_le; lra|]. apply Rabs_le. lra. }
  split; [exact G1|]. lra.
Qed.

(** ** The distance *)
Lemma bnd60 x : is_finite x = true -> Rabs (B2R x) <= 2 ^ 28 -> bnd x 60.
Proof. intros A B. split; [exact A|]. eapply Rle_trans; [exact B|]. change (bpow radix2 60) with (IZR (2 ^ 60)). rewrite pow_Z. apply IZR_le. cbn. lia. Qed.
(** What the float functions may be applied to here: phases up to 2^28, positive periods up to 2^53 ns (104 days),
    coherences from 0 to 1. *)
Record plainPattern (c : TargetPattern F) : Prop := {
  pp_fin : is_finite (tp_phase c) = true; pp_phase : Rabs (B2R (tp_phase c)) <= 2 ^ 28; pp_freq : (0 < tp_freq c <= 2 ^ 53)%Z;
  pp_cfin : is_finite (tp_coh c) = true; pp_coh : 0 <= B2R (tp_coh c) <= 1 }.
Lemma fpi_pos : 3 <= B2R (fhalfpi 2) <= PI /\ PI - B2R (fhalfpi 2) <= / 10 ^ 15.
Proof. pose proof fpi_3. pose proof fpi_near as N. unfold fpi in N. assert (2 ^ 52 = 4503599627370496) as P by (rewrite pow_Z; reflexivity). rewrite P in N. lra. Qed.
(** The share of the half turn, up to rounding. *)
Lemma share_near x d q : 0 <= x -> 0 <= d <= PI -> Rabs (x - d) <= q -> Rabs (x / B2R (fhalfpi 2) - d / PI) <= q / 3 + 1 / 10 ^ 15.
Proof.
  intros Hx Hd Hq. destruct fpi_pos as [A B]. set (f := B2R (fhalfpi 2)) in *. clearbody f. pose proof PI_bounds as PB.
  assert (IF : 0 < / f <= / 3) by (split; [apply Rinv_0_lt_compat|apply Rinv_le_contravar]; lra).
  replace (x / f - d / PI) with ((x - d) * / f + (d * / PI) * ((PI - f) * / f)) by (field; lra).
  assert (DP : 0 <= d * / PI <= 1). { assert (0 < / PI) by (apply Rinv_0_lt_compat; lra). split; [apply Rmult_le_pos; lra|]. replace 1 with (PI * / PI) by (field; lra). apply Rmult_le_compat_r; lra. }
  assert (X : Rabs ((x - d) * / f) <= q * / 3) by (rewrite Rabs_mult, (Rabs_pos_eq (/ f)) by lra; apply Rmult_le_compat; try lra; apply Rabs_pos).
  assert (0 <= (PI - f) * / f <= / 10 ^ 15 * / 3) by (split; [apply Rmult_le_pos; lra|apply Rmult_le_compat; lra]).
  assert (0 <= d * / PI * ((PI - f) * / f) <= 1 * (/ 10 ^ 15 * / 3)) by (split; [apply Rmult_le_pos; lra|apply Rmult_le_compat; lra]). apply Rabs_le_inv in X. apply Rabs_le. lra.
Qed.
Definition exactDistance (arc : R) (fc ft : Z) (cc ct : R) : R :=
  4 / 10 * (arc / PI) + 3 / 10 * Rmin (Rabs (IZR fc - IZR ft) / IZR ft) 1 + 3 / 10 * Rabs (ct - cc).
Theorem C06_float_distance : forall c t d, plainPattern c -> plainPattern t -> is_arc (B2R (tp_phase t)) (B2R (tp_phase c)) d ->
  let z := @PatternDistance F NF (Some c) (Some t) in
  is_finite z = true /\ Rabs (B2R z - exactDistance d (tp_freq c) (tp_freq t) (B2R (tp_coh c)) (B2R (tp_coh t))) <= arcErr (B2R (tp_phase t)) (B2R (tp_phase c)) / 7 + 3 / 10 ^ 14.
Proof.
  intros c t d [C1 C2 C3 C4 C5] [T1 T2 T3 T4 T5] Hd z.
  destruct (C02_float_magnitude _ _ d T1 C1 T2 C2 Hd) as [M1 M2]. destruct (distance_gen tr SANE c t (bnd60 _ C1 C2) (bnd60 _ T1 T2) ltac:(lia) T3 C4 T4 ltac:(lra) T5) as (D1 & D2 & D3). fold z in D2, D3. split; [exact D2|].
  set (q := arcErr _ _) in *. clearbody q. assert (Q0 : 0 <= q) by (eapply Rle_trans; [apply Rabs_pos|exact M2]).
  pose proof (share_near _ d q (Rabs_pos _) (is_arc_bounds _ _ _ Hd) M2) as SN. unfold exactDistance. set (x := Rabs (B2R (PhaseDifference _ _)) / _) in *. apply Rabs_le_inv in SN. apply Rabs_le_inv in D3. apply Rabs_le. lra.
Qed.

(** ** Gaps *)
Lemma gaps_shape (c t : TargetPattern F) : let g := map gap_type (@IdentifyGaps F NF c t) in
  let r := fsub (fdiv (fofZ (tp_freq c)) (fofZ (tp_freq t))) (fofZ 1) in
  (In GapPhase g <-> flt (flit 1 10) (fabs (@PhaseDifference F NF (tp_phase t) (tp_phase c))) = true) /\
  (In GapFrequency g <-> (0 < tp_freq t)%Z /\ (0 < tp_freq c)%Z /\ flt (flit 5 100) (fabs r) = true) /\
  (In GapCoherence g <-> flt (tp_coh c) (fsub (tp_coh t) (flit 5 100)) = true).
Proof.
  cbv zeta. unfold IdentifyGaps. cbv zeta.
  change (@nadd F NF) with fadd. change (@nsub F NF) with fsub. change (@ndiv F NF) with fdiv. change (@nabs F NF) with fabs. change (@nofZ F NF) with fofZ. change (@n1 F NF) with (fofZ 1). change (@nlit F NF) with flit. change (@nlt F NF) with flt.
  rewrite !map_app, <- !Z.ltb_lt.
  destruct (flt (flit 1 10) _); destruct (0 <? tp_freq t)%Z; destruct (0 <? tp_freq c)%Z; cbn [andb]; try destruct (flt (flit 5 100) (fabs _)); destruct (flt (tp_coh c) _); cbn [map app gap_type In];
    repeat split; intros; intuition (try discriminate; auto).
Qed.
Theorem C06_float_gaps : forall c t d, plainPattern c -> plainPattern t -> is_arc (B2R (tp_phase t)) (B2R (tp_phase c)) d ->
  let g := map gap_type (@IdentifyGaps F NF c t) in let q := arcErr (B2R (tp_phase t)) (B2R (tp_phase c)) + 1 / 10 ^ 14 in
  let v := Rabs (IZR (tp_freq c) / IZR (tp_freq t) - 1) in let w := B2R (tp_coh t) - B2R (tp_coh c) in
  (d > 1 / 10 + q -> In GapPhase g) /\ (In GapPhase g -> d > 1 / 10 - q) /\
  (v > 5 / 100 + 1 / 10 ^ 14 -> In GapFrequency g) /\ (In GapFrequency g -> v > 5 / 100 - 1 / 10 ^ 14) /\
  (w > 5 / 100 + 1 / 10 ^ 14 -> In GapCoherence g) /\ (In GapCoherence g -> w > 5 / 100 - 1 / 10 ^ 14).
Proof.
  intros c t d [C1 C2 C3 C4 C5] [T1 T2 T3 T4 T5] Hd g q v w. destruct (gaps_shape c t) as (G1 & G2 & G3). fold g in G1, G2, G3.
  destruct (C02_float_magnitude _ _ d T1 C1 T2 C2 Hd) as [M1 M2]. destruct (lit_near 1 10 ltac:(lia) ltac:(lia)) as [L1 L2]. destruct (lit_near 5 100 ltac:(lia) ltac:(lia)) as [L3 L4].
  apply Rabs_le_inv in L2. apply Rabs_le_inv in L4. set (q0 := arcErr _ _) in *. apply Rabs_le_inv in M2. destruct (fabs_fin _ M1) as [A1 A2].
  rewrite G1, G2, G3. clear G1 G2 G3 g.
  set (pd := fabs (PhaseDifference _ _)) in *. rewrite <- A2 in M2. clearbody pd. clear A2 M1.
  split; [|split].
  { intros H. apply flt_true. split; [now apply fin_nan|]. split; [now apply fin_nan|]. rewrite !ford_fin by assumption. unfold q in H. lra. }
  { intros H. apply flt_true in H. destruct H as (_ & _ & H). rewrite (ford_fin pd), (ford_fin (flit 1 10)) in H by assumption. unfold q. lra. }
  (* period *)
  destruct (fofZ_fin (tp_freq c) ltac:(lia)) as [F1 V1]. destruct (fofZ_fin (tp_freq t) ltac:(lia)) as [F2 V2]. destruct (fofZ_fin 1 ltac:(lia)) as [F3 V3].
  assert (TP : 1 <= IZR (tp_freq t)) by (apply (IZR_le 1); lia). assert (CP : 0 < IZR (tp_freq c)) by (apply (IZR_lt 0); lia).
  set (ra := IZR (tp_freq c) / IZR (tp_freq t)) in *. assert (RP : 0 < ra) by (apply Rmult_lt_0_compat; [lra|apply Rinv_0_lt_compat; lra]).
  assert (RB : ra <= 2 ^ 53). { unfold ra. apply Rmult_le_reg_r with (IZR (tp_freq t)); [lra|]. unfold Rdiv. rewrite Rmult_assoc, Rinv_l, Rmult_1_r by lra. assert (IZR (tp_freq c) <= 2 ^ 53) by (rewrite pow_Z; apply IZR_le; apply C3). assert (0 < 2 ^ 53) by (apply pow_lt; lra). replace (IZR (tp_freq c)) with (IZR (tp_freq c) * 1) by ring. apply Rmult_le_compat; lra. }
  assert (P53 : 2 ^ 53 = 9007199254740992) by (rewrite pow_Z; reflexivity).
  assert (BG : 2 ^ 53 + 1 <= bpow radix2 1023). { pose proof big1023. assert (2 ^ 54 <= 2 ^ 500) by (apply Rle_pow; [lra|lia]). assert (2 ^ 54 = 2 * 2 ^ 53) by (simpl; ring). lra. }
  destruct (fdiv_fin _ _ F1 F2) as [F4 V4]; [rewrite V2; lra|rewrite V1, V2; fold ra; rewrite Rabs_pos_eq; lra|]. rewrite V1, V2 in V4. fold ra in V4. set (f4 := fdiv _ _) in *. clearbody f4.
  assert (R53 : 0 <= rnd ra <= 2 ^ 53) by (split; [apply rnd_ge_0; lra|apply rnd_le_fmt; [rewrite pow_Z; apply fmt_IZR; cbn; lia|exact RB]]).
  destruct (fsub_fin f4 (fofZ 1) F4 F3) as [F5 V5]; [rewrite V4, V3; apply Rabs_le; lra|]. rewrite V4, V3 in V5. destruct (fabs_fin _ F5) as [F6 V6]. set (f6 := fabs _) in *. rewrite V5 in V6. clearbody f6.
  assert (K : (ra <= 4 /\ Rabs (B2R f6 - v) <= 5 / 10 ^ 15) \/ (2 <= v /\ 2 <= B2R f6)).
  { rewrite V6. destruct (Rle_dec ra 4) as [R4|R4].
    - left. split; [exact R4|]. pose proof (rn ra ltac:(rewrite Rabs_pos_eq; lra)) as N1. apply Rabs_le_inv in N1. assert (RA : rnd ra <= 4) by (apply rnd_le_fmt; [apply (fmt_IZR 4); lia|exact R4]).
      pose proof (rn (rnd ra - 1) ltac:(apply Rabs_le; lra)) as N2. unfold v. eapply Rle_trans; [apply Rabs_triang_inv2|]. apply Rabs_le_inv in N2. apply Rabs_le. lra.
    - right. assert (RA : 4 <= rnd ra) by (apply rnd_ge_fmt; [apply (fmt_IZR 4); lia|lra]). assert (RC : 3 <= rnd (rnd ra - 1)) by (apply rnd_ge_fmt; [apply (fmt_IZR 3); lia|lra]). unfold v. rewrite !Rabs_pos_eq by lra. lra. }
  split; [|split].
  { intros H. split; [lia|]. split; [lia|]. apply flt_true. split; [now apply fin_nan|]. split; [now apply fin_nan|]. rewrite !ford_fin by assumption. destruct K as [[_ K]|K]; [apply Rabs_le_inv in K|]; lra. }
  { intros (_ & _ & H). apply flt_true in H. destruct H as (_ & _ & H). rewrite (ford_fin f6), (ford_fin (flit 5 100)) in H by assumption. destruct K as [[_ K]|K]; [apply Rabs_le_inv in K|]; lra. }
  clear K. set (l5 := flit 5 100) in *. clearbody l5.
  destruct (fsub_fin (tp_coh t) l5 T4 L3) as [F7 V7]; [apply le1023; apply Rabs_le; lra|]. pose proof (rn (B2R (tp_coh t) - B2R l5) ltac:(apply Rabs_le; lra)) as N. rewrite <- V7 in N. apply Rabs_le_inv in N. unfold w.
  split.
  { intros H. apply flt_true. split; [now apply fin_nan|]. split; [now apply fin_nan|]. rewrite !ford_fin by assumption. lra. }
  { intros H. apply flt_true in H. destruct H as (_ & _ & H). rewrite !ford_fin in H by assumption. lra. }
Qed.
(** The severities are the exact ones up to rounding (a period gap: as long as the measured period is at most four times
    the one wanted). *)
Theorem C06_float_severity : forall c t d g, plainPattern c -> plainPattern t -> is_arc (B2R (tp_phase t)) (B2R (tp_phase c)) d -> In g (@IdentifyGaps F NF c t) ->
  let v := IZR (tp_freq c) / IZR (tp_freq t) in
  match gap_type g with
  | GapPhase => Rabs (B2R (gap_severity g) - d / PI) <= arcErr (B2R (tp_phase t)) (B2R (tp_phase c)) / 3 + 1 / 10 ^ 14
  | GapFrequency => v <= 4 -> Rabs (B2R (gap_severity g) - Rabs (v - 1)) <= 1 / 10 ^ 14
  | GapCoherence => Rabs (B2R (gap_severity g) - (B2R (tp_coh t) - B2R (tp_coh c))) <= 1 / 10 ^ 14
  | _ => False
  end.
Proof.
  intros c t d g [C1 C2 C3 C4 C5] [T1 T2 T3 T4 T5] Hd H v. unfold IdentifyGaps in H. cbv zeta in H. rewrite !in_app_iff in H.
  destruct (C02_float_magnitude _ _ d T1 C1 T2 C2 Hd) as [M1 M2]. set (q := arcErr _ _) in *. clearbody q. assert (Q0 : 0 <= q) by (eapply Rle_trans; [apply Rabs_pos|exact M2]).
  destruct H as [H|[H|H]].
  - destruct (nlt _ _) in H; [|destruct H]. destruct H as [<-|[]]. cbn [gap_type gap_severity]. change (@ndiv F NF) with fdiv. change (@nabs F NF) with fabs. change (@npi F NF) with (fhalfpi 2).
    destruct (fabs_fin _ M1) as [A1 A2]. destruct (pd_pi tr SANE _ _ 60 (bnd60 _ T1 T2) (bnd60 _ C1 C2) ltac:(lia)) as [_ D2].
    pose proof (share_near _ d q (Rabs_pos _) (is_arc_bounds _ _ _ Hd) M2) as SN. destruct fpi_val as [Fp _]. destruct fpi_pos as [P1 _].
    assert (QB : 0 <= Rabs (B2R (@PhaseDifference F NF (tp_phase t) (tp_phase c))) / B2R (fhalfpi 2) <= 1). { split; [apply Rmult_le_pos; [apply Rabs_pos|apply Rlt_le, Rinv_0_lt_compat; lra]|]. apply Rmult_le_reg_r with (B2R (fhalfpi 2)); [lra|]. unfold Rdiv. rewrite Rmult_assoc, Rinv_l by lra. lra. }
    destruct (fdiv_fin _ _ A1 Fp) as [H1 H2]; [lra|rewrite A2, Rabs_pos_eq by tauto; apply le1023; lra|]. rewrite A2 in H2. rewrite H2. pose proof (rn _ (ltac:(rewrite Rabs_pos_eq; lra) : Rabs (Rabs (B2R (@PhaseDifference F NF (tp_phase t) (tp_phase c))) / B2R (fhalfpi 2)) <= 4)) as N. apply Rabs_le_inv in N. apply Rabs_le_inv in SN. apply Rabs_le. lra.
  - destruct (_ && _)%bool in H; [|destruct H]. destruct (nlt _ _) in H; [|destruct H]. destruct H as [<-|[]]. cbn [gap_type gap_severity]. intros R4. change (@ndiv F NF) with fdiv. change (@nabs F NF) with fabs. change (@nsub F NF) with fsub. change (@nofZ F NF) with fofZ. change (@n1 F NF) with (fofZ 1).
    destruct (fofZ_fin (tp_freq c) ltac:(lia)) as [F1 V1]. destruct (fofZ_fin (tp_freq t) ltac:(lia)) as [F2 V2]. destruct (fofZ_fin 1 ltac:(lia)) as [F3 V3].
    assert (TP : 1 <= IZR (tp_freq t)) by (apply (IZR_le 1); lia). assert (CP : 0 < IZR (tp_freq c)) by (apply (IZR_lt 0); lia). assert (RP : 0 < v) by (apply Rmult_lt_0_compat; [lra|apply Rinv_0_lt_compat; lra]).
    destruct (fdiv_fin _ _ F1 F2) as [F4 V4]; [rewrite V2; lra|rewrite V1, V2; fold v; rewrite Rabs_pos_eq by lra; apply le1023; lra|]. rewrite V1, V2 in V4. fold v in V4. set (f4 := fdiv _ _) in *. clearbody f4.
    assert (RA : 0 <= rnd v <= 4) by (split; [apply rnd_ge_0; lra|apply rnd_le_fmt; [apply (fmt_IZR 4); lia|exact R4]]).
    destruct (fsub_fin f4 (fofZ 1) F4 F3) as [F5 V5]; [rewrite V4, V3; apply le1023; apply Rabs_le; lra|]. rewrite V4, V3 in V5. destruct (fabs_fin _ F5) as [F6 V6]. rewrite V6, V5.
    pose proof (rn v ltac:(rewrite Rabs_pos_eq; lra)) as N1. pose proof (rn (rnd v - 1) ltac:(apply Rabs_le; lra)) as N2. eapply Rle_trans; [apply Rabs_triang_inv2|]. apply Rabs_le_inv in N1. apply Rabs_le_inv in N2. apply Rabs_le. lra.
  - destruct (nlt _ _) in H; [|destruct H]. destruct H as [<-|[]]. cbn [gap_type gap_severity]. change (@nsub F NF) with fsub.
    destruct (fsub_fin (tp_coh t) (tp_coh c) T4 C4) as [F7 V7]; [apply le1023; apply Rabs_le; lra|]. rewrite V7. eapply Rle_trans; [apply rn; apply Rabs_le; lra|lra].
Qed.
(** ** The sine wave *)
Theorem C06_float_sine_wave : forall n i, (i < n)%nat -> (Z.of_nat n <= 2 ^ 50)%Z ->
  let x := nth i (@GenerateSineWave F NF n) (fofZ 2) in is_finite x = true /\ Rabs (B2R x - sin (2 * PI * INR i / INR n)) <= e + 5 / 10 ^ 15.
Proof.
  intros n i Hi Hn x. assert (EX : x = tsin tr (fdiv (fmul (fmul (fofZ (Z.of_nat i)) (fofZ 2)) (fhalfpi 2)) (fofZ (Z.of_nat n)))).
  { unfold x, GenerateSineWave. rewrite nth_indep with (d' := @nsin F NF (@ndiv F NF (@nmul F NF (@nmul F NF (@nofZ F NF (Z.of_nat 0)) (@nofZ F NF 2)) (@npi F NF)) (@nofZ F NF (Z.of_nat n)))) by now rewrite map_length, seq_length.
    rewrite (map_nth (fun i => @nsin F NF (@ndiv F NF (@nmul F NF (@nmul F NF (@nofZ F NF (Z.of_nat i)) (@nofZ F NF 2)) (@npi F NF)) (@nofZ F NF (Z.of_nat n))))), seq_nth by exact Hi. reflexivity. }
  rewrite EX. clear EX x. rewrite !INR_IZR_INZ. set (zi := Z.of_nat i). set (zn := Z.of_nat n). assert (ZI : (0 <= zi < zn)%Z) by (unfold zi, zn; lia). assert (ZN : (zn <= 2 ^ 50)%Z) by exact Hn. clearbody zi zn.
  destruct (fofZ_fin zi ltac:(lia)) as [F1 V1]. destruct (fofZ_fin 2 ltac:(lia)) as [F2 V2]. destruct (fofZ_fin zn ltac:(lia)) as [F3 V3]. destruct fpi_val as [Fp _]. destruct fpi_pos as [[P1 P2] P3]. pose proof PI_bounds as PB.
  set (f := fhalfpi 2) in *. clearbody f. assert (BI : 0 <= IZR zi <= IZR zn) by (split; apply IZR_le; lia). assert (BN : 1 <= IZR zn) by (apply (IZR_le 1); lia).
  assert (N50 : IZR zn <= 2 ^ 50) by (rewrite pow_Z; apply IZR_le; exact ZN). assert (P50 : 2 ^ 50 = 1125899906842624) by (rewrite pow_Z; reflexivity).
  assert (BG : 100 * 2 ^ 50 <= bpow radix2 1023). { pose proof big1023. assert (2 ^ 57 <= 2 ^ 500) by (apply Rle_pow; [lra|lia]). assert (2 ^ 57 = 128 * 2 ^ 50) by (simpl; ring). lra. }
  destruct (fmul_fin _ _ F1 F2) as [G1 W1]; [rewrite V1, V2; apply Rabs_le; lra|]. rewrite V1, V2, <- mult_IZR, rnd_fmt, mult_IZR in W1 by (apply fmt_IZR; lia). set (g1 := fmul _ _) in *. clearbody g1.
  set (y := IZR zi * 2) in *. assert (BY : 0 <= y <= 2 * IZR zn) by (unfold y; lra).
  assert (YF : 0 <= y * B2R f <= 4 * y) by (split; [apply Rmult_le_pos; lra|rewrite (Rmult_comm 4); apply Rmult_le_compat_l; lra]).
  destruct (fmul_fin g1 f G1 Fp) as [G2 W2]; [rewrite W1, Rabs_pos_eq by lra; lra|]. rewrite W1 in W2. set (g2 := fmul _ _) in *. clearbody g2.
  pose proof (rnd_abs (y * B2R f)) as E2. rewrite <- W2, (Rabs_pos_eq (y * B2R f)) in E2 by lra. pose proof tiny_60 as T. assert (P60 : 2 ^ 60 = 1152921504606846976) by (rewrite pow_Z; reflexivity). rewrite P60 in T.
  assert (U : 0 < u53 <= 112 / 10 ^ 18) by (unfold u53; lra). assert (P200 : 0 <= 1) by lra.
  assert (Q2 : Rabs (B2R g2 - y * PI) <= 3 / 10 ^ 15 * IZR zn).
  { apply Rabs_le_inv in E2. assert (u53 * (y * B2R f) <= 112 / 10 ^ 18 * (2 * IZR zn * 4)) by (apply Rmult_le_compat; try lra; apply Rmult_le_compat; lra).
    assert (0 <= y * (PI - B2R f) <= 2 * IZR zn * / 10 ^ 15) by (split; [apply Rmult_le_pos; lra|apply Rmult_le_compat; lra]). assert (TT : tiny <= / 10 ^ 17 * IZR zn). { pose proof tiny_le_u. assert (u53 * u53 <= 112 / 10 ^ 18 * (112 / 10 ^ 18)) by (apply Rmult_le_compat; lra). lra. }
    apply Rabs_le. lra. }
  assert (IN : 0 < / IZR zn <= 1) by (split; [apply Rinv_0_lt_compat; lra|rewrite <- Rinv_1; apply Rinv_le_contravar; lra]).
  assert (Q3 : Rabs (B2R g2 / IZR zn - 2 * PI * IZR zi / IZR zn) <= 3 / 10 ^ 15).
  { replace (B2R g2 / IZR zn - 2 * PI * IZR zi / IZR zn) with ((B2R g2 - y * PI) * / IZR zn) by (unfold y; field; lra). rewrite Rabs_mult, (Rabs_pos_eq (/ IZR zn)) by lra. replace (3 / 10 ^ 15) with (3 / 10 ^ 15 * IZR zn * / IZR zn) by (field; lra). apply Rmult_le_compat_r; lra. }
  assert (BA : 0 <= 2 * PI * IZR zi / IZR zn <= 66 / 10).
  { replace (2 * PI * IZR zi / IZR zn) with (2 * PI * (IZR zi * / IZR zn)) by (unfold Rdiv; ring). assert (0 <= IZR zi * / IZR zn <= 1) by (split; [apply Rmult_le_pos; lra|replace 1 with (IZR zn * / IZR zn) by (field; lra); apply Rmult_le_compat_r; lra]).
    split; [apply Rmult_le_pos; lra|]. replace (66 / 10) with (66 / 10 * 1) by ring. apply Rmult_le_compat; lra. }
  apply Rabs_le_inv in Q3. set (a := 2 * PI * IZR zi / IZR zn) in *. set (b := B2R g2 / IZR zn) in *.
  destruct (fdiv_fin g2 (fofZ zn) G2 F3) as [G3 W3]; [rewrite V3; lra|rewrite V3; fold b; apply le1023; apply Rabs_le; lra|]. rewrite V3 in W3. fold b in W3. set (g3 := fdiv _ _) in *. clearbody g3 b a.
  pose proof (rnd_abs b) as E3. rewrite <- W3 in E3. assert (u53 * Rabs b <= 112 / 10 ^ 18 * 7) by (apply Rmult_le_compat; try lra; [apply Rabs_pos|apply Rabs_le; lra]).
  assert (Q4 : Rabs (B2R g3 - a) <= 5 / 10 ^ 15) by (apply Rabs_le_inv in E3; apply Rabs_le; lra).
  assert (B29 : Rabs (B2R g3) <= 2 ^ 29). { assert (16 <= 2 ^ 29) by (rewrite pow_Z; apply IZR_le; cbn; lia). apply Rabs_le_inv in Q4. apply Rabs_le. lra. }
  destruct (sane_sin tr SANE g3 G3) as [Fs _]. split; [exact Fs|]. pose proof (acc_sin tr e ACC g3 G3 B29) as AS. pose proof (sin_near (B2R g3) a) as SN.
  replace (B2R (tsin tr g3) - sin a) with ((B2R (tsin tr g3) - sin (B2R g3)) + (sin (B2R g3) - sin a)) by ring. eapply Rle_trans; [apply Rabs_triang|]. lra.
Qed.
End Acc.

(** ** Non-vacuity *)
Example C06_float_applies : let c := mkTP (fofZ 1) 100000000 (fofZ 1) (flit 1 10) [] (fofZ 1) in let t := mkTP (fofZ 2) 200000000 (fofZ 1) (flit 9 10) [] (fofZ 1) in
  trig_sane crTrig /\ trig_acc crTrig (/ 2 ^ 51) /\ 0 <= / 2 ^ 51 <= 1 / 4 /\ plainPattern c /\ plainPattern t /\ is_arc (B2R (tp_phase t)) (B2R (tp_phase c)) 1 /\
  map gap_type (@IdentifyGaps F (FNum crTrig) c t) = [GapPhase; GapFrequency; GapCoherence].
Proof.
  cbv zeta. assert (P51 : 2 ^ 51 = 2251799813685248) by (rewrite pow_Z; reflexivity). assert (P28 : 2 ^ 28 = 268435456) by (rewrite pow_Z; reflexivity).
  destruct (fofZ_fin 1 ltac:(lia)) as [A1 B1]. destruct (fofZ_fin 2 ltac:(lia)) as [A2 B2]. destruct (lit_near 1 10 ltac:(lia) ltac:(lia)) as [L1 L2]. destruct (lit_near 9 10 ltac:(lia) ltac:(lia)) as [L3 L4]. apply Rabs_le_inv in L2. apply Rabs_le_inv in L4.
  assert (E51 : 0 <= / 2 ^ 51 <= 1 / 4) by (rewrite P51; lra). set (c := mkTP _ 100000000 _ _ _ _). set (t := mkTP _ 200000000 _ _ _ _).
  assert (PC : plainPattern c) by (constructor; cbn [c tp_phase tp_freq tp_coh]; try assumption; try lia; [rewrite B1, Rabs_pos_eq; lra|lra]).
  assert (PT : plainPattern t) by (constructor; cbn [t tp_phase tp_freq tp_coh]; try assumption; try lia; [rewrite B2, Rabs_pos_eq; lra|lra]).
  assert (HA : is_arc (B2R (tp_phase t)) (B2R (tp_phase c)) 1). { cbn [c t tp_phase]. rewrite B1, B2. replace 1 with (Rabs 1) at 2 by (apply Rabs_pos_eq; lra). pose proof PI_bounds. apply is_arc_of_rep; [lra|]. exists 0%Z. lra. }
  split; [exact cr_sane|]. split; [exact cr_acc|]. split; [exact E51|]. split; [exact PC|]. split; [exact PT|]. split; [exact HA|].
  destruct (C06_float_gaps crTrig (/ 2 ^ 51) cr_sane cr_acc E51 c t 1 PC PT HA) as (G1 & _ & G2 & _ & G3 & _).
  assert (G1' := G1 ltac:(unfold arcErr; cbn [c t tp_phase]; rewrite B1, B2, P51, !Rabs_pos_eq by lra; replace (2 ^ 52) with 4503599627370496 by (rewrite pow_Z; reflexivity); lra)).
  assert (G2' := G2 ltac:(cbn [c t tp_freq]; rewrite Rabs_left1; lra)). assert (G3' := G3 ltac:(cbn [c t tp_coh]; lra)). clear G1 G2 G3.
  revert G1' G2' G3'. unfold IdentifyGaps. cbv zeta. repeat match goal with |- context [if ?b then _ else _] => destruct b end; cbn [map app gap_type In]; intros; intuition discriminate.
Qed.
Print Assumptions C02_float_magnitude.
Print Assumptions C06_float_distance.
Print Assumptions C06_float_gaps.
Print Assumptions C06_float_severity.
Print Assumptions C06_float_sine_wave.
