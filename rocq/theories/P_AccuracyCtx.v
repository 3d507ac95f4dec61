(** Float accuracy of what an agent knows about its neighbors (C16) and of the phase variance (C31). *)
From Coq Require Import ZArith Reals Psatz Bool List Lia.
From Flocq Require Import Core.Core IEEE754.BinarySingleNaN.
From Verif Require Import Num F64 RealNum M_Core M_Strategy M_Agent M_Sync S_Circle S_Agent S_Sync S_Acc L_F64 L_F64x L_Circle L_PhaseF L_Coherence L_Acc L_AccRes P_Core P_Converge P_Agent2 P_Accuracy P_AccuracySwarm P_AccuracyMove.
From Verif Require P_Round.
Import ListNotations.
Open Scope R_scope.

Section Ctx.
Variables (tr : Trig) (e : R).
Hypothesis HS : trig_sane tr.
Hypothesis HA : trig_acc tr e.
Hypothesis He : 0 <= e <= 1 / 16.

Lemma half_val : is_finite (flit 5 10) = true /\ B2R (flit 5 10) = / 2.
Proof.
  split; [reflexivity|]. rewrite <- SF2R_B2SF. assert (E : B2SF (flit 5 10) = SpecFloat.S754_finite false 4503599627370496 (-53)) by (vm_compute; reflexivity).
  rewrite E. unfold SF2R, F2R. cbn. lra.
Qed.
(** Sine and cosine of a computed difference of phases. *)
Lemma diff_trig (p m : F) : in_turn p -> in_turn m ->
  let d := fsub p m in
  (is_finite (tcos tr d) = true /\ Rabs (B2R (tcos tr d)) <= 1 /\ Rabs (B2R (tcos tr d) - cos (B2R p - B2R m)) <= e + 7 * u53) /\
  (is_finite (tsin tr d) = true /\ Rabs (B2R (tsin tr d)) <= 1 /\ Rabs (B2R (tsin tr d) - sin (B2R p - B2R m)) <= e + 7 * u53).
Proof using HS HA.
  intros Hp Hm d. destruct (turn_R p Hp) as [Tp Bp]. destruct (turn_R m Hm) as [Tm Bm]. unfold turn in *. destruct Hp as [Fp _], Hm as [Fm _].
  pose proof u_pos as U. pose proof tiny_le_u as TU. pose proof tiny_pos as TP. assert (TT : tiny <= u53 / 1000) by exact tiny_u1000.
  assert (BD : Rabs (B2R p - B2R m) <= 63 / 10) by (apply Rabs_le; lra).
  pose proof big1023. assert (2 ^ 3 <= 2 ^ 500) by (apply Rle_pow; [lra|lia]).
  destruct (fsub_fin p m Fp Fm) as [Fd Vd]; [lra|]. fold d in Fd, Vd. pose proof (rnd_abs (B2R p - B2R m)) as RA. rewrite <- Vd in RA.
  assert (RB : Rabs (B2R d - (B2R p - B2R m)) <= 7 * u53) by (assert (u53 * Rabs (B2R p - B2R m) <= u53 * (63 / 10)) by (apply Rmult_le_compat_l; lra); lra).
  assert (BB : Rabs (B2R d) <= 2 ^ 29).
  { apply Rle_trans with 8; [|simpl; lra]. replace (B2R d) with ((B2R d - (B2R p - B2R m)) + (B2R p - B2R m)) by ring. eapply Rle_trans; [apply Rabs_triang|]. lra. }
  destruct (sane_cos tr HS d Fd) as [C1 C2]. destruct (sane_sin tr HS d Fd) as [S1 S2].
  split; (split; [assumption|split; [assumption|]]).
  - replace (B2R (tcos tr d) - cos (B2R p - B2R m)) with ((B2R (tcos tr d) - cos (B2R d)) + (cos (B2R d) - cos (B2R p - B2R m))) by ring.
    eapply Rle_trans; [apply Rabs_triang|]. pose proof (acc_cos tr e HA d Fd BB). pose proof (cos_near (B2R d) (B2R p - B2R m)). lra.
  - replace (B2R (tsin tr d) - sin (B2R p - B2R m)) with ((B2R (tsin tr d) - sin (B2R d)) + (sin (B2R d) - sin (B2R p - B2R m))) by ring.
    eapply Rle_trans; [apply Rabs_triang|]. pose proof (acc_sin tr e HA d Fd BB). pose proof (sin_near (B2R d) (B2R p - B2R m)). lra.
Qed.
Lemma fold_sum_map (g : R -> R) l : fold_right (fun (x : F) s => g (B2R x) + s) 0 l = rsum g (map B2R l).
Proof. induction l as [|x l IH]; [reflexivity|]. cbn [fold_right map rsum]. now rewrite IH. Qed.
Lemma rel_sums my (l : list R) : rsum (fun x => cos (x - my)) l = cos my * rsum cos l + sin my * rsum sin l /\ rsum (fun x => sin (x - my)) l = cos my * rsum sin l - sin my * rsum cos l.
Proof.
  induction l as [|x l [A B]]; cbn [rsum]; [split; ring|]. rewrite A, B, cos_minus, sin_minus. split; ring.
Qed.
Lemma rel_len my (l : list R) : vlen (rsum (fun x => cos (x - my)) l) (rsum (fun x => sin (x - my)) l) = vlen (rsum cos l) (rsum sin l).
Proof.
  destruct (rel_sums my l) as [-> ->]. unfold vlen. f_equal. set (C := rsum cos l). set (S := rsum sin l).
  transitivity ((C * C + S * S) * ((sin my)² + (cos my)²)); [unfold Rsqr; ring|]. rewrite sin2_cos2. ring.
Qed.

(** The computed local coherence is within [2e + (n+9) 2^-51] of the order parameter of the neighbors. *)
Theorem C16_float_coherence : forall (my : F) (nb : list F), nb <> [] -> (Z.of_nat (length nb) <= 2 ^ 40)%Z -> in_turn my -> Forall in_turn nb ->
  let z := @localCoherence F (FNum tr) my nb in
  is_finite z = true /\ 0 <= B2R z /\ Rabs (B2R z - @MeasureCoherence R RNum (map B2R nb)) <= 2 * e + (IZR (Z.of_nat (length nb)) + 9) / 2 ^ 51.
Proof using HS HA He.
  intros my nb Hne Hn Hm Hnb z. rewrite Forall_forall in Hnb. pose proof u_pos as U.
  destruct (resultant_acc (fun p => tcos tr (fsub p my)) (fun p => tsin tr (fsub p my)) (fun p => cos (B2R p - B2R my)) (fun p => sin (B2R p - B2R my)) (e + 7 * u53) nb) as ((Fz & Pz & _ & Ez) & _ & _); auto; try lra; try lia.
  { intros x Hx. apply (diff_trig x my (Hnb x Hx) Hm). }
  { intros x Hx. apply (diff_trig x my (Hnb x Hx) Hm). }
  cbv zeta in Fz, Pz, Ez. rewrite (fold_sum_map (fun x => cos (x - B2R my))), (fold_sum_map (fun x => sin (x - B2R my))), rel_len in Ez.
  assert (EZ : z = fdiv (fsqrt (fadd (fmul (fold_left (fun s x => fadd s (tcos tr (fsub x my))) nb (fofZ 0)) (fold_left (fun s x => fadd s (tcos tr (fsub x my))) nb (fofZ 0)))
     (fmul (fold_left (fun s x => fadd s (tsin tr (fsub x my))) nb (fofZ 0)) (fold_left (fun s x => fadd s (tsin tr (fsub x my))) nb (fofZ 0))))) (fofZ (Z.of_nat (length nb)))).
  { unfold z, localCoherence. destruct nb; [contradiction|]. reflexivity. }
  rewrite <- EZ in Fz, Pz, Ez. split; [exact Fz|]. split; [exact Pz|].
  rewrite RMC_unfold by (intros Q; apply map_eq_nil in Q; contradiction). rewrite map_length, INR_IZR_INZ. eapply Rle_trans; [exact Ez|].
  rewrite !pow_Z. cbn [Z.of_nat Pos.of_succ_nat Pos.succ]. change (2 ^ 51)%Z with 2251799813685248%Z. unfold u53. lra.
Qed.
Print Assumptions C16_float_coherence.

(** The goal set by UpdateContext: the share [(1 + coherence) / 2] of the way from the own phase towards the mean direction
    [m] of the neighbors, taken the way [t] found by the direction of the computed mean vector.  The turn [t] is right up to
    an error that grows as the coherence [rho] shrinks. *)
Theorem C16_float_context : forall (nb : list F) (a : Agent F) rho m, nb <> [] -> (Z.of_nat (length nb) <= 2 ^ 40)%Z ->
  in_turn (sd_phase (ag_sd a)) -> Forall in_turn nb ->
  let n := IZR (Z.of_nat (length nb)) in let my := B2R (sd_phase (ag_sd a)) in
  let E := e + (n + 5) / 2 ^ 52 in
  rsum cos (map B2R nb) = n * rho * cos m -> rsum sin (map B2R nb) = n * rho * sin m -> 0 < rho -> 4 * E <= rho ->
  let a' := @UpdateContext F (FNum tr) nb a in
  cx_neighbors (ag_ctx a') = Z.of_nat (length nb) /\ Rabs (B2R (cx_lc (ag_ctx a')) - rho) <= 2 * e + (n + 9) / 2 ^ 51 /\
  in_turn (sd_goal (ag_sd a')) /\
  exists t j k, Rabs t <= PI /\ Rabs (t - (m - my) - IZR j * (2 * PI)) <= 4 * E / rho /\
    Rabs (B2R (sd_goal (ag_sd a')) - (my + (1 + rho) / 2 * t) - IZR k * (2 * PI)) <= 8 * e + (n + 32) / 2 ^ 50.
Proof using HS HA He.
  intros nb a rho m Hne Hn Hm Hnb n my E HC HSn Hrho HE a'. pose proof Hnb as Hnb'. rewrite Forall_forall in Hnb. pose proof u_pos as U. pose proof tiny_le_u as TU. pose proof tiny_pos as TP. assert (TT : tiny <= u53 / 1000) by exact tiny_u1000. pose proof PI_bounds as PB.
  set (mf := sd_phase (ag_sd a)) in *.
  assert (N1 : 1 <= n) by (apply (IZR_le 1); destruct nb; [contradiction|cbn [length]; lia]). assert (N40 : n <= 1099511627776) by (apply (IZR_le _ (2 ^ 40)); exact Hn).
  destruct (resultant_acc (fun p => tcos tr (fsub p mf)) (fun p => tsin tr (fsub p mf)) (fun p => cos (B2R p - my)) (fun p => sin (B2R p - my)) (e + 7 * u53) nb) as ((Fz & Pz & Bz & Ez) & [Fc Ec] & [Fs Es]); auto; try lra; try lia.
  { intros x Hx. apply (diff_trig x mf (Hnb x Hx) Hm). }
  { intros x Hx. apply (diff_trig x mf (Hnb x Hx) Hm). }
  cbv zeta in *. fold n in Ez, Ec, Es. rewrite (fold_sum_map (fun x => cos (x - my))) in Ez, Ec. rewrite (fold_sum_map (fun x => sin (x - my))) in Ez, Es. rewrite rel_len in Ez.
  destruct (rel_sums my (map B2R nb)) as [RC RS]. rewrite RC, HC, HSn in Ec. rewrite RS, HC, HSn in Es. rewrite HC, HSn in Ez.
  set (c := fold_left (fun s x => fadd s (tcos tr (fsub x mf))) nb (fofZ 0)) in *. set (s := fold_left (fun s x => fadd s (tsin tr (fsub x mf))) nb (fofZ 0)) in *.
  set (cnt := fofZ (Z.of_nat (length nb))) in *. set (lc := fdiv (fsqrt (fadd (fmul c c) (fmul s s))) cnt) in *.
  assert (VL : vlen (n * rho * cos m) (n * rho * sin m) / n = rho).
  { unfold vlen. replace (n * rho * cos m * (n * rho * cos m) + n * rho * sin m * (n * rho * sin m)) with ((n * rho) * (n * rho) * ((sin m)² + (cos m)²)) by (unfold Rsqr; ring).
    rewrite sin2_cos2, Rmult_1_r, sqrt_square by nra. field. lra. }
  rewrite VL in Ez.
  replace ((cos my * (n * rho * cos m) + sin my * (n * rho * sin m)) / n) with (rho * cos (m - my)) in Ec by (rewrite cos_minus; field; lra).
  replace ((cos my * (n * rho * sin m) - sin my * (n * rho * cos m)) / n) with (rho * sin (m - my)) in Es by (rewrite sin_minus; field; lra).
  assert (V51 : / 2 ^ 51 = 4 * u53) by (rewrite pow_Z; unfold u53; cbn; lra). assert (V52 : / 2 ^ 52 = 2 * u53) by (rewrite pow_Z; unfold u53; cbn; lra). assert (V50 : / 2 ^ 50 = 8 * u53) by (rewrite pow_Z; unfold u53; cbn; lra).
  assert (V49 : / 2 ^ 49 = 16 * u53) by (rewrite pow_Z; unfold u53; cbn; lra).
  assert (EE : E = e + (2 * n + 10) * u53) by (unfold E, Rdiv; rewrite V52; ring).
  assert (EB : e + 7 * u53 + (2 * n + 2) * u53 <= E) by (rewrite EE; lra).
  assert (Ez' : Rabs (B2R lc - rho) <= 2 * e + (4 * n + 34) * u53) by (eapply Rle_trans; [exact Ez|]; unfold Rdiv; rewrite V51; lra).
  assert (NU : n * u53 <= / 8192) by (unfold u53; lra).
  assert (R1 : rho <= 1).
  { pose proof (RMC_bounds (map B2R nb)) as RB. rewrite RMC_unfold in RB by (intros Q; apply map_eq_nil in Q; contradiction). rewrite map_length, INR_IZR_INZ in RB. fold n in RB. rewrite HC, HSn, VL in RB. lra. }
  (* the direction *)
  destruct (dir_acc (B2R (fdiv s cnt)) (B2R (fdiv c cnt)) rho (m - my) E Hrho HE ltac:(lra) ltac:(lra)) as (NZ & t1 & Bt1 & Ct1).
  destruct (acc_atan2 tr e HA (fdiv s cnt) (fdiv c cnt) Fs Fc NZ) as (t & Ct & Bt & Et). set (sh := tatan2 tr (fdiv s cnt) (fdiv c cnt)) in *.
  assert (Fsh : is_finite sh = true) by (destruct (sane_atan2 tr HS (fdiv s cnt) (fdiv c cnt)); auto).
  (* the coupling *)
  destruct half_val as [Fh Vh].
  assert (Ah : ap (flit 5 10) (/ 2) 0) by (rewrite <- Vh; now apply ap_exact).
  assert (Al : ap lc rho (2 * e + (4 * n + 34) * u53)) by now split.
  set (dl := 2 * e + (4 * n + 34) * u53) in *. assert (Dl : 0 <= dl <= 1 / 7) by (unfold dl; split; [assert (0 <= n * u53) by nra; lra|lra]).
  assert (A1 : ap (fmul (flit 5 10) lc) (/ 2 * rho) (dl / 2 + 2 * u53)).
  { eapply ap_weak; [apply (ap_mul _ _ (/ 2) rho 0 dl 1 Ah Al); try lra; rewrite (Rabs_pos_eq (/ 2)), (Rabs_pos_eq rho) by lra; lra|]. rewrite (Rabs_pos_eq (/ 2)) by lra. lra. }
  assert (A2 : ap (fadd (flit 5 10) (fmul (flit 5 10) lc)) (/ 2 + / 2 * rho) (dl / 2 + 5 * u53)).
  { eapply ap_weak; [apply (ap_add _ _ _ _ _ _ 2 Ah A1); [lra|rewrite Rabs_pos_eq by lra; lra]|]. lra. }
  set (cp := fadd (flit 5 10) (fmul (flit 5 10) lc)) in *. set (kk := / 2 + / 2 * rho) in *. assert (Kk : / 2 <= kk <= 1) by (unfold kk; lra).
  assert (At : ap sh t (4 * e)) by now split.
  assert (A3 : ap (fmul sh cp) (t * kk) (2 * dl + 4 * e + 32 * u53)).
  { eapply ap_weak; [apply (ap_mul _ _ t kk (4 * e) (dl / 2 + 5 * u53) 5 At A2); try lra; rewrite (Rabs_pos_eq kk) by lra; apply Rle_trans with (17 / 5 * (6 / 5)); [apply Rmult_le_compat; pose proof (Rabs_pos t); lra|lra]|].
    rewrite (Rabs_pos_eq kk) by lra. assert (Rabs t * (dl / 2 + 5 * u53) <= 315 / 100 * (dl / 2 + 5 * u53)) by (apply Rmult_le_compat_r; lra).
    assert (4 * e * kk <= 4 * e * 1) by (apply Rmult_le_compat_l; lra). assert (4 * e * (dl / 2 + 5 * u53) <= 1 / 4 * (dl / 2 + 5 * u53)) by (apply Rmult_le_compat_r; lra). lra. }
  assert (Fm : is_finite mf = true) by apply Hm. assert (Am : ap mf my 0) by now apply ap_exact.
  destruct (turn_R mf Hm) as [Tm Bm]. fold my in Tm, Bm. unfold turn in Tm.
  assert (Btk : Rabs (t * kk) <= 315 / 100) by (rewrite Rabs_mult, (Rabs_pos_eq kk) by lra; apply Rle_trans with (315 / 100 * 1); [apply Rmult_le_compat; pose proof (Rabs_pos t); lra|lra]).
  assert (A4 : ap (fadd mf (fmul sh cp)) (my + t * kk) (2 * dl + 4 * e + 46 * u53)).
  { eapply ap_weak; [apply (ap_add _ _ _ _ _ _ 12 Am A3); [lra|]|lra]. eapply Rle_trans; [apply Rplus_le_compat_r, Rplus_le_compat_r, Rabs_triang|]. rewrite (Rabs_pos_eq my) by lra. lra. }
  set (g := fadd mf (fmul sh cp)) in *. destruct A4 as [Fg Eg].
  assert (Bg : Rabs (B2R g) <= 12).
  { replace (B2R g) with ((B2R g - (my + t * kk)) + my + t * kk) by ring. eapply Rle_trans; [apply Rabs_triang|]. pose proof (Rabs_triang (B2R g - (my + t * kk)) my). rewrite (Rabs_pos_eq my) in H by lra. lra. }
  destruct (C01_wrap_float_turns tr g Fg Bg) as [k Kw]. destruct (C01_wrap_float tr g Fg) as (Fw & _ & Rw & _).
  assert (EA : ag_ctx a' = mkCtx (Z.of_nat (length nb)) (fdiv cnt (fofZ (if (ag_maxn a =? 0)%Z then (ag_swarm a - 1)%Z else ag_maxn a))) (flit 5 10) (fofZ 0) lc /\ sd_goal (ag_sd a') = @WrapPhase F (FNum tr) g).
  { unfold a', UpdateContext. destruct nb as [|x0 nb0]; [contradiction|]. split; reflexivity. }
  destruct EA as [EA EG]. rewrite EA, EG. cbn [cx_neighbors cx_lc]. split; [reflexivity|].
  split; [eapply Rle_trans; [exact Ez'|]; unfold dl, Rdiv; rewrite V51; lra|]. split; [split; [exact Fw|exact Rw]|].
  assert (Cj : cong t (m - my + t1)) by (eapply cong_trans; [exact Ct|exact Ct1]). destruct Cj as [j Hj].
  exists t, (j)%Z, k. split; [exact Bt|]. split; [replace (t - (m - my) - IZR j * (2 * PI)) with t1 by lra; exact Bt1|].
  rewrite V49 in Kw. replace ((1 + rho) / 2 * t) with (t * kk) by (unfold kk; field).
  set (wg := @WrapPhase F (FNum tr) g) in *. replace (B2R wg - (my + t * kk) - IZR k * (2 * PI)) with ((B2R wg - B2R g - IZR k * (2 * PI)) + (B2R g - (my + t * kk))) by ring.
  eapply Rle_trans; [apply Rabs_triang|]. unfold Rdiv. rewrite V50. unfold dl in *. lra.
Qed.
Print Assumptions C16_float_context.

(** ** C31: the variance *)
(** The normalisation loops of a deviation between a phase and a direction. *)
Lemma loops_acc (fuel : nat) (p mn : F) : (3 <= fuel)%nat -> in_turn p -> is_finite mn = true -> Rabs (B2R mn) <= B2R (fhalfpi 2) ->
  exists d, @loopDown F (FNum tr) fuel (fsub p mn) = Some d /\ @loopUp F (FNum tr) fuel d = Some d /\ is_finite d = true /\ Rabs (B2R d) <= B2R (fhalfpi 2) /\
    exists k, Rabs (B2R d - (B2R p - B2R mn) - IZR k * (2 * PI)) <= 40 * u53.
Proof.
  intros Hf Hp Fm Bm. destruct (turn_R p Hp) as [Tp Bp]. unfold turn in Tp. destruct Hp as [Fp Rp].
  pose proof u_pos as U. pose proof tiny_le_u as TU. pose proof tiny_pos as TP. assert (TT : tiny <= u53 / 1000) by exact tiny_u1000.
  pose proof PI_bounds as PB. pose proof fpi_near as PN. pose proof f2pi_near as P2. unfold fpi in PN.
  replace (/ 2 ^ 52) with (2 * u53) in PN by (rewrite pow_Z; unfold u53; cbn; lra). replace (/ 2 ^ 51) with (4 * u53) in P2 by (rewrite pow_Z; unfold u53; cbn; lra).
  set (pf := B2R (fhalfpi 2)) in *. set (tf := B2R f2pi) in *. assert (FT : fmt pf) by apply fmt_B2R. assert (PF : 314 / 100 <= pf <= 315 / 100) by lra. assert (TF : 628 / 100 <= tf <= 629 / 100) by lra.
  assert (TP2 : tf = 2 * pf). { unfold tf, pf. rewrite f2pi_val, (proj2 fpi_val). field. }
  pose proof big1023 as BG. assert (P5 : 2 ^ 10 <= 2 ^ 500) by (apply Rle_pow; [lra|lia]). apply Rabs_le_inv in Bm.
  assert (BD : - pf <= B2R p - B2R mn <= 10) by lra.
  destruct (fsub_fin p mn Fp Fm) as [Fx Vx]; [apply Rabs_le; lra|]. pose proof (rnd_abs (B2R p - B2R mn)) as Ex. rewrite <- Vx in Ex.
  assert (Ex' : Rabs (B2R (fsub p mn) - (B2R p - B2R mn)) <= 11 * u53).
  { assert (Rabs (B2R p - B2R mn) <= 10) by (apply Rabs_le; lra). assert (u53 * Rabs (B2R p - B2R mn) <= u53 * 10) by (apply Rmult_le_compat_l; lra). lra. }
  assert (Lx : - pf <= B2R (fsub p mn)) by (rewrite Vx; apply rnd_ge_fmt; [now apply fmt_opp|lra]).
  set (x := fsub p mn) in *. apply Rabs_le_inv in Ex'.
  (* one subtraction of a turn *)
  assert (ST : forall y, is_finite y = true -> pf < B2R y -> B2R y <= 11 -> is_finite (fsub y f2pi) = true /\ - pf <= B2R (fsub y f2pi) <= B2R y - 6 /\ Rabs (B2R (fsub y f2pi) - (B2R y - 2 * PI)) <= 10 * u53).
  { intros y Fy Ly By. destruct (fsub_fin y f2pi Fy f2pi_fin) as [Fr Vr]; [fold tf; apply Rabs_le; lra|]. fold tf in Vr. pose proof (rnd_abs (B2R y - tf)) as E1. rewrite <- Vr in E1.
    assert (E2 : Rabs (B2R (fsub y f2pi) - (B2R y - tf)) <= 6 * u53).
    { assert (Rabs (B2R y - tf) <= 5) by (apply Rabs_le; lra). assert (u53 * Rabs (B2R y - tf) <= u53 * 5) by (apply Rmult_le_compat_l; lra). lra. }
    split; [exact Fr|]. apply Rabs_le_inv in E2. split; [split; [rewrite Vr; apply rnd_ge_fmt; [now apply fmt_opp|lra]|lra]|]. apply Rabs_le. lra. }
  assert (UP : forall y k, is_finite y = true -> - pf <= B2R y -> @loopUp F (FNum tr) (S k) y = Some y).
  { intros y k Fy Ly. cbn [loopUp]. change (@nlt F (FNum tr)) with flt. change (@nneg F (FNum tr) (@npi F (FNum tr))) with (fneg (fhalfpi 2)).
    assert (Q : flt y (fneg (fhalfpi 2)) = false). { rewrite flt_fin; [|exact Fy|unfold fneg; rewrite is_finite_Bopp; apply fpi_val]. unfold fneg. rewrite B2R_Bopp. apply Rlt_bool_false. fold pf. lra. }
    rewrite Q. reflexivity. }
  assert (DN : forall y k, @loopDown F (FNum tr) (S k) y = if flt (fhalfpi 2) y then @loopDown F (FNum tr) k (fsub y f2pi) else Some y) by reflexivity.
  assert (TS : forall y, is_finite y = true -> flt (fhalfpi 2) y = Rlt_bool pf (B2R y)) by (intros y Fy; rewrite flt_fin; [reflexivity|apply fpi_val|exact Fy]).
  destruct fuel as [|[|[|k]]]; try lia. rewrite DN, (TS x Fx). destruct (Rlt_bool_spec pf (B2R x)) as [L|L].
  - destruct (ST x Fx L ltac:(lra)) as (F1 & B1 & E1). set (x1 := fsub x f2pi) in *. rewrite DN, (TS x1 F1). apply Rabs_le_inv in E1. destruct (Rlt_bool_spec pf (B2R x1)) as [L1|L1].
    + destruct (ST x1 F1 L1 ltac:(lra)) as (F2 & B2 & E2). set (x2 := fsub x1 f2pi) in *. rewrite DN, (TS x2 F2), Rlt_bool_false by lra. exists x2. split; [reflexivity|]. split; [apply UP; [exact F2|lra]|]. split; [exact F2|]. split; [apply Rabs_le; lra|].
      apply Rabs_le_inv in E2. exists (-2)%Z. apply Rabs_le. lra.
    + exists x1. split; [reflexivity|]. split; [apply UP; [exact F1|lra]|]. split; [exact F1|]. split; [apply Rabs_le; lra|]. exists (-1)%Z. apply Rabs_le. lra.
  - exists x. split; [reflexivity|]. split; [apply UP; [exact Fx|lra]|]. split; [exact Fx|]. split; [apply Rabs_le; lra|]. exists 0%Z. apply Rabs_le. lra.
Qed.
Lemma varLoop_fold fuel mn (d : Agent F -> F) agents : (forall a, In a agents -> @loopDown F (FNum tr) fuel (fsub (phaseOf a) mn) = Some (d a) /\ @loopUp F (FNum tr) fuel (d a) = Some (d a)) ->
  forall acc, @varLoop F (FNum tr) fuel mn agents acc = Some (fold_left (fun s a => fadd s (fmul (d a) (d a))) agents acc).
Proof.
  induction agents as [|a l IH]; intros H acc; [reflexivity|]. cbn [varLoop fold_left]. destruct (H a (or_introl eq_refl)) as [A B].
  change (@nsub F (FNum tr) (phaseOf a) mn) with (fsub (phaseOf a) mn). rewrite A, B. apply IH. intros b Hb. apply H. now right.
Qed.

(** The float variance is close to the mean of the squared arcs [d] between the agents and the mean direction [m]; the error
    grows as the coherence [rho] shrinks, where the direction itself is lost. *)
Theorem C31_variance_float_accuracy : forall (fuel : nat) (agents : list (Agent F)) rho m (d : Agent F -> R), (3 <= fuel)%nat -> agents <> [] ->
  (Z.of_nat (length agents) <= 2 ^ 40)%Z -> Forall (fun a => in_turn (phaseOf a)) agents ->
  let n := IZR (Z.of_nat (length agents)) in let E := e + (n + 1) / 2 ^ 52 in
  rsum (fun a => cos (B2R (phaseOf a))) agents = n * rho * cos m -> rsum (fun a => sin (B2R (phaseOf a))) agents = n * rho * sin m -> 0 < rho -> 4 * E <= rho ->
  (forall a, In a agents -> is_arc (B2R (phaseOf a)) m (d a)) ->
  exists v, @MeasurePhaseVariance F (FNum tr) fuel agents = Some v /\ is_finite v = true /\
    Rabs (B2R v - rsum (fun a => d a * d a) agents / n) <= 7 * (4 * E / rho + 4 * e) + (n + 16) / 2 ^ 48.
Proof using HS HA He.
  intros fuel agents rho m d Hf Hne Hn Ha n E HC HSn Hrho HE Hd. rewrite Forall_forall in Ha.
  pose proof u_pos as U. pose proof tiny_le_u as TU. pose proof tiny_pos as TP. assert (TT : tiny <= u53 / 1000) by exact tiny_u1000. pose proof PI_bounds as PB.
  assert (N1 : 1 <= n) by (apply (IZR_le 1); destruct agents; [contradiction|cbn [length]; lia]). assert (N40 : n <= 1099511627776) by (apply (IZR_le _ (2 ^ 40)); exact Hn).
  assert (V52 : / 2 ^ 52 = 2 * u53) by (rewrite pow_Z; unfold u53; cbn; lra). assert (V48 : / 2 ^ 48 = 32 * u53) by (rewrite pow_Z; unfold u53; cbn; lra).
  assert (EE : E = e + (2 * n + 2) * u53) by (unfold E, Rdiv; rewrite V52; ring).
  assert (HT : forall x, In x (map phaseOf agents) -> is_finite x = true /\ Rabs (B2R x) <= 2 ^ 29).
  { intros x Hx. apply in_map_iff in Hx as (a & <- & Hin). destruct (turn_R _ (Ha a Hin)) as [A B]. unfold turn in A. split; [apply (Ha a Hin)|]. rewrite Rabs_pos_eq by lra. simpl. lra. }
  destruct (resultant_acc (tcos tr) (tsin tr) (fun p => cos (B2R p)) (fun p => sin (B2R p)) e (map phaseOf agents)) as (_ & [Fc Ec] & [Fs Es]); try lra.
  { intros Q. apply map_eq_nil in Q. contradiction. }
  { rewrite map_length. lia. }
  { intros x Hx. destruct (HT x Hx) as [Fx Bx]. destruct (sane_cos tr HS x Fx) as [A B]. split; [exact A|]. split; [exact B|]. now apply (acc_cos tr e HA). }
  { intros x Hx. destruct (HT x Hx) as [Fx Bx]. destruct (sane_sin tr HS x Fx) as [A B]. split; [exact A|]. split; [exact B|]. now apply (acc_sin tr e HA). }
  cbv zeta in *. rewrite (fold_sum_map cos), map_map in Ec. rewrite (fold_sum_map sin), map_map in Es. rewrite map_length in *. fold n in Ec, Es. rewrite <- EE in Ec, Es.
  rewrite rsum_map in Ec, Es. rewrite HC in Ec. rewrite HSn in Es.
  replace (n * rho * cos m / n) with (rho * cos m) in Ec by (field; lra). replace (n * rho * sin m / n) with (rho * sin m) in Es by (field; lra).
  set (fc := fdiv (fold_left (fun s x => fadd s (tcos tr x)) (map phaseOf agents) (fofZ 0)) (fofZ (Z.of_nat (length agents)))) in *.
  set (fs := fdiv (fold_left (fun s x => fadd s (tsin tr x)) (map phaseOf agents) (fofZ 0)) (fofZ (Z.of_nat (length agents)))) in *.
  destruct (dir_acc (B2R fs) (B2R fc) rho m E Hrho HE Es Ec) as (NZ & t1 & Bt1 & Ct1).
  destruct (acc_atan2 tr e HA fs fc Fs Fc NZ) as (t & Ct & Bt & Et). destruct (sane_atan2 tr HS fs fc Fs Fc) as [Fmn Bmn].
  assert (EMn : @meanPhase F (FNum tr) agents = tatan2 tr fs fc).
  { unfold meanPhase, fs, fc. assert (FM : forall (f : F -> F) l acc, fold_left (fun s x => fadd s (f x)) (map (@phaseOf F) l) acc = fold_left (fun s a => fadd s (f (phaseOf a))) l acc) by (intros f l; induction l as [|b l IH]; intros acc; [reflexivity|apply IH]).
    rewrite !FM. reflexivity. }
  set (mn := tatan2 tr fs fc) in *. destruct (cong_trans _ _ _ Ct Ct1) as [j Hj].
  set (del := 4 * E / rho + 4 * e + 40 * u53).
  assert (MN : Rabs (B2R mn - m - IZR j * (2 * PI)) <= 4 * E / rho + 4 * e).
  { replace (B2R mn - m - IZR j * (2 * PI)) with ((B2R mn - t) + t1) by lra. eapply Rle_trans; [apply Rabs_triang|]. lra. }
  set (df := fun a : Agent F => match @loopDown F (FNum tr) fuel (fsub (phaseOf a) mn) with Some x => x | None => fofZ 0 end).
  assert (HD : forall a, In a agents -> @loopDown F (FNum tr) fuel (fsub (phaseOf a) mn) = Some (df a) /\ @loopUp F (FNum tr) fuel (df a) = Some (df a) /\ is_finite (df a) = true /\ Rabs (B2R (df a)) <= PI /\ Rabs (Rabs (B2R (df a)) - d a) <= del).
  { intros a Hin. destruct (loops_acc fuel (phaseOf a) mn Hf (Ha a Hin) Fmn Bmn) as (x & L1 & L2 & Fx & Bx & k & K).
    assert (Ed : df a = x) by (unfold df; rewrite L1; reflexivity). rewrite Ed. pose proof fpi_near as PN. unfold fpi in PN.
    split; [exact L1|]. split; [exact L2|]. split; [exact Fx|]. split; [lra|].
    apply (arc_near _ _ _ _ _ (k - j)%Z (Hd a Hin)); [lra|]. rewrite minus_IZR. unfold del.
    replace (B2R x - (B2R (phaseOf a) - m) - (IZR k - IZR j) * (2 * PI)) with ((B2R x - (B2R (phaseOf a) - B2R mn) - IZR k * (2 * PI)) - (B2R mn - m - IZR j * (2 * PI))) by ring.
    unfold Rminus at 1. eapply Rle_trans; [apply Rabs_triang|]. rewrite Rabs_Ropp. lra. }
  assert (P0 : 0 <= del) by (apply Rle_trans with (Rabs (B2R mn - m - IZR j * (2 * PI))); [apply Rabs_pos|unfold del; lra]).
  assert (SQ : forall a, In a agents -> is_finite (fmul (df a) (df a)) = true /\ Rabs (B2R (fmul (df a) (df a))) <= 10 /\ Rabs (B2R (fmul (df a) (df a)) - d a * d a) <= 63 / 10 * del + 11 * u53).
  { intros a Hin. destruct (HD a Hin) as (_ & _ & Fx & Bx & Ex). pose proof (is_arc_bounds _ _ _ (Hd a Hin)) as Bd. set (x := df a) in *.
    assert (XX : 0 <= B2R x * B2R x <= 987 / 100). { pose proof Bx as Q. apply Rabs_le_inv in Q. split; [nra|]. apply Rle_trans with (PI * PI); [nra|]. assert (PI <= 31416 / 10000) by lra. nra. }
    pose proof big1023 as BG. assert (P5 : 2 ^ 10 <= 2 ^ 500) by (apply Rle_pow; [lra|lia]).
    destruct (fmul_fin x x Fx Fx) as [Fm Vm]; [rewrite Rabs_pos_eq by lra; lra|]. pose proof (rnd_abs (B2R x * B2R x)) as RA. rewrite <- Vm, (Rabs_pos_eq (B2R x * B2R x)) in RA by lra.
    assert (RB : Rabs (B2R (fmul x x) - B2R x * B2R x) <= 10 * u53) by (assert (u53 * (B2R x * B2R x) <= u53 * (987 / 100)) by (apply Rmult_le_compat_l; lra); lra).
    split; [exact Fm|]. split; [apply Rabs_le_inv in RB; apply Rabs_le; lra|].
    replace (B2R (fmul x x) - d a * d a) with ((B2R (fmul x x) - B2R x * B2R x) + (Rabs (B2R x) - d a) * (Rabs (B2R x) + d a)).
    - eapply Rle_trans; [apply Rabs_triang|]. rewrite (Rabs_mult (_ - _)), (Rabs_pos_eq (Rabs (B2R x) + d a)) by (pose proof (Rabs_pos (B2R x)); lra).
      assert (Rabs (Rabs (B2R x) - d a) * (Rabs (B2R x) + d a) <= del * (63 / 10)) by (apply Rmult_le_compat; pose proof (Rabs_pos (B2R x)); try apply Rabs_pos; lra). lra.
    - assert (Q : Rabs (B2R x) * Rabs (B2R x) = B2R x * B2R x) by (rewrite <- Rabs_mult; apply Rabs_pos_eq; lra). lra. }
  destruct (ap_Z 0 ltac:(lia)) as [F0 V0].
  destruct (sum_accB (fun a => fmul (df a) (df a)) (fun a => d a * d a) (63 / 10 * del + 11 * u53) 10 agents ltac:(lra) ltac:(lia) SQ) with (a := fofZ 0) (k := 0%Z) (S := 0) (E := 0) as (Ft & Bt' & Et'); auto; try lia.
  { rewrite Rminus_0_r in V0. exact V0. }
  rewrite Z.add_0_l, mult_IZR in *. fold n in Bt', Et'. rewrite !Rplus_0_l in Et'. change (fold_right (fun x s => d x * d x + s) 0 agents) with (total (map (fun a => d a * d a) agents)) in Et' || idtac.
  assert (FR : fold_right (fun x s => d x * d x + s) 0 agents = rsum (fun a => d a * d a) agents) by (clear; induction agents as [|b l IH]; [reflexivity|cbn [fold_right rsum]; now rewrite IH]).
  rewrite FR in Et'. set (T := rsum (fun a => d a * d a) agents) in *. set (tt := fold_left _ agents (fofZ 0)) in *.
  destruct (fofZ_fin (Z.of_nat (length agents)) ltac:(lia)) as [Fn Vn]. fold n in Vn.
  assert (B1 : Rabs (B2R tt / n) <= 10).
  { unfold Rdiv. rewrite Rabs_mult, (Rabs_pos_eq (/ n)) by (left; apply Rinv_0_lt_compat; lra). apply Rmult_le_reg_r with n; [lra|]. rewrite Rmult_assoc, Rinv_l by lra. lra. }
  pose proof big1023 as BG. assert (P5 : 2 ^ 10 <= 2 ^ 500) by (apply Rle_pow; [lra|lia]).
  destruct (fdiv_fin tt (fofZ (Z.of_nat (length agents))) Ft Fn) as [Fv Vv]; [rewrite Vn; lra|rewrite Vn; lra|]. rewrite Vn in Vv.
  exists (fdiv tt (fofZ (Z.of_nat (length agents)))). split.
  { unfold MeasurePhaseVariance. destruct agents as [|a0 l0]; [contradiction|]. rewrite EMn. fold mn. rewrite (varLoop_fold fuel mn df) by (intros a Hin; destruct (HD a Hin) as (A & B & _); auto). reflexivity. }
  split; [exact Fv|]. rewrite Vv. pose proof (rnd_abs (B2R tt / n)) as RA.
  assert (D1 : Rabs (B2R tt / n - T / n) <= 63 / 10 * del + 11 * u53 + 20 * u53 * n).
  { replace (B2R tt / n - T / n) with ((B2R tt - T) * / n) by (field; lra). rewrite Rabs_mult, (Rabs_pos_eq (/ n)) by (left; apply Rinv_0_lt_compat; lra).
    apply Rmult_le_reg_r with n; [lra|]. rewrite Rmult_assoc, Rinv_l, Rmult_1_r by lra. eapply Rle_trans; [exact Et'|]. right. ring. }
  replace (rnd (B2R tt / n) - T / n) with ((rnd (B2R tt / n) - B2R tt / n) + (B2R tt / n - T / n)) by ring. eapply Rle_trans; [apply Rabs_triang|].
  assert (u53 * Rabs (B2R tt / n) <= u53 * 10) by (apply Rmult_le_compat_l; lra). replace ((n + 16) / 2 ^ 48) with ((n + 16) * (32 * u53)) by (unfold Rdiv; rewrite V48; reflexivity). unfold del in *.
  assert (0 <= 4 * E / rho + 4 * e) by (apply Rle_trans with (Rabs (B2R mn - m - IZR j * (2 * PI))); [apply Rabs_pos|exact MN]). set (q := 4 * E / rho) in *. assert (0 <= u53 * n) by (apply Rmult_le_pos; lra). lra.
Qed.
Print Assumptions C31_variance_float_accuracy.
End Ctx.

(** Two neighbors at 0 and 1 of an agent at 2, under correctly rounded functions: mean direction 1/2 and coherence cos(1/2). *)
Example C16_float_applies : let nb := [fofZ 0; fofZ 1] in
  trig_sane crTrig /\ trig_acc crTrig (/ 2 ^ 51) /\ 0 <= / 2 ^ 51 <= 1 / 16 /\ Forall in_turn nb /\ in_turn (fofZ 2) /\
  rsum cos (map B2R nb) = 2 * cos (/ 2) * cos (/ 2) /\ rsum sin (map B2R nb) = 2 * cos (/ 2) * sin (/ 2) /\ 4 * (/ 2 ^ 51 + (2 + 5) / 2 ^ 52) <= cos (/ 2).
Proof.
  intros nb. destruct (fofZ_fin 0) as [F0 V0]; [lia|]. destruct (fofZ_fin 1) as [F1 V1]; [lia|]. destruct (fofZ_fin 2) as [F2 V2]; [lia|].
  pose proof f2pi_near as P2. change f2pi with (fhalfpi 4) in P2. pose proof PI_bounds as PB. assert (P51 : / 2 ^ 51 < / 1000 /\ / 2 ^ 52 < / 1000 /\ 0 < / 2 ^ 51) by (rewrite !pow_Z; cbn; lra).
  assert (T : forall k, (k = 0 \/ k = 1 \/ k = 2)%Z -> in_turn (fofZ k)).
  { intros k Hk. destruct (fofZ_fin k) as [Fk Vk]; [lia|]. split; [exact Fk|]. rewrite Vk. destruct Hk as [->|[->| ->]]; lra. }
  assert (D : cos 1 = 2 * cos (/ 2) * cos (/ 2) - 1) by (rewrite <- cos_2a_cos; f_equal; lra).
  assert (D2 : sin 1 = 2 * sin (/ 2) * cos (/ 2)) by (rewrite <- sin_2a; f_equal; lra).
  assert (C : 1 / 2 <= cos (/ 2)). { pose proof (cos_near (/ 2) 0) as Q. rewrite cos_0 in Q. rewrite (Rabs_pos_eq (/ 2 - 0)) in Q by lra. apply Rabs_le_inv in Q. lra. }
  split; [apply cr_sane|]. split; [apply cr_acc|]. split; [lra|]. split; [constructor; [apply T; auto|constructor; [apply T; auto|constructor]]|]. split; [apply T; auto|].
  unfold nb. cbn [map rsum]. rewrite V0, V1, cos_0, sin_0. split; [lra|]. split; [lra|]. unfold Rdiv. lra.
Qed.

(** Two agents at 0 and 1: mean direction 1/2, coherence cos(1/2), both half a radian away from it. *)
Example C31_variance_float_applies : let agents := [P_Round.plainAgent (fofZ 0); P_Round.plainAgent (fofZ 1)] in
  trig_sane crTrig /\ trig_acc crTrig (/ 2 ^ 51) /\ 0 <= / 2 ^ 51 <= 1 / 16 /\ Forall (fun a => in_turn (phaseOf a)) agents /\
  rsum (fun a => cos (B2R (phaseOf a))) agents = 2 * cos (/ 2) * cos (/ 2) /\ rsum (fun a => sin (B2R (phaseOf a))) agents = 2 * cos (/ 2) * sin (/ 2) /\
  4 * (/ 2 ^ 51 + (2 + 1) / 2 ^ 52) <= cos (/ 2) /\ (forall a, In a agents -> is_arc (B2R (phaseOf a)) (/ 2) (/ 2)).
Proof.
  intros agents. assert (HP : forall p, phaseOf (P_Round.plainAgent p) = p) by reflexivity. destruct C16_float_applies as (A & B & C & D & _ & E1 & E2 & E3). inversion D as [|? ? D0 D']; inversion D' as [|? ? D1 D'']; subst.
  destruct (fofZ_fin 0) as [F0 V0]; [lia|]. destruct (fofZ_fin 1) as [F1 V1]; [lia|]. pose proof PI_bounds as PB.
  split; [exact A|]. split; [exact B|]. split; [exact C|]. split; [constructor; [now rewrite HP|constructor; [now rewrite HP|constructor]]|].
  cbn [agents rsum map] in *. rewrite !HP. split; [exact E1|]. split; [exact E2|]. split.
  { assert (0 < / 2 ^ 52) by (rewrite pow_Z; cbn; lra). unfold Rdiv in *. lra. }
  assert (AR : forall x, x = 0 \/ x = 1 -> is_arc x (/ 2) (/ 2)).
  { intros x Hx. split.
    - exists 0%Z. rewrite Rmult_0_l, Rplus_0_r. destruct Hx as [-> | ->]; [rewrite Rabs_left by lra|rewrite Rabs_pos_eq by lra]; lra.
    - intros k. destruct (Z_lt_le_dec k 0) as [K|K]; [|destruct (Z_lt_le_dec 0 k) as [K'|K']].
      + assert (IZR k <= -1) by (apply (IZR_le _ (-1)); lia). assert (IZR k * (2 * PI) <= -1 * 6) by nra. rewrite Rabs_left; destruct Hx; subst; lra.
      + assert (1 <= IZR k) by (apply (IZR_le 1); lia). assert (6 <= IZR k * (2 * PI)) by nra. rewrite Rabs_pos_eq; destruct Hx; subst; lra.
      + replace k with 0%Z by lia. rewrite Rmult_0_l, Rplus_0_r. destruct Hx as [-> | ->]; [rewrite Rabs_left by lra|rewrite Rabs_pos_eq by lra]; lra. }
  intros a [<-|[<-|[]]]; rewrite HP; apply AR; [left; exact V0|right; exact V1].
Qed.
