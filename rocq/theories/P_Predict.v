(** C86: the predicted time to convergence. *)
From Coq Require Import ZArith Reals Psatz Bool List Lia.
From Flocq Require Import Core.Core IEEE754.BinarySingleNaN.
From Verif Require Import Num F64 RealNum M_Core M_Monitor S_Circle S_Agent S_Monitor S_Acc L_F64 L_F64x L_Acc L_Regress L_Random P_Accuracy P_AccuracyMove P_Monitor P_AccuracyRate.
Import ListNotations.
Open Scope R_scope.

(** Calls Record(c) at the given times. *)
Definition records {T} (l : list (Z * T)) : list (CMOp T) := map (fun s => CMRec (fst s) (snd s)) l.

Lemma run_app {T} {N : Num T} (m : CM T) p q : cmRun m (p ++ q) = cmRun (cmRun m p) q.
Proof. apply fold_left_app. Qed.
Lemma run_snoc {T} {N : Num T} (m : CM T) l s : cmRun m (records (l ++ [s])) = CMRecord (cmRun m (records l)) (fst s) (snd s).
Proof. unfold records. rewrite map_app, run_app. reflexivity. Qed.
Lemma run_records {T} {N : Num T} (m : CM T) l : cm_hist (cmRun m (records l)) = cm_hist m ++ map snd l /\ cm_at (cmRun m (records l)) = cm_at m /\ cm_goal (cmRun m (records l)) = cm_goal m.
Proof.
  induction l as [|s l IH] using rev_ind; [cbn; rewrite app_nil_r; auto|]. rewrite !map_app, run_snoc. cbn [map]. destruct IH as (A & B & C).
  cbn [CMRecord cm_hist cm_at cm_goal]. rewrite A, B, C, <- app_assoc. auto.
Qed.
(** The convergence mark depends on the samples alone, up to its time. *)
Lemma conv_blind {T} {N : Num T} (g g' : State T) thr t0 t0' : forall l l', map snd l = map snd l' ->
  CMIsConverged (cmRun (NewConvergence g thr t0) (records l)) = CMIsConverged (cmRun (NewConvergence g' thr t0') (records l')).
Proof.
  induction l as [|s l IH] using rev_ind; intros l' E.
  - destruct l'; [reflexivity|discriminate].
  - destruct l' as [|s' l' _] using rev_ind; [rewrite map_app in E; destruct (map snd l); discriminate|]. rewrite !map_app in E. cbn [map] in E. apply app_inj_tail in E. destruct E as [E1 E2].
    specialize (IH l' E1). rewrite !run_snoc. unfold CMIsConverged in *. cbn [CMRecord cm_conv]. rewrite E2.
    destruct (run_records (NewConvergence g thr t0) l) as (_ & A1 & _). destruct (run_records (NewConvergence g' thr t0') l') as (_ & A2 & _). cbn [NewConvergence cm_at] in A1, A2. rewrite A1, A2.
    destruct (cm_conv (cmRun _ (records l))), (cm_conv (cmRun _ (records l'))); try discriminate; [destruct (nlt _ _)|destruct (nle _ _)]; reflexivity.
Qed.
(** The times of the samples do not matter: monitors that saw the same coherences predict the same. *)
Theorem C86_blind : forall T (N : Num T) (g g' : State T) thr t0 t0' l l', map snd l = map snd l' ->
  CMPredict (cmRun (NewConvergence g thr t0) (records l)) = CMPredict (cmRun (NewConvergence g' thr t0') (records l')).
Proof.
  intros T N g g' thr t0 t0' l l' E. pose proof (conv_blind g g' thr t0 t0' l l' E) as C. destruct (run_records (NewConvergence g thr t0) l) as (H1 & A1 & _). destruct (run_records (NewConvergence g' thr t0') l') as (H2 & A2 & _).
  cbn [NewConvergence cm_at cm_hist app] in *. unfold CMPredict, CMRate, CMCurrent. rewrite H1, H2, A1, A2, E. unfold CMIsConverged in C.
  destruct (cm_conv (cmRun (NewConvergence g thr t0) (records l))), (cm_conv (cmRun (NewConvergence g' thr t0') (records l'))); try discriminate; reflexivity.
Qed.

(** ** Exact arithmetic *)
Lemma predict_eq (m : CM R) : CMPredict m = if CMIsConverged m then 0%Z else if Rle_bool (CMRate m) 0 then 0%Z else if Rle_bool (cm_at m - CMCurrent m) 0 then 0%Z else Ztrunc ((cm_at m - CMCurrent m) / CMRate m * 100000000).
Proof. unfold CMPredict, CMIsConverged. destruct (cm_conv m); reflexivity. Qed.
Theorem C86_zero : forall m : CM R, CMIsConverged m = true \/ CMRate m <= 0 \/ cm_at m <= CMCurrent m -> CMPredict m = 0%Z.
Proof.
  intros m H. rewrite predict_eq. destruct (CMIsConverged m); [reflexivity|]. destruct (Rle_bool_spec (CMRate m) 0); [reflexivity|]. destruct (Rle_bool_spec (cm_at m - CMCurrent m) 0); [reflexivity|].
  destruct H as [H|[H|H]]; [discriminate|lra|lra].
Qed.
(** Otherwise it is how long the current coherence needs to reach the threshold at the measured rate per 100 ms, rounded
    down to whole nanoseconds. *)
Theorem C86_extrapolates : forall m : CM R, CMIsConverged m = false -> 0 < CMRate m -> CMCurrent m < cm_at m ->
  let P := CMPredict m in
  (0 <= P)%Z /\ CMCurrent m + CMRate m * (IZR P / 100000000) <= cm_at m < CMCurrent m + CMRate m * (IZR (P + 1) / 100000000).
Proof.
  intros m C R1 R2. cbv zeta. rewrite predict_eq, C, (Rle_bool_false (CMRate m) 0), (Rle_bool_false (cm_at m - CMCurrent m) 0) by lra.
  set (b := CMRate m) in *. set (d := cm_at m - CMCurrent m) in *. assert (Q : 0 < d / b) by (apply Rdiv_lt_0_compat; unfold d; lra).
  rewrite Ztrunc_floor by lra. set (x := d / b * 100000000). pose proof (Zfloor_lb x) as L. pose proof (Zfloor_ub x) as U. rewrite plus_IZR.
  assert (E : b * (x / 100000000) = d) by (unfold x; field; lra).
  split; [apply Zfloor_lub; unfold x; lra|]. replace (cm_at m) with (CMCurrent m + d) by (unfold d; ring).
  split; [apply Rplus_le_compat_l; rewrite <- E; apply Rmult_le_compat_l; lra|apply Rplus_lt_compat_l; rewrite <- E; apply Rmult_lt_compat_l; lra].
Qed.
Theorem C86_nonneg : forall m : CM R, (0 <= CMPredict m)%Z.
Proof.
  intros m. destruct (CMIsConverged m) eqn:C; [rewrite C86_zero by auto; lia|]. destruct (Rle_lt_dec (CMRate m) 0) as [A|A]; [rewrite C86_zero by auto; lia|].
  destruct (Rle_lt_dec (cm_at m) (CMCurrent m)) as [B|B]; [rewrite C86_zero by auto; lia|]. exact (proj1 (C86_extrapolates m C A B)).
Qed.
(** Samples taken every [d] ns from a line rising by [b] per sample. *)
Definition lineSamples (a b : R) (t0 d : Z) (n : nat) : list (Z * R) := map (fun k => ((t0 + d * Z.of_nat k)%Z, a + b * INR k)) (seq 0 n).
Lemma lineSamples_snd a b t0 d n : map snd (lineSamples a b t0 d n) = map (fun k => a + b * INR k) (seq 0 n).
Proof. unfold lineSamples. rewrite map_map. reflexivity. Qed.
Lemma last_below_not_converged (g : State R) thr t0 l s : snd s < thr -> CMIsConverged (cmRun (NewConvergence g thr t0) (records (l ++ [s]))) = false.
Proof.
  intros H. rewrite run_snoc. unfold CMIsConverged. cbn [CMRecord cm_conv].
  destruct (run_records (NewConvergence g thr t0) l) as (_ & A & _). cbn [NewConvergence cm_at] in A. rewrite A.
  destruct (cm_conv _).
  - change (nlt (snd s) thr) with (Rlt_bool (snd s) thr). now rewrite Rlt_bool_true.
  - change (nle thr (snd s)) with (Rle_bool thr (snd s)). now rewrite Rle_bool_false.
Qed.
(** Sampled every 100 ms, the line reaches the threshold within one nanosecond of the predicted time. *)
Theorem C86_line : forall (g : State R) thr a b t0 n, (2 <= n)%nat -> 0 < b -> a + b * INR (n - 1) < thr ->
  let m := cmRun (NewConvergence g thr t0) (records (lineSamples a b t0 100000000 n)) in
  let line t := a + b * (IZR (t - t0) / 100000000) in
  let now := (t0 + 100000000 * Z.of_nat (n - 1))%Z in
  (0 <= CMPredict m)%Z /\ line (now + CMPredict m)%Z <= thr < line (now + CMPredict m + 1)%Z.
Proof.
  intros g thr a b t0 n Hn Hb HT. cbv zeta. set (m := cmRun _ _). destruct (run_records (NewConvergence g thr t0) (lineSamples a b t0 100000000 n)) as (H1 & A1 & _). cbn [NewConvergence cm_hist cm_at app] in H1, A1. fold m in H1, A1. rewrite lineSamples_snd in H1.
  assert (RT : CMRate m = b) by (apply (C37_linear m a b n Hn H1)).
  assert (SQ : seq 0 n = seq 0 (n - 1) ++ [(n - 1)%nat]) by (replace n with (S (n - 1)) at 1 by lia; rewrite seq_S; reflexivity).
  assert (CU : CMCurrent m = a + b * INR (n - 1)). { unfold CMCurrent. rewrite H1, SQ, map_app. cbn [map]. apply last_last. }
  assert (NC : CMIsConverged m = false). { unfold m, lineSamples. rewrite SQ, map_app. cbn [map]. now apply last_below_not_converged. }
  destruct (C86_extrapolates m NC) as (P1 & P2 & P3); [lra|rewrite CU, A1; exact HT|]. split; [exact P1|]. rewrite RT, CU, A1 in *. rewrite INR_IZR_INZ in *. set (P := CMPredict m) in *. clearbody P.
  replace (t0 + 100000000 * Z.of_nat (n - 1) + P - t0)%Z with (100000000 * Z.of_nat (n - 1) + P)%Z by ring. replace (t0 + 100000000 * Z.of_nat (n - 1) + P + 1 - t0)%Z with (100000000 * Z.of_nat (n - 1) + (P + 1))%Z by ring.
  rewrite !(plus_IZR (100000000 * _)), !mult_IZR. set (k := IZR (Z.of_nat (n - 1))) in *.
  replace ((100000000 * k + IZR P) / 100000000) with (k + IZR P / 100000000) by field. replace ((100000000 * k + IZR (P + 1)) / 100000000) with (k + IZR (P + 1) / 100000000) by field. rewrite !Rmult_plus_distr_l. lra.
Qed.
Example line_applies : (2 <= 3)%nat /\ 0 < 1 / 10 /\ 1 / 10 + 1 / 10 * INR (3 - 1) < 9 / 10.
Proof. cbn. lra || (split; [lia|split; lra]). Qed.
(** REFUTED: "the predicted time is when the trend reaches the threshold".  Sampled once a second, a coherence rising by
    0.1 per second from 0 towards 1/2 is predicted after 0.3 s; it gets there after 3 s. *)
Theorem C86_interval_refuted : forall g : State R, let m := cmRun (NewConvergence g (1 / 2) 0) (records (lineSamples 0 (1 / 10) 0 1000000000 3)) in
  let line t := 1 / 10 * (IZR t / 1000000000) in
  CMPredict m = 300000000%Z /\ line (2000000000 + 3000000000)%Z = 1 / 2 /\ (forall t, (t <= 2000000000 + CMPredict m)%Z -> line t <= 1 / 2 - 27 / 100).
Proof.
  intros g m line. assert (E : CMPredict m = 300000000%Z).
  { unfold m. rewrite (C86_blind R RNum g g (1 / 2) 0 0 (lineSamples 0 (1 / 10) 0 1000000000 3) (lineSamples 0 (1 / 10) 0 100000000 3)) by now rewrite !lineSamples_snd.
    destruct (C86_line g (1 / 2) 0 (1 / 10) 0 3 ltac:(lia) ltac:(lra)) as (P1 & P2 & P3); [cbn; lra|]. set (P := CMPredict _) in *. clearbody P. change (0 + 100000000 * Z.of_nat (3 - 1))%Z with 200000000%Z in P2, P3.
    rewrite Z.sub_0_r in P2, P3. rewrite plus_IZR in P2. rewrite !plus_IZR in P3. assert (IZR P <= 300000000) by lra. assert (299999999 < IZR P) by lra. apply le_IZR in H. apply lt_IZR in H0. lia. }
  split; [exact E|]. split; [unfold line; rewrite <- plus_IZR || cbn; lra|]. rewrite E. intros t Ht. apply IZR_le in Ht. unfold line. cbn in Ht. lra.
Qed.

(** ** Floats *)
(** With a clear slope [b] of the last ten samples the prediction is the exact one up to a relative error of 2^-45/b + 2^-50
    and two nanoseconds. *)
Lemma predict_arith d b q r y1 y2 P : 0 < d <= 1 -> / 2 ^ 30 <= b -> Rabs (q - b) <= / 2 ^ 46 -> 0 < r -> Rabs (r - d) <= u53 * d + tiny ->
  Rabs (y1 - r / q) <= u53 * (r / q) + tiny -> Rabs (y2 - y1 * 100000000) <= u53 * (y1 * 100000000) + tiny -> P <= y2 < P + 1 ->
  Rabs (P - d / b * 100000000) <= d / b * 100000000 * (/ 2 ^ 45 / b + / 2 ^ 50) + 2 /\ y2 < 2 ^ 60.
Proof.
  intros Hd Hb Hq Hr E1 E2 E3 HP. pose proof u_pos as U. pose proof tiny_pos as TP. pose proof tiny_small as TS.
  assert (V46 : / 2 ^ 46 = 128 * u53) by (rewrite pow_Z; unfold u53; cbn; lra). assert (V45 : / 2 ^ 45 = 256 * u53) by (rewrite pow_Z; unfold u53; cbn; lra). assert (V50 : / 2 ^ 50 = 8 * u53) by (rewrite pow_Z; unfold u53; cbn; lra).
  assert (V30 : / 2 ^ 30 = 8388608 * u53) by (rewrite pow_Z; unfold u53; cbn; lra).
  assert (U30 : u53 <= / 1000000000000000) by (unfold u53; lra).
  assert (B30 : / 2 ^ 30 = / 1073741824) by (rewrite pow_Z; cbn; reflexivity).
  rewrite V46 in Hq. rewrite V45, V50. rewrite B30 in *. clear V45 V46 V50.
  set (de := 128 * u53 / b). assert (Pb : 0 < b) by lra. assert (Db : de * b = 128 * u53) by (unfold de; field; lra). assert (De : 0 < de <= / 65536).
  { split; [unfold de; apply Rdiv_lt_0_compat; lra|]. apply Rmult_le_reg_r with b; [lra|]. rewrite Db. lra. }
  set (D := d / b). assert (DD : D * b = d) by (unfold D; field; lra). assert (D0 : 0 < D) by (unfold D; apply Rdiv_lt_0_compat; lra).
  assert (D1 : D <= 1073741824). { apply Rmult_le_reg_r with b; [lra|]. rewrite DD. lra. }
  set (t := tiny / b). assert (Tb : t * b = tiny) by (unfold t; field; lra). assert (T0 : 0 < t) by (unfold t; apply Rdiv_lt_0_compat; lra).
  assert (TU : tiny <= u53 * / 1000000000000000000).
  { eapply Rle_trans; [exact TS|]. rewrite pow_Z. unfold u53. cbn [Z.of_nat Pos.of_succ_nat Pos.succ]. change (2 ^ 200)%Z with 1606938044258990275541962092341162602522202993782792835301376%Z. lra. }
  assert (T1 : t <= u53 / 10). { apply Rmult_le_reg_r with b; [lra|]. rewrite Tb. apply Rle_trans with (u53 / 10 * / 1073741824); [lra|apply Rmult_le_compat_l; lra]. }
  apply Rabs_le_inv in Hq. apply Rabs_le_inv in E1. assert (Pq : 0 < q) by lra.
  set (Y := r / q) in *. assert (YQ : Y * q = r) by (unfold Y; field; lra). assert (Y0 : 0 < Y) by (unfold Y; apply Rdiv_lt_0_compat; lra).
  assert (Yu : Y * (1 - de) <= D * (1 + u53) + t).
  { apply Rmult_le_reg_r with b; [lra|]. replace ((D * (1 + u53) + t) * b) with (D * b * (1 + u53) + t * b) by ring. rewrite DD, Tb. replace (Y * (1 - de) * b) with (Y * (b - de * b)) by ring. rewrite Db.
    apply Rle_trans with (Y * q); [apply Rmult_le_compat_l; lra|lra]. }
  assert (Yl : D * (1 - u53) - t <= Y * (1 + de)).
  { apply Rmult_le_reg_r with b; [lra|]. replace ((D * (1 - u53) - t) * b) with (D * b * (1 - u53) - t * b) by ring. rewrite DD, Tb. replace (Y * (1 + de) * b) with (Y * (b + de * b)) by ring. rewrite Db.
    apply Rle_trans with (Y * q); [lra|apply Rmult_le_compat_l; lra]. }
  assert (Ude : 0 <= u53 * de <= u53 / 100) by (split; [apply Rmult_le_pos; lra|replace (u53 / 100) with (u53 * (1 / 100)) by field; apply Rmult_le_compat_l; lra]).
  assert (De2 : 0 <= de * de <= de / 100) by (split; [apply Rmult_le_pos; lra|replace (de / 100) with (de * (1 / 100)) by field; apply Rmult_le_compat_l; lra]).
  assert (Tde : 0 <= t * de <= t / 100) by (split; [apply Rmult_le_pos; lra|replace (t / 100) with (t * (1 / 100)) by field; apply Rmult_le_compat_l; lra]).
  assert (YU : Y <= D * (1 + 3 / 2 * de + 2 * u53) + 2 * t).
  { apply Rmult_le_reg_r with (1 - de); [lra|]. eapply Rle_trans; [exact Yu|]. apply Rle_trans with (D * ((1 + 3 / 2 * de + 2 * u53) * (1 - de)) + 2 * t * (1 - de)); [|right; ring].
    apply Rplus_le_compat; [apply Rmult_le_compat_l; [lra|]|]; lra. }
  assert (YL : D * (1 - 3 / 2 * de - 2 * u53) - 2 * t <= Y).
  { apply Rmult_le_reg_r with (1 + de); [lra|]. eapply Rle_trans; [|exact Yl]. apply Rle_trans with (D * ((1 - 3 / 2 * de - 2 * u53) * (1 + de)) - 2 * t * (1 + de)); [right; ring|].
    apply Rplus_le_compat; [apply Rmult_le_compat_l; [lra|]|]; lra. }
  assert (Y2 : Y <= 2 * D + 1). { assert (D * (1 + 3 / 2 * de + 2 * u53) <= D * 2) by (apply Rmult_le_compat_l; lra). lra. }
  assert (UY : 0 <= u53 * Y <= u53 * (2 * D + 1)) by (split; [apply Rmult_le_pos; lra|apply Rmult_le_compat_l; lra]).
  apply Rabs_le_inv in E2. apply Rabs_le_inv in E3.
  assert (UD : 0 <= u53 * D) by (apply Rmult_le_pos; lra). assert (UD1 : u53 * D <= 1 / 1000) by (apply Rle_trans with (/ 1000000000000000 * 1073741824); [apply Rmult_le_compat; lra|lra]).
  assert (DdE : 0 <= D * de) by (apply Rmult_le_pos; lra).
  assert (S1 : y1 <= 2 * D + 2) by lra. assert (S1' : - 1 <= y1) by lra.
  assert (UY1 : - u53 <= u53 * y1 <= u53 * (2 * D + 2)) by (split; [replace (- u53) with (u53 * -1) by ring|]; apply Rmult_le_compat_l; lra).
  set (eps := D * (3 / 2 * de + 6 * u53) + 10 * u53). assert (eps = 3 / 2 * (D * de) + 6 * (u53 * D) + 10 * u53) by (unfold eps; ring).
  assert (Z1 : y1 <= D + (3 / 2 * (D * de) + 4 * (u53 * D) + 2 * u53)) by lra. assert (Z1' : D - (3 / 2 * (D * de) + 4 * (u53 * D) + 2 * u53) <= y1) by lra.
  assert (Z2 : y2 <= (D + eps) * 100000000) by lra. assert (Z2' : (D - eps) * 100000000 <= y2) by lra.
  assert (EQ : D * 100000000 * (256 * u53 / b + 8 * u53) = (2 * (D * de) + 8 * (u53 * D)) * 100000000). { unfold de. field. lra. }
  rewrite EQ. split; [apply Rabs_le; lra|].
  assert (P60 : 2 ^ 60 = 1152921504606846976) by (rewrite pow_Z; reflexivity). rewrite P60. assert (D * de <= D * 1) by (apply Rmult_le_compat_l; lra). lra.
Qed.
Lemma fle_fin x y : is_finite x = true -> is_finite y = true -> fle x y = Rle_bool (B2R x) (B2R y).
Proof. intros Hx Hy. unfold fle. now apply Bleb_correct. Qed.
Theorem C86_float : forall tr (m : CM F) b, CMIsConverged m = false -> Forall in_unit (cm_hist m) -> (2 <= List.length (cm_hist m))%nat -> in_unit (cm_at m) ->
  least_squares_slope (map B2R (lastn 10 (cm_hist m))) b -> / 2 ^ 30 <= b -> B2R (last (cm_hist m) (fofZ 0)) < B2R (cm_at m) ->
  let X := (B2R (cm_at m) - B2R (last (cm_hist m) (fofZ 0))) / b * 100000000 in
  (0 <= @CMPredict F (FNum tr) m)%Z /\ Rabs (IZR (@CMPredict F (FNum tr) m) - X) <= X * (/ 2 ^ 45 / b + / 2 ^ 50) + 2.
Proof.
  intros tr m b NC HU HL [FA BA] HB Hb HT X. destruct (C37_float_rate tr m b HU HL HB) as [FR ER].
  assert (CU : in_unit (last (cm_hist m) (fofZ 0))). { rewrite Forall_forall in HU. apply HU. destruct (cm_hist m) as [|x l]; [cbn in HL; lia|]. rewrite (app_removelast_last (fofZ 0) (l := x :: l)) at 2 by discriminate. apply in_or_app. right. now left. }
  unfold X. clear X. unfold CMPredict, CMCurrent. unfold CMIsConverged in NC. destruct (cm_conv m); [discriminate|].
  change (@nle F (FNum tr)) with fle. change (@nsub F (FNum tr)) with fsub. change (@ndiv F (FNum tr)) with fdiv. change (@nmul F (FNum tr)) with fmul. change (@nofZ F (FNum tr)) with fofZ. change (@n0 F (FNum tr)) with (fofZ 0). change (@ntrunc F (FNum tr)) with ftrunc.
  set (q := @CMRate F (FNum tr) m) in *. set (c := last (cm_hist m) (fofZ 0)) in *. set (th := cm_at m) in *. clearbody q c th. destruct CU as [FC BC]. set (d := B2R th - B2R c) in *.
  pose proof u_pos as U. pose proof tiny_pos as TP. pose proof tiny_small as TS. destruct (exZ_of 0 ltac:(lia)) as [F0 V0].
  assert (B30 : / 2 ^ 30 = / 1073741824) by (rewrite pow_Z; reflexivity). assert (B46 : / 2 ^ 46 = / 70368744177664) by (rewrite pow_Z; reflexivity).
  assert (Pq : / 2147483648 <= B2R q) by (apply Rabs_le_inv in ER; lra).
  assert (PB : 100000000000000000000 <= 2 ^ 500) by (apply Rle_trans with (2 ^ 70); [rewrite pow_Z; cbn; lra|apply Rle_pow; [lra|lia]]). pose proof big1023 as BG.
  destruct (fsub_fin th c FA FC) as [Fr Vr]; [fold d; apply Rabs_le; unfold d; lra|]. fold d in Vr.
  assert (Er : Rabs (B2R (fsub th c) - d) <= u53 * d + tiny) by (rewrite Vr; pose proof (rnd_abs d) as H; rewrite (Rabs_pos_eq d) in H by (unfold d; lra); exact H).
  rewrite fle_fin, V0, (Rle_bool_false (B2R q) 0) by (assumption || lra). rewrite fle_fin, V0 by assumption.
  assert (Hd : 0 < d <= 1) by (unfold d; lra).
  assert (X0 : 0 < d / b * 100000000) by (apply Rmult_lt_0_compat; [apply Rdiv_lt_0_compat; lra|lra]).
  assert (RH : 0 < / 2 ^ 45 / b + / 2 ^ 50). { assert (0 < / 2 ^ 45) by (apply Rinv_0_lt_compat, pow_lt; lra). assert (0 < / 2 ^ 50) by (apply Rinv_0_lt_compat, pow_lt; lra). assert (0 < / 2 ^ 45 / b) by (apply Rdiv_lt_0_compat; lra). lra. }
  destruct (Rle_bool_spec (B2R (fsub th c)) 0) as [Z|Z].
  - split; [lia|]. rewrite Rminus_0_l, Rabs_Ropp, Rabs_pos_eq by lra.
    assert (d <= 2 * tiny). { apply Rabs_le_inv in Er. assert (u53 * d <= 1 / 4 * d) by (apply Rmult_le_compat_r; [lra|unfold u53; lra]). lra. }
    assert (d / b * 100000000 <= 2). { apply Rmult_le_reg_r with b; [lra|]. replace (d / b * 100000000 * b) with (d * 100000000) by (field; lra). rewrite pow_Z in TS. cbn [Z.of_nat Pos.of_succ_nat Pos.succ] in TS. change (2 ^ 200)%Z with 1606938044258990275541962092341162602522202993782792835301376%Z in TS. lra. }
    assert (0 <= d / b * 100000000 * (/ 2 ^ 45 / b + / 2 ^ 50)) by (apply Rmult_le_pos; lra). lra.
  - set (r := fsub th c) in *. clearbody r.
    assert (U1 : u53 <= / 1000000000000000) by (unfold u53; lra). assert (T1 : tiny <= 1) by (eapply Rle_trans; [exact TS|]; rewrite <- Rinv_1; apply Rinv_le_contravar; [lra|]; apply pow_R1_Rle; lra).
    assert (R2 : B2R r <= 3). { apply Rabs_le_inv in Er. assert (u53 * d <= 1 * d) by (apply Rmult_le_compat_r; lra). lra. }
    assert (Q0 : 0 < B2R r / B2R q) by (apply Rdiv_lt_0_compat; lra). assert (Q1 : B2R r / B2R q <= 10000000000). { apply Rmult_le_reg_r with (B2R q); [lra|]. unfold Rdiv. rewrite Rmult_assoc, Rinv_l by lra. lra. }
    destruct (fdiv_fin r q Fr FR) as [F1 V1]; [lra|rewrite Rabs_pos_eq by lra; lra|].
    assert (E1 : Rabs (B2R (fdiv r q) - B2R r / B2R q) <= u53 * (B2R r / B2R q) + tiny) by (rewrite V1; pose proof (rnd_abs (B2R r / B2R q)) as H; rewrite (Rabs_pos_eq (B2R r / B2R q)) in H by lra; exact H).
    set (y1 := fdiv r q) in *. assert (y1p : 0 <= B2R y1) by (rewrite V1; apply rnd_ge_0; lra). clearbody y1.
    assert (y1b : B2R y1 <= 100000000000). { apply Rabs_le_inv in E1. assert (u53 * (B2R r / B2R q) <= 1 * (B2R r / B2R q)) by (apply Rmult_le_compat_r; lra). lra. }
    destruct (exZ_of 100000000 ltac:(lia)) as [F8 V8]. destruct (fmul_fin y1 (fofZ 100000000) F1 F8) as [F2 V2]; [rewrite V8, Rabs_pos_eq by (apply Rmult_le_pos; lra); lra|]. rewrite V8 in V2.
    assert (E2 : Rabs (B2R (fmul y1 (fofZ 100000000)) - B2R y1 * 100000000) <= u53 * (B2R y1 * 100000000) + tiny) by (rewrite V2; pose proof (rnd_abs (B2R y1 * 100000000)) as H; rewrite (Rabs_pos_eq (B2R y1 * 100000000)) in H by (apply Rmult_le_pos; lra); exact H).
    assert (y2p : 0 <= B2R (fmul y1 (fofZ 100000000))) by (rewrite V2; apply rnd_ge_0, Rmult_le_pos; lra). set (y2 := fmul y1 (fofZ 100000000)) in *. clearbody y2.
    destruct (predict_arith d b (B2R q) (B2R r) (B2R y1) (B2R y2) (IZR (Zfloor (B2R y2))) Hd Hb ER Z Er E1 E2) as [G1 G2]; [split; [apply Zfloor_lb|apply Zfloor_ub]|].
    assert (TZ : ftrunc y2 = Zfloor (B2R y2)).
    { rewrite <- Ztrunc_floor by exact y2p. apply ftrunc_spec; [exact F2|]. rewrite Ztrunc_floor by exact y2p. split; [apply Z.le_trans with 0%Z; [lia|apply Zfloor_lub; exact y2p]|].
      apply lt_IZR. eapply Rle_lt_trans; [apply Zfloor_lb|]. eapply Rlt_le_trans; [exact G2|]. rewrite pow_Z. apply IZR_le. cbn. lia. }
    rewrite TZ. split; [apply Zfloor_lub; exact y2p|exact G1].
Qed.
Lemma half_fin : is_finite (flit 1 2) = true /\ B2R (flit 1 2) = 1 / 2.
Proof. destruct (flit_fin 1 2 ltac:(lia) ltac:(lia)) as [A B]. split; [exact A|]. rewrite B. apply rnd_fmt. apply (fmt_dyadic 1 1); lia. Qed.
Definition halfway : CM F := mkCM [fofZ 0; flit 1 2] [0%Z; 100000000%Z] (mkState (fofZ 0) 1 (fofZ 0)) (fofZ 1) 0 None (flit 1 2) (fofZ 0).
Example float_applies : CMIsConverged halfway = false /\ Forall in_unit (cm_hist halfway) /\ (2 <= List.length (cm_hist halfway))%nat /\ in_unit (cm_at halfway) /\
  least_squares_slope (map B2R (lastn 10 (cm_hist halfway))) (1 / 2) /\ / 2 ^ 30 <= 1 / 2 /\ B2R (last (cm_hist halfway) (fofZ 0)) < B2R (cm_at halfway).
Proof.
  destruct (exZ_of 0 ltac:(lia)) as [F0 V0]. destruct (exZ_of 1 ltac:(lia)) as [F1 V1]. destruct half_fin as [F2 V2].
  split; [reflexivity|]. split; [repeat constructor; auto; rewrite ?V0, ?V2; lra|]. split; [cbn; lia|]. split; [split; [exact F1|cbn [cm_at halfway]; rewrite V1; lra]|].
  split; [|split; [rewrite pow_Z; cbn; lra|cbn [last cm_hist cm_at halfway]; rewrite V1, V2; lra]].
  exists 0. intros a' b'. cbn [halfway cm_hist lastn List.length Nat.sub skipn map]. rewrite V0, V2. cbn [sse].
  pose proof (Rle_0_sqr (0 - (a' + b' * 0))). pose proof (Rle_0_sqr (1 / 2 - (a' + b' * (0 + 1)))). unfold Rsqr in *. lra.
Qed.
(** REFUTED in floats: a stalled coherence (ten samples 0.1 below the threshold 0.9) is predicted with a negative time, the
    smallest int64, as the time overflows; the statistics then carry no prediction. *)
Theorem C86_stalled_refuted : forall tr, @CMPredict F (FNum tr) stalled = (- 2 ^ 63)%Z /\ cs_pred (@CMStatistics F (FNum tr) stalled) = None.
Proof.
  intros tr. assert (E : @CMPredict F (FNum tr) stalled = (- 2 ^ 63)%Z) by (vm_compute; reflexivity). split; [exact E|]. unfold CMStatistics. cbn [cs_pred]. rewrite E. reflexivity.
Qed.
Print Assumptions C86_blind.
Print Assumptions C86_line.
Print Assumptions C86_float.
Print Assumptions C86_interval_refuted.
Print Assumptions C86_stalled_refuted.
