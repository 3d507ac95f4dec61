(** Property theorems C81: the texts of the panels and of the summaries. *)
From Coq Require Import ZArith Reals Psatz Bool List String Ascii Lia.
From Flocq Require Import Core.Core IEEE754.BinarySingleNaN.
Require Flocq.Prop.Mult_error.
From Verif Require Import Num F64 RealNum M_Core M_GoalConfig M_Batch M_Workload M_Display M_Snapshot M_Format M_MetricsText S_Format L_F64 L_F64x L_Ford L_Acc L_Format P_Format.
From Verif Require L_Display.
Import ListNotations.
Open Scope Z_scope.

Section WithTrig.
Variable tr : Trig.
#[local] Instance NF : Num F := FNum tr.

(** ** Tools *)
Lemma shown p y r e : is_finite y = true -> (Rabs (B2R y - r) <= e)%R -> exists k, readDec (fmtF p y) = Some (k, p) /\
  (Rabs (IZR k / IZR (10 ^ Z.of_nat p) - r) <= / 2 / IZR (10 ^ Z.of_nat p) + e)%R /\
  (forall lo hi, (IZR lo <= B2R y <= IZR hi)%R -> lo * 10 ^ Z.of_nat p <= k <= hi * 10 ^ Z.of_nat p).
Proof.
  intros FY E. assert (P : (0 < IZR (10 ^ Z.of_nat p))%R) by (apply IZR_lt, Z.pow_pos_nonneg; lia). exists (ZnearestE (B2R y * IZR (10 ^ Z.of_nat p))).
  split; [now apply fmtF_read|]. set (q := IZR (10 ^ Z.of_nat p)) in *. split.
  - assert (H := Znearest_half (fun z => negb (Z.even z)) (B2R y * q)). set (k := ZnearestE (B2R y * q)) in *.
    replace (IZR k / q - r)%R with ((IZR k - B2R y * q) / q + (B2R y - r))%R by (field; lra). eapply Rle_trans; [apply Rabs_triang|]. apply Rplus_le_compat; [|exact E].
    unfold Rdiv. rewrite Rabs_mult, (Rabs_pos_eq (/ q)) by (left; now apply Rinv_0_lt_compat). apply Rmult_le_compat_r; [left; now apply Rinv_0_lt_compat|]. now rewrite Rabs_minus_sym.
  - intros lo hi [L H]. split; [rewrite <- (Zrnd_IZR ZnearestE (lo * _))|rewrite <- (Zrnd_IZR ZnearestE (hi * _))]; apply (Zrnd_le ZnearestE); rewrite mult_IZR; fold q; apply Rmult_le_compat_r; lra.
Qed.
Lemma shown0 y r e : is_finite y = true -> (Rabs (B2R y - r) <= e)%R -> exists k, readDec (fmtF 0 y) = Some (k, 0%nat) /\
  (Rabs (IZR k - r) <= / 2 + e)%R /\ (forall lo hi, (IZR lo <= B2R y <= IZR hi)%R -> lo <= k <= hi).
Proof.
  intros FY E. destruct (shown 0 y r e FY E) as (k & R & D & L). exists k. split; [exact R|]. change (IZR (10 ^ Z.of_nat 0)) with 1%R in D. split.
  - replace (IZR k - r)%R with (IZR k / 1 - r)%R by field. lra.
  - intros lo hi H. specialize (L lo hi H). change (10 ^ Z.of_nat 0) with 1 in L. lia.
Qed.
Lemma fin_small (x y : R) : (0 <= x <= 2 ^ 60)%R -> (Rabs x <= bpow radix2 1023)%R.
Proof. intros [A B]. rewrite Rabs_pos_eq by exact A. assert (BG := big1023). assert ((2 ^ 60 <= 2 ^ 500)%R) by (apply Rle_pow; [lra|lia]). lra. Qed.
(** One operation whose exact result lies between two integers. *)
Lemma between x lo hi : 0 <= lo <= hi -> hi <= 2 ^ 53 -> (IZR lo <= x <= IZR hi)%R -> (IZR lo <= rnd x <= IZR hi)%R /\ (Rabs (rnd x - x) <= / 2 ^ 53 * IZR hi + / 2 ^ 60)%R.
Proof.
  intros H1 H2 H3. assert (L0 : (0 <= IZR lo)%R) by (apply IZR_le; lia). split; [split; [apply rnd_ge_fmt; [apply fmt_IZR; lia|lra]|apply rnd_le_fmt; [apply fmt_IZR; lia|lra]]|].
  eapply Rle_trans; [apply rnd_abs|]. rewrite Rabs_pos_eq by lra. assert (T := tiny_60). apply Rplus_le_compat; [|lra]. unfold u53. replace (/ 2 ^ 53)%R with (/ 9007199254740992)%R by lra. apply Rmult_le_compat_l; lra.
Qed.
Lemma p53 : (IZR (2 ^ 53) <= 2 ^ 60)%R. Proof. rewrite (pow_Z 60). apply IZR_le. vm_compute. discriminate. Qed.
(** (1 - c) * K. *)
Lemma aff_acc c K : is_finite c = true -> (0 <= B2R c <= 1)%R -> 1 <= K <= 1000 -> let y := fmul (fsub (fofZ 1) c) (fofZ K) in
  is_finite y = true /\ (0 <= B2R y <= IZR K)%R /\ (Rabs (B2R y - IZR K * (1 - B2R c)) <= / 2 ^ 40)%R.
Proof.
  intros FC B HK y. destruct (fofZ_fin 1 ltac:(lia)) as [F1 V1]. destruct (fofZ_fin K ltac:(lia)) as [FK VK]. assert (K1 : (1 <= IZR K <= 1000)%R) by (split; apply IZR_le; lia).
  destruct (fsub_fin (fofZ 1) c F1 FC) as [A E]; [apply fin_small; [exact 0%R|rewrite V1; split; [lra|]]; lra|]. rewrite V1 in E.
  destruct (between (1 - B2R c) 0 1 ltac:(lia) ltac:(lia) ltac:(lra)) as [B1 D1]. rewrite <- E in B1, D1. set (x := fsub (fofZ 1) c) in *.
  assert (M : (0 <= B2R x * IZR K <= IZR K)%R) by nra.
  destruct (fmul_fin x (fofZ K) A FK) as [A2 E2]; [rewrite VK; apply fin_small; [exact 0%R|]; split; [lra|]; assert (X := p53); lra|]. rewrite VK in E2. fold y in A2, E2.
  destruct (between (B2R x * IZR K) 0 K ltac:(lia) ltac:(lia) M) as [B2 D2]. rewrite <- E2 in B2, D2. split; [exact A2|]. split; [exact B2|].
  replace (B2R y - IZR K * (1 - B2R c))%R with ((B2R y - B2R x * IZR K) + IZR K * (B2R x - (1 - B2R c)))%R by ring. eapply Rle_trans; [apply Rabs_triang|].
  rewrite Rabs_mult, (Rabs_pos_eq (IZR K)) by lra. assert (IZR K * Rabs (B2R x - (1 - B2R c)) <= 1000 * (/ 2 ^ 53 * 1 + / 2 ^ 60))%R by (apply Rmult_le_compat; [lra|apply Rabs_pos|lra|exact D1]).
  assert (/ 2 ^ 53 * IZR K <= / 2 ^ 53 * 1000)%R by (apply Rmult_le_compat_l; lra). lra.
Qed.
(** k / n * 100. *)
Lemma frac_acc k n : 0 <= k <= n -> 0 < n <= 2 ^ 40 -> let y := fmul (fdiv (fofZ k) (fofZ n)) (fofZ 100) in
  is_finite y = true /\ (0 <= B2R y <= 100)%R /\ (Rabs (B2R y - 100 * (IZR k / IZR n)) <= / 2 ^ 44)%R.
Proof.
  intros Hk Hn y. destruct (fofZ_fin k ltac:(lia)) as [F1 V1]. destruct (fofZ_fin n ltac:(lia)) as [F2 V2]. destruct (fofZ_fin 100 ltac:(lia)) as [F3 V3].
  assert (N : (0 < IZR n)%R) by (apply IZR_lt; lia). assert (Q : (0 <= IZR k / IZR n <= 1)%R).
  { split; [apply Rmult_le_pos; [apply IZR_le; lia|left; now apply Rinv_0_lt_compat]|]. apply Rmult_le_reg_r with (IZR n); [exact N|]. unfold Rdiv. rewrite Rmult_assoc, Rinv_l, Rmult_1_r, Rmult_1_l by lra. apply IZR_le. lia. }
  destruct (fdiv_fin (fofZ k) (fofZ n) F1 F2) as [A E]; [rewrite V2; lra|rewrite V1, V2; apply fin_small; [exact 0%R|]; split; [lra|]; lra|]. rewrite V1, V2 in E.
  destruct (between _ 0 1 ltac:(lia) ltac:(lia) Q) as [B1 D1]. rewrite <- E in B1, D1. set (x := fdiv (fofZ k) (fofZ n)) in *.
  destruct (fmul_fin x (fofZ 100) A F3) as [A2 E2]; [rewrite V3; apply fin_small; [exact 0%R|]; split; lra|]. rewrite V3 in E2. fold y in A2, E2.
  destruct (between (B2R x * 100) 0 100 ltac:(lia) ltac:(lia) ltac:(lra)) as [B2 D2]. rewrite <- E2 in B2, D2. split; [exact A2|]. split; [exact B2|].
  replace (B2R y - 100 * (IZR k / IZR n))%R with ((B2R y - B2R x * 100) + 100 * (B2R x - IZR k / IZR n))%R by ring. eapply Rle_trans; [apply Rabs_triang|]. rewrite Rabs_mult, (Rabs_pos_eq 100) by lra. lra.
Qed.
Lemma count_le {X} (p : ASnap X -> bool) l : 0 <= count p l <= lenZ l.
Proof. exact (L_Display.count_range p l). Qed.

(** ** The goal panels.  [unit] coherences. *)
Definition unitC (s : DSnapshot F) : Prop := is_finite (d_coherence s) = true /\ (0 <= B2R (d_coherence s) <= 1)%R.
Definition line (l : list string) (before t after : string) : Prop := In (before ++ t ++ after)%string l.
Ltac inl := unfold line, metricsLines; apply in_or_app; right; unfold loadLines, consensusLines, latencyLines, energyLines, rhythmLines, failureLines, trafficLines; cbv zeta; cbn [In]; repeat first [left; reflexivity | right].

(** Load distribution: the spread is 100 (1 - coherence) percent to half a digit, the load of a server 100/n. *)
Theorem C81_spread : forall s now, unitC s -> exists t k, line (metricsLines DistributeLoad s now) "Phase Spread: " t "%" /\ readDec t = Some (k, 1%nat) /\
  0 <= k <= 1000 /\ (Rabs (IZR k / 10 - 100 * (1 - B2R (d_coherence s))) <= / 20 + / 2 ^ 40)%R.
Proof.
  intros s now [FC B]. destruct (aff_acc _ 100 FC B ltac:(lia)) as (A & M & E). destruct (shown 1 _ _ _ A E) as (k & R & D & L).
  exists (fmtF 1 (phaseSpread (d_coherence s))), k. split; [inl|]. split; [exact R|]. split; [apply (L 0 100 M)|]. change (IZR (10 ^ Z.of_nat 1)) with 10%R in D. lra.
Qed.
Theorem C81_load : forall s now, d_agents s <> [] -> lenZ (d_agents s) <= 2 ^ 40 -> exists t k, line (metricsLines DistributeLoad s now) "Load/Server: " t "%" /\ readDec t = Some (k, 1%nat) /\
  0 <= k <= 1000 /\ (Rabs (IZR k / 10 - 100 / IZR (lenZ (d_agents s))) <= / 20 + / 2 ^ 40)%R.
Proof.
  intros s now NE LE. assert (P : 0 < lenZ (d_agents s)) by (unfold lenZ; destruct (d_agents s); [congruence|cbn; lia]). set (n := lenZ (d_agents s)) in *.
  destruct (fofZ_fin n ltac:(lia)) as [F2 V2]. destruct (fofZ_fin 100 ltac:(lia)) as [F3 V3]. assert (N : (1 <= IZR n)%R) by (apply IZR_le; lia).
  assert (Q : (0 <= 100 / IZR n <= 100)%R).
  { split; [apply Rmult_le_pos; [lra|left; apply Rinv_0_lt_compat; lra]|]. apply Rmult_le_reg_r with (IZR n); [lra|]. unfold Rdiv. rewrite Rmult_assoc, Rinv_l by lra. lra. }
  destruct (fdiv_fin (fofZ 100) (fofZ n) F3 F2) as [A E]; [rewrite V2; lra|rewrite V2, V3; apply fin_small; [exact 0%R|]; split; lra|]. rewrite V2, V3 in E.
  destruct (between _ 0 100 ltac:(lia) ltac:(lia) Q) as [B1 D1]. rewrite <- E in B1, D1.
  destruct (shown 1 _ _ _ A D1) as (k & R & D & L). exists (fmtF 1 (loadPerAgent n)), k. split; [unfold n; inl|]. split; [exact R|]. split; [apply (L 0 100 B1)|]. change (IZR (10 ^ Z.of_nat 1)) with 10%R in D. lra.
Qed.
(** Consensus: two voting rounds each second, counted exactly for the first 48 days. *)
Theorem C81_rounds : forall s now, 0 <= d_elapsed s < 2 ^ 22 * 1000000000 -> line (metricsLines ReachConsensus s now) "Voting Rounds: " (dec (d_elapsed s / 500000000)) "".
Proof.
  intros s now H. set (d := d_elapsed s) in *. assert (E : votingRounds d = d / 500000000).
  { assert (H' : 0 <= d < 2 ^ 63) by lia. destruct (inU_fin 1000000000 ltac:(lia) d H' (fin_sec d H')) as [A _]. destruct (inU_acc 1000000000 ltac:(lia) d H' (fin_sec d H')) as [_ C].
    change (is_finite (Seconds d : F) = true) in A. match type of C with (Rabs (B2R ?z - _) <= _)%R => change z with (Seconds d : F) in C end. set (x := Seconds d : F) in *.
    set (k := d / 500000000). assert (K : 0 <= k) by (apply Z.div_pos; lia). assert (DM := Z.div_mod d 500000000 ltac:(lia)). assert (MB := Z.mod_pos_bound d 500000000 ltac:(lia)). fold k in DM.
    assert (K2 : k < 2 ^ 23) by lia.
    assert (LO : (IZR k / 2 <= B2R x)%R).
    { apply Rle_trans with (B2R (Seconds (500000000 * k) : F)); [|apply (inU_mono 1000000000 ltac:(lia) (500000000 * k) d); [lia|lia|now apply fin_sec]].
      right. symmetry. destruct (inU_fin 1000000000 ltac:(lia) (500000000 * k) ltac:(lia) ltac:(apply fin_sec; lia)) as [_ X]. etransitivity; [exact X|].
      assert (G : exists q b, 0 <= b <= 1 /\ k = 2 * q + b) by (exists (k / 2), (k mod 2); assert (Y := Z.div_mod k 2 ltac:(lia)); assert (Z2 := Z.mod_pos_bound k 2 ltac:(lia)); lia). destruct G as (q & b & Bb & Ek).
      assert (E1 : 500000000 * k / 1000000000 = q) by (symmetry; apply (Z.div_unique _ _ _ (500000000 * b)); lia). assert (E2 : 500000000 * k mod 1000000000 = 500000000 * b) by (symmetry; apply (Z.mod_unique _ _ q); lia).
      rewrite E1, E2, Ek. assert (HB : (IZR (500000000 * b) / 1000000000 = IZR b / 2)%R) by (rewrite mult_IZR; field). rewrite HB.
      assert (FH : forall z, Z.abs z <= 2 ^ 53 -> fmt (IZR z / 2)%R). { intros z Hz. replace (IZR z / 2)%R with (F2R (Float radix2 z (-1))); [apply fmt_F2R; lia|]. unfold F2R. cbn. lra. }
      rewrite (rnd_fmt (IZR b / 2)) by (apply FH; lia). replace (IZR q + IZR b / 2)%R with (IZR (2 * q + b) / 2)%R by (rewrite plus_IZR, mult_IZR; lra). apply rnd_fmt, FH. lia. }
    assert (HI : (B2R x < (IZR k + 1) / 2)%R).
    { assert (DD : (IZR d <= IZR k * 500000000 + 499999999)%R) by (rewrite <- mult_IZR, <- plus_IZR; apply IZR_le; lia). assert (DH : (IZR d <= 4194304 * 1000000000)%R) by (rewrite <- mult_IZR; apply IZR_le; lia).
      apply Rabs_le_inv in C. assert (/ 2 ^ 53 * (IZR d / 1000000000) <= / 2 ^ 53 * 4194304)%R by (apply Rmult_le_compat_l; lra). lra. }
    destruct (fofZ_fin 2 ltac:(lia)) as [F2 V2]. assert (KR : (0 <= IZR k <= 8388608)%R) by (split; apply IZR_le; lia).
    destruct (fmul_fin x (fofZ 2) A F2) as [A2 E2]; [rewrite V2; apply fin_small; [exact 0%R|]; split; lra|]. rewrite V2 in E2.
    assert (X2 : rnd (B2R x * 2) = (B2R x * 2)%R).
    { apply rnd_fmt. replace (B2R x * 2)%R with (B2R x * bpow radix2 1)%R by (simpl; lra). apply Mult_error.mult_bpow_pos_exact_FLT; [apply fmt_B2R|lia]. }
    unfold votingRounds. change (ntrunc (nmul x (nofZ 2))) with (ftrunc (fmul x (fofZ 2))).
    assert (TR : Ztrunc (B2R (fmul x (fofZ 2))) = k). { rewrite E2, X2. rewrite Ztrunc_floor by lra. apply Zfloor_imp. rewrite plus_IZR. lra. }
    assert (RG : - 2 ^ 63 <= Ztrunc (B2R (fmul x (fofZ 2))) < 2 ^ 63) by (rewrite TR; lia). exact (eq_trans (ftrunc_spec _ A2 RG) TR). }
  rewrite <- E. unfold line, metricsLines. apply in_or_app. right. right. right. left. unfold d. now rewrite app_nil.
Qed.
(** Latency: P50 is always 10.0; P95 lies between 10.0 and 30.0 and is 10 + 20 (1 - coherence); the jitter is half the difference. *)
Theorem C81_latency : forall s now, unitC s -> exists t95 k95 tj kj, line (metricsLines MinimizeLatency s now) "P50 Latency: " "10.0" "ms" /\
  line (metricsLines MinimizeLatency s now) "P95 Latency: " t95 "ms" /\ line (metricsLines MinimizeLatency s now) "Jitter: ±" tj "ms" /\
  readDec t95 = Some (k95, 1%nat) /\ readDec tj = Some (kj, 1%nat) /\ 100 <= k95 <= 300 /\ 0 <= kj <= 100 /\
  (Rabs (IZR k95 / 10 - (10 + 20 * (1 - B2R (d_coherence s)))) <= / 20 + / 2 ^ 38)%R /\ (Rabs (IZR kj / 10 - 10 * (1 - B2R (d_coherence s))) <= / 20 + / 2 ^ 38)%R.
Proof.
  intros s now [FC B]. destruct (aff_acc _ 20 FC B ltac:(lia)) as (A & M & E). set (j := fmul (fsub (fofZ 1) (d_coherence s)) (fofZ 20)) in *.
  destruct (fofZ_fin 10 ltac:(lia)) as [F1 V1]. destruct (fofZ_fin 2 ltac:(lia)) as [F2 V2].
  destruct (fadd_fin (fofZ 10) j F1 A) as [A5 E5]; [rewrite V1; apply fin_small; [exact 0%R|]; split; lra|]. rewrite V1 in E5.
  destruct (between (10 + B2R j) 10 30 ltac:(lia) ltac:(lia) ltac:(lra)) as [B5 D5]. rewrite <- E5 in B5, D5.
  destruct (fdiv_fin j (fofZ 2) A F2) as [A6 E6]; [rewrite V2; lra|rewrite V2; apply fin_small; [exact 0%R|]; split; lra|]. rewrite V2 in E6.
  destruct (between (B2R j / 2) 0 10 ltac:(lia) ltac:(lia) ltac:(lra)) as [B6 D6]. rewrite <- E6 in B6, D6.
  assert (X5 : (Rabs (B2R (fadd (fofZ 10) j) - (10 + 20 * (1 - B2R (d_coherence s)))) <= / 2 ^ 38)%R) by (apply Rabs_le; apply Rabs_le_inv in D5; apply Rabs_le_inv in E; lra).
  assert (X6 : (Rabs (B2R (fdiv j (fofZ 2)) - 10 * (1 - B2R (d_coherence s))) <= / 2 ^ 38)%R) by (apply Rabs_le; apply Rabs_le_inv in D6; apply Rabs_le_inv in E; lra).
  destruct (shown 1 _ _ _ A5 X5) as (k5 & R5 & S5 & L5). destruct (shown 1 _ _ _ A6 X6) as (k6 & R6 & S6 & L6).
  exists (fmtF 1 (fadd (fofZ 10) j)), k5, (fmtF 1 (fdiv j (fofZ 2))), k6. split; [|split; [inl|split; [inl|split; [exact R5|split; [exact R6|]]]]].
  - assert (Q : fmtF 1 (fofZ 10) = "10.0"%string) by (vm_compute; reflexivity). rewrite <- Q. inl.
  - change (IZR (10 ^ Z.of_nat 1)) with 10%R in *. split; [apply (L5 10 30 B5)|]. split; [apply (L6 0 10 B6)|]. lra.
Qed.
(** Energy: the share of quiet agents, and a battery estimate between 12 and 36 hours. *)
Theorem C81_energy : forall s now, d_agents s <> [] -> lenZ (d_agents s) <= 2 ^ 40 -> exists ti ki tb kb,
  line (metricsLines SaveEnergy s now) "Sensors Idle: " ti "%" /\ line (metricsLines SaveEnergy s now) "Est. Battery: " tb "h" /\
  readDec ti = Some (ki, 0%nat) /\ readDec tb = Some (kb, 0%nat) /\ 0 <= ki <= 100 /\ 12 <= kb <= 36 /\
  let share := (IZR (Z.of_nat (List.length (filter (fun a => (da_activity a =? "quiet")%string) (d_agents s)))) / IZR (lenZ (d_agents s)))%R in
  (Rabs (IZR ki - 100 * share) <= / 2 + / 2 ^ 40)%R /\ (Rabs (IZR kb - 24 * (share + / 2)) <= / 2 + / 2 ^ 40)%R.
Proof.
  intros s now NE LE. assert (P : 0 < lenZ (d_agents s)) by (unfold lenZ; destruct (d_agents s); [congruence|cbn; lia]).
  assert (CQ : count quiet (map asnap (d_agents s)) = Z.of_nat (List.length (filter (fun a => (da_activity a =? "quiet")%string) (d_agents s)))).
  { rewrite L_Display.count_filter. unfold quiet. f_equal. clear NE LE P. induction (d_agents s) as [|a l IH]; [reflexivity|]. cbn [map filter asnap an_act]. destruct (da_activity a =? "quiet")%string; cbn [List.length]; rewrite IH; reflexivity. }
  assert (CB := count_le quiet (map asnap (d_agents s))). assert (LM : lenZ (map asnap (d_agents s)) = lenZ (d_agents s)) by (unfold lenZ; now rewrite map_length). rewrite LM in CB.
  set (n := lenZ (d_agents s)) in *. set (q := count quiet (map asnap (d_agents s))) in *. destruct (frac_acc q n CB ltac:(lia)) as (A & M & E). set (y := fmul (fdiv (fofZ q) (fofZ n)) (fofZ 100)) in *.
  destruct (fofZ_fin 100 ltac:(lia)) as [F1 V1]. destruct (fofZ_fin 24 ltac:(lia)) as [F2 V2]. destruct (flit_fin 5 10 ltac:(lia) ltac:(lia)) as [F3 V3].
  destruct (fdiv_fin y (fofZ 100) A F1) as [A4 E4]; [rewrite V1; lra|rewrite V1; apply fin_small; [exact 0%R|]; split; lra|]. rewrite V1 in E4.
  destruct (between (B2R y / 100) 0 1 ltac:(lia) ltac:(lia) ltac:(lra)) as [B4 D4]. rewrite <- E4 in B4, D4. set (z := fdiv y (fofZ 100)) in *.
  assert (H5 : B2R (flit 5 10) = (/ 2)%R). { rewrite V3. rewrite rnd_fmt; [lra|]. replace (5 / 10)%R with (F2R (Float radix2 1 (-1))); [apply fmt_F2R; lia|]. unfold F2R. cbn. lra. }
  destruct (fadd_fin z (flit 5 10) A4 F3) as [A6 E6]; [rewrite H5; apply fin_small; [exact 0%R|]; split; lra|]. rewrite H5 in E6.
  assert (B6 : (/ 2 <= B2R (fadd z (flit 5 10)) <= 3 / 2)%R).
  { rewrite E6. assert (FH : forall w, Z.abs w <= 2 ^ 53 -> fmt (IZR w / 2)%R). { intros w Hw. replace (IZR w / 2)%R with (F2R (Float radix2 w (-1))); [apply fmt_F2R; lia|]. unfold F2R. cbn. lra. }
    split; [replace (/ 2)%R with (1 / 2)%R at 1 by lra; apply rnd_ge_fmt; [apply (FH 1); lia|lra]|apply rnd_le_fmt; [apply (FH 3); lia|lra]]. }
  assert (D6 : (Rabs (B2R (fadd z (flit 5 10)) - (B2R z + / 2)) <= / 2 ^ 52 + / 2 ^ 60)%R). { rewrite E6. destruct (between (B2R z + / 2) 0 2 ltac:(lia) ltac:(lia) ltac:(lra)) as [_ X]. lra. }
  set (w := fadd z (flit 5 10)) in *.
  destruct (fmul_fin (fofZ 24) w F2 A6) as [A7 E7]; [rewrite V2; apply fin_small; [exact 0%R|]; split; lra|]. rewrite V2 in E7.
  destruct (between (24 * B2R w) 12 36 ltac:(lia) ltac:(lia) ltac:(lra)) as [B7 D7]. rewrite <- E7 in B7, D7.
  set (sh := (IZR q / IZR n)%R) in *.
  assert (X7 : (Rabs (B2R (fmul (fofZ 24) w) - 24 * (sh + / 2)) <= / 2 ^ 40)%R) by (apply Rabs_le; apply Rabs_le_inv in D7; apply Rabs_le_inv in D6; apply Rabs_le_inv in D4; apply Rabs_le_inv in E; lra).
  destruct (shown0 _ _ _ A E) as (ki & Ri & Si & Li). destruct (shown0 _ _ _ A7 X7) as (kb & Rb & Sb & Lb).
  exists (fmtF 0 y), ki, (fmtF 0 (fmul (fofZ 24) w)), kb. split; [inl|]. split; [inl|]. split; [exact Ri|]. split; [exact Rb|].
  specialize (Li 0 100 M). specialize (Lb 12 36 B7). split; [lia|]. split; [lia|]. cbv zeta. rewrite <- CQ. fold sh. split; lra.
Qed.
(** Rhythm: the drift is 1000 (1 - coherence) milliseconds. *)
Theorem C81_drift : forall s now, unitC s -> exists t k, line (metricsLines MaintainRhythm s now) "Timing Drift: ±" t "ms" /\ readDec t = Some (k, 0%nat) /\
  0 <= k <= 1000 /\ (Rabs (IZR k - 1000 * (1 - B2R (d_coherence s))) <= / 2 + / 2 ^ 40)%R.
Proof.
  intros s now [FC B]. destruct (aff_acc _ 1000 FC B ltac:(lia)) as (A & M & E). destruct (shown0 _ _ _ A E) as (k & R & D & L).
  exists (fmtF 0 (drift (d_coherence s))), k. split; [inl|]. split; [exact R|]. specialize (L 0 1000 M). split; [lia|]. lra.
Qed.
(** Traffic: the busy agents out of all, as numbers and as a percentage. *)
Theorem C81_traffic : forall s now, d_agents s <> [] -> lenZ (d_agents s) <= 2 ^ 40 -> exists t k,
  let busy := Z.of_nat (List.length (filter (fun a => (da_activity a =? "burst")%string || (da_activity a =? "active")%string) (d_agents s))) in
  line (metricsLines AdaptToTraffic s now) "Current Load: " t "%" /\ readDec t = Some (k, 0%nat) /\ 0 <= k <= 100 /\
  (Rabs (IZR k - 100 * (IZR busy / IZR (lenZ (d_agents s)))) <= / 2 + / 2 ^ 44)%R /\
  line (metricsLines AdaptToTraffic s now) "Scaled Units: " (dec busy ++ "/" ++ dec (lenZ (d_agents s))) "" /\ busy <= lenZ (d_agents s).
Proof.
  intros s now NE LE. assert (P : 0 < lenZ (d_agents s)) by (unfold lenZ; destruct (d_agents s); [congruence|cbn; lia]).
  assert (CQ : busyCount (d_agents s) = Z.of_nat (List.length (filter (fun a => (da_activity a =? "burst")%string || (da_activity a =? "active")%string) (d_agents s)))).
  { unfold busyCount. rewrite L_Display.count_filter. unfold bursting. f_equal. clear NE LE P. induction (d_agents s) as [|a l IH]; [reflexivity|]. cbn [map filter asnap an_act]. destruct ((da_activity a =? "burst")%string || (da_activity a =? "active")%string); cbn [List.length]; rewrite IH; reflexivity. }
  assert (CB := count_le (fun a => bursting a || (an_act a =? "active")%string) (map asnap (d_agents s))). assert (LM : lenZ (map asnap (d_agents s)) = lenZ (d_agents s)) by (unfold lenZ; now rewrite map_length). rewrite LM in CB. fold (busyCount (d_agents s)) in CB.
  destruct (frac_acc (busyCount (d_agents s)) (lenZ (d_agents s)) CB ltac:(lia)) as (A & M & E). destruct (shown0 _ _ _ A E) as (k & R & D & L).
  exists (fmtF 0 (loadPercent (d_agents s))), k. cbv zeta. rewrite <- CQ. split; [inl|]. split; [exact R|]. specialize (L 0 100 M). split; [lia|]. split; [lra|]. split; [|lia].
  unfold line, metricsLines. apply in_or_app. right. right. right. left. now rewrite app_nil.
Qed.
(** With no agents the three shares are not numbers. *)
Theorem C81_no_agents_refuted : forall s now, d_agents s = [] -> line (metricsLines DistributeLoad s now) "Load/Server: " "+Inf" "%" /\
  line (metricsLines SaveEnergy s now) "Sensors Idle: " "NaN" "%" /\ line (metricsLines SaveEnergy s now) "Est. Battery: " "NaN" "h" /\ line (metricsLines AdaptToTraffic s now) "Current Load: " "NaN" "%".
Proof.
  intros s now H. unfold metricsLines, loadLines, energyLines, trafficLines, idlePercent, loadPercent, busyCount. rewrite H.
  assert (Q1 : fmtF 1 (loadPerAgent (lenZ (@nil (DAgent F)))) = "+Inf"%string) by (vm_compute; reflexivity). rewrite Q1.
  unfold line. split; [apply in_or_app; right; cbn [In]; tauto|]. split; [apply in_or_app; right; right; left; vm_compute; reflexivity|]. split; [apply in_or_app; right; right; right; left; vm_compute; reflexivity|].
  apply in_or_app; right; right; left; vm_compute; reflexivity.
Qed.
(** ** Words and colours *)
(** In every panel the word and the colour say the same: one word for each of green, yellow and red. *)
Definition wordOf (g : Goal) (c : Color) : string :=
  match g, c with
  | DistributeLoad, CGreen => "BALANCED" | DistributeLoad, CYellow => "FAIR" | DistributeLoad, _ => "IMBALANCED"
  | ReachConsensus, CGreen => "CONSENSUS!" | ReachConsensus, CYellow => "CONVERGING" | ReachConsensus, _ => "NO CONSENSUS"
  | MinimizeLatency, CGreen => "PREDICTABLE" | MinimizeLatency, CYellow => "FAIR" | MinimizeLatency, _ => "UNPREDICTABLE"
  | SaveEnergy, CGreen => "EFFICIENT" | SaveEnergy, CYellow => "MODERATE" | SaveEnergy, _ => "HIGH DRAIN"
  | MaintainRhythm, CGreen => "ON SCHEDULE" | MaintainRhythm, CYellow => "DRIFTING" | MaintainRhythm, _ => "OFF SCHEDULE"
  | RecoverFromFailure, CGreen => "RESILIENT" | RecoverFromFailure, CYellow => "PARTIAL" | RecoverFromFailure, _ => "VULNERABLE"
  | AdaptToTraffic, CGreen => "RESPONSIVE" | AdaptToTraffic, CYellow => "ADAPTING" | AdaptToTraffic, _ => "SLOW"
  | _, CGreen => "In sync!" | _, CYellow => "Syncing..." | _, _ => "Not synced"
  end%string.
Theorem C81_words : forall g s now, g <> RecoverFromFailure \/ d_disrupted s = false ->
  metricsWord g s now = wordOf g (metricsColor g (d_disrupted s) (d_coherence s) (map asnap (d_agents s))).
Proof.
  intros g s now H.
  assert (LM : lenZ (map asnap (d_agents s)) = lenZ (d_agents s)) by (unfold lenZ; now rewrite map_length).
  destruct g; cbn [metricsWord metricsColor]; unfold ladder, syncWord, distributionWord, consensusWord, latencyWord, energyWord, rhythmWord, failureWords, adaptWord, idlePercent, loadPercent, busyCount; rewrite ?LM;
    try (destruct H as [H|H]; [congruence|rewrite H]);
    repeat match goal with |- context [if ?b then _ else _] => destruct b end; reflexivity.
Qed.
(** The first lines say whether the simulation is paused, disrupted or resetting. *)
Theorem C81_flags : forall g s now, firstn 3 (metricsLines g s now) =
  [("Paused:    " ++ if d_paused s then "YES" else "NO")%string; ("Disrupted: " ++ if d_disrupted s then "YES" else "NO")%string; ("Resetting: " ++ if d_reset s then "YES" else "NO")%string].
Proof. intros g s now. reflexivity. Qed.
(** ** Recovery time *)
(** During a disruption the "recovery time" is the time since the last batch, whenever the disruption was. *)
Theorem C81_recovery : forall s now, d_disrupted s = true -> 0 <= now - d_lastTime s < 2 ^ 63 -> exists t k, line (metricsLines RecoverFromFailure s now) "Recovery Time: " t "s" /\
  readDec t = Some (k, 1%nat) /\ (Rabs (IZR k / 10 - IZR (now - d_lastTime s) / 1000000000) <= / 20 + / 2 ^ 19)%R.
Proof.
  intros s now DS H. assert (SE : since now (d_lastTime s) = now - d_lastTime s) by (unfold since; lia). set (d := now - d_lastTime s) in *.
  destruct (inU_fin 1000000000 ltac:(lia) d H (fin_sec d H)) as [A _]. destruct (inU_acc 1000000000 ltac:(lia) d H (fin_sec d H)) as [_ C].
  assert (DH : (0 <= IZR d <= 9223372036854775808)%R) by (split; apply IZR_le; lia).
  assert (C' : (Rabs (B2R (Seconds d : F) - IZR d / 1000000000) <= / 2 ^ 19)%R).
  { eapply Rle_trans; [exact C|]. assert (/ 2 ^ 53 * (IZR d / 1000000000) <= / 2 ^ 53 * 9223372037)%R by (apply Rmult_le_compat_l; lra). lra. }
  change (is_finite (Seconds d : F) = true) in A. destruct (shown 1 (Seconds d : F) _ _ A C') as (k & R & D & _). exists (fmtF 1 (Seconds d : F)), k. split; [|split; [exact R|]].
  - unfold line, metricsLines. apply in_or_app. right. right. right. left. unfold failureWords. rewrite DS, SE. reflexivity.
  - change (IZR (10 ^ Z.of_nat 1)) with 10%R in D. lra.
Qed.
(** So it is not the time since the disruption: 292 years when no batch was ever sent. *)
Theorem C81_recovery_refuted : forall s now, 0 <= now -> d_disrupted s = true -> d_lastTime s = zeroTime ->
  line (metricsLines RecoverFromFailure s now) "Recovery Time: " "9223372036.9" "s".
Proof.
  intros s now H DS LT. unfold line, metricsLines. apply in_or_app. right. right. right. left. unfold failureWords. rewrite DS, LT.
  assert (since now zeroTime = 2 ^ 63 - 1) as -> by (unfold since, zeroTime; lia). vm_compute. reflexivity.
Qed.
(** ** The texts printed during and after the simulation *)
(** Money is shown to the cent. *)
Theorem C81_costs : forall s, is_finite (d_without s) = true -> is_finite (d_with s) = true -> is_finite (d_savings s) = true -> exists a b c rest,
  costLines s = [("  $" ++ a ++ " (individual calls)")%string; ("  $" ++ b ++ " (batched calls)")%string; ("SAVINGS: $" ++ c ++ " (" ++ rest)%string] /\
  exists ka kb kc, readDec a = Some (ka, 2%nat) /\ readDec b = Some (kb, 2%nat) /\ readDec c = Some (kc, 2%nat) /\
  (Rabs (IZR ka / 100 - B2R (d_without s)) <= / 200)%R /\ (Rabs (IZR kb / 100 - B2R (d_with s)) <= / 200)%R /\ (Rabs (IZR kc / 100 - B2R (d_savings s)) <= / 200)%R.
Proof.
  intros s F1 F2 F3. exists (fmtF 2 (d_without s)), (fmtF 2 (d_with s)), (fmtF 2 (d_savings s)), (fmtF 1 (d_percent s) ++ "%)")%string. split; [reflexivity|].
  assert (G : forall x, is_finite x = true -> exists k, readDec (fmtF 2 x) = Some (k, 2%nat) /\ (Rabs (IZR k / 100 - B2R x) <= / 200)%R).
  { intros x FX. destruct (shown 2 x (B2R x) 0%R FX) as (k & R & D & _); [rewrite Rminus_diag_eq, Rabs_R0 by reflexivity; lra|]. exists k. split; [exact R|]. change (IZR (10 ^ Z.of_nat 2)) with 100%R in D. lra. }
  destruct (G _ F1) as (ka & A1 & A2). destruct (G _ F2) as (kb & B1 & B2). destruct (G _ F3) as (kc & C1 & C2). exists ka, kb, kc. auto 10.
Qed.
(** Both summaries show the same counts exactly and the same amounts to half a digit: money to the cent, sizes and
    percentages to a tenth. *)
Definition nearD (p : nat) (t : string) (r e : R) : Prop := exists k, readDec t = Some (k, p) /\ (Rabs (IZR k / IZR (10 ^ Z.of_nat p) - r) <= / 2 / IZR (10 ^ Z.of_nat p) + e)%R.
Lemma near_id p x : is_finite x = true -> nearD p (fmtF p x) (B2R x) 0.
Proof. intros FX. destruct (shown p x (B2R x) 0%R FX) as (k & R & D & _); [rewrite Rminus_diag_eq, Rabs_R0 by reflexivity; lra|]. exists k. auto. Qed.
Lemma near_pct p c : is_finite c = true -> (0 <= B2R c <= 1)%R -> nearD p (percentText p c) (100 * B2R c) (/ 2 ^ 40).
Proof.
  intros FC B. destruct (fofZ_fin 100 ltac:(lia)) as [F3 V3]. destruct (fmul_fin c (fofZ 100) FC F3) as [A2 E2]; [rewrite V3; apply fin_small; [exact 0%R|]; split; lra|]. rewrite V3 in E2.
  destruct (between (B2R c * 100) 0 100 ltac:(lia) ltac:(lia) ltac:(lra)) as [_ D2]. rewrite <- E2 in D2.
  destruct (shown p (fmul c (fofZ 100)) (100 * B2R c) (/ 2 ^ 40) A2) as (k & R & D & _); [|exists k; auto]. rewrite (Rmult_comm 100). lra.
Qed.
Theorem C81_summary : forall t, is_finite (dt_average t) = true -> is_finite (dt_savings t) = true -> is_finite (dt_percent t) = true -> is_finite (dt_peak t) = true -> (0 <= B2R (dt_peak t) <= 1)%R ->
  exists avg sav pct peak,
    textSummary t = [("Total API Calls (without sync): " ++ dec (dt_calls t))%string; ("Total Batches (with sync):       " ++ dec (dt_batches t))%string;
      ("Average Batch Size:              " ++ avg)%string; ("Total Savings:                   $" ++ sav ++ " (" ++ pct ++ "%)")%string;
      ("Peak Coherence:                  " ++ peak ++ "%")%string; "Agents successfully learned to batch API calls!"%string] /\
    termSummary t = [("Total Savings: $" ++ sav ++ " (" ++ pct ++ "%)")%string; "Agents successfully learned to batch API calls!"%string;
      ("API Calls (individual): " ++ dec (dt_calls t))%string; ("API Calls (batched):    " ++ dec (dt_batches t))%string;
      ("Average Batch Size:     " ++ avg)%string; ("Peak Coherence:         " ++ peak ++ "%")%string; ("Time to Converge:       " ++ formatDuration (dt_converge t))%string] /\
    nearD 1 avg (B2R (dt_average t)) 0 /\ nearD 2 sav (B2R (dt_savings t)) 0 /\ nearD 1 pct (B2R (dt_percent t)) 0 /\ nearD 1 peak (100 * B2R (dt_peak t)) (/ 2 ^ 40).
Proof.
  intros t F1 F2 F3 F4 B. exists (fmtF 1 (dt_average t)), (fmtF 2 (dt_savings t)), (fmtF 1 (dt_percent t)), (percentText 1 (dt_peak t)).
  split; [reflexivity|]. split; [reflexivity|]. split; [now apply near_id|]. split; [now apply near_id|]. split; [now apply near_id|]. now apply near_pct.
Qed.
(** The line of the text display. *)
Theorem C81_line : forall s, unitC s -> is_finite (d_savings s) = true -> is_finite (d_percent s) = true -> exists c sav pct,
  textLine s = ("[" ++ formatTime (d_elapsed s) ++ "] Coherence: " ++ c ++ "% | Savings: $" ++ sav ++ " (" ++ pct ++ "%) | Batches: " ++ dec (d_batches s))%string /\
  nearD 1 c (100 * B2R (d_coherence s)) (/ 2 ^ 40) /\ nearD 2 sav (B2R (d_savings s)) 0 /\ nearD 1 pct (B2R (d_percent s)) 0.
Proof.
  intros s [FC B] F1 F2. exists (percentText 1 (d_coherence s)), (fmtF 2 (d_savings s)), (fmtF 1 (d_percent s)). split; [reflexivity|].
  split; [now apply near_pct|]. split; now apply near_id.
Qed.
(** The panels that name the coherence show it to half a digit; the batching panel shows the counts of the snapshot. *)
Theorem C81_coherence : forall s now, unitC s -> exists c1 c0, nearD 1 c1 (100 * B2R (d_coherence s)) (/ 2 ^ 40) /\ nearD 0 c0 (100 * B2R (d_coherence s)) (/ 2 ^ 40) /\
  line (metricsLines ReachConsensus s now) "Agreement: " c1 "%" /\ line (metricsLines MaintainRhythm s now) "Phase Lock: " c1 "%" /\ line (metricsLines RecoverFromFailure s now) "Sync Health: " c1 "%" /\
  forall g, g = MinimizeAPICalls \/ g = OtherGoal -> line (metricsLines g s now) (metricsWord g s now ++ " ") c0 "%" /\ line (metricsLines g s now) "Sent: " (dec (d_batches s)) " batches" /\
    (0 < d_current s -> line (metricsLines g s now) "Collecting: " (dec (d_current s)) " tasks") /\ (d_current s <= 0 -> In "Waiting for tasks..."%string (metricsLines g s now)) /\
    (d_justSent s = true <-> line (metricsLines g s now) "BATCH SENT! (" (dec (d_lastSize s)) " items)").
Proof.
  intros s now [FC B]. exists (percentText 1 (d_coherence s)), (percentText 0 (d_coherence s)). split; [now apply near_pct|]. split; [now apply near_pct|]. split; [inl|]. split; [inl|]. split; [inl|].
  intros g Hg. assert (E : metricsLines g s now = commonStatus s ++ batchingLines s /\ metricsWord g s now = syncWord (d_coherence s)) by (destruct Hg as [->| ->]; auto). destruct E as [-> ->].
  unfold batchingLines, line. split; [apply in_or_app; right; left; now rewrite app_ass|]. split; [apply in_or_app; right; right; right; left; reflexivity|].
  split; [intros H; apply in_or_app; right; right; left; now rewrite (proj2 (Z.ltb_lt _ _) H)|]. split; [intros H; apply in_or_app; right; right; left; now rewrite (proj2 (Z.ltb_ge _ _) H)|].
  split; [intros ->; apply in_or_app; right; apply in_or_app; right; now left|]. intros H. destruct (d_justSent s); [reflexivity|exfalso]. cbn [app commonStatus In] in H. unfold syncWord in H.
  repeat destruct H as [H|H]; revert H; repeat match goal with |- context [if ?b then _ else _] => destruct b end; intros H; try discriminate H; exact H.
Qed.
(** Both summaries congratulate the agents whatever happened, also when not one call was made. *)
Theorem C81_success_refuted : forall t, In "Agents successfully learned to batch API calls!"%string (textSummary t) /\ In "Agents successfully learned to batch API calls!"%string (termSummary t) /\
  exists t0, dt_calls t0 = 0 /\ dt_batches t0 = 0 /\ dt_peak t0 = fofZ 0 /\ In "Agents successfully learned to batch API calls!"%string (textSummary t0) /\ In "Total API Calls (without sync): 0"%string (textSummary t0).
Proof.
  intros t. split; [cbn; auto 10|]. split; [cbn; auto 10|]. exists (mkDSt 0 0 (fofZ 0) (fofZ 0) (fofZ 0) (fofZ 0) (fofZ 0) (fofZ 0) (fofZ 0) 0). do 3 (split; [reflexivity|]). split; [cbn; auto 10|]. left. vm_compute. reflexivity.
Qed.
(** "Time to Converge" is zero for a swarm that never reached 0.7, as for one that started there. *)
Theorem C81_converge_refuted : forall t, dt_converge t = 0 -> In "Time to Converge:       0.0s"%string (termSummary t).
Proof. intros t H. unfold termSummary. rewrite H. do 6 right. left. vm_compute. reflexivity. Qed.
(** ** The list of agents *)
(** Cutting the names to eleven bytes keeps them apart for every goal but one. *)
Theorem C81_names : forall g, g <> DistributeLoad -> NoDup (map shortType (getWorkloadsForGoal g)).
Proof.
  intros g H. destruct g; try congruence; vm_compute; repeat (constructor; [cbn; intros Q; repeat destruct Q as [Q|Q]; (discriminate || contradiction)|]); constructor.
Qed.
Theorem C81_names_refuted : exists n m, In n (getWorkloadsForGoal DistributeLoad) /\ In m (getWorkloadsForGoal DistributeLoad) /\ n <> m /\ shortType n = shortType m.
Proof. exists "LoadBalancer1"%string, "LoadBalancer2"%string. cbn. split; [auto 10|]. split; [auto 10|]. split; [discriminate|reflexivity]. Qed.
(** ** The insight below the swarm panel (display.go:2282-2291). *)
Theorem C81_insight : forall c t : R, (insight c t = CGreen <-> (t <= c)%R) /\ (insight c t = CYellow <-> (c < t /\ t * (9 / 10) <= c)%R) /\ (insight c t = CRed <-> (c < t /\ c < t * (9 / 10))%R).
Proof.
  intros c t. unfold insight. cbn [nle nmul nlit RNum]. destruct (Rle_bool_spec t c) as [A|A]; [|destruct (Rle_bool_spec (t * (9 / 10)) c) as [B|B]]; repeat split; intros; try discriminate; try reflexivity; try lra.
Qed.
(** ** Example *)
Definition exSnap : DSnapshot F := mkDSn 0 90000000000
  [mkDA "agent-0" "TempSensor" (fofZ 1) 12 3 false "quiet"; mkDA "agent-1" "HumiditySensor" (fofZ 2) 4 1 true "burst"; mkDA "agent-2" "PowerMeter" (fofZ 2) 4 1 false "quiet"]
  (flit 85 100) (flit 9 10) 20 2 7 (flit 129 100) (flit 105 1000) (flit 1185 1000) (flit 918 10) false true false true 80000000000 41.
Example C81_example : unitC exSnap /\ d_agents exSnap <> [] /\
  metricsLines SaveEnergy exSnap 90000000000 = ["Paused:    NO"; "Disrupted: YES"; "Resetting: NO"; "Energy Use: MODERATE"; "Sensors Idle: 67%"; "Est. Battery: 28h"]%string /\
  skipn 3 (metricsLines RecoverFromFailure exSnap 92500000000) = ["Status: RECOVERING"; "Sync Health: 85.0%"; "Recovery Time: 12.5s"]%string /\
  skipn 3 (metricsLines ReachConsensus exSnap 0) = ["Status: CONVERGING"; "Agreement: 85.0%"; "Voting Rounds: 180"]%string /\
  skipn 3 (metricsLines MinimizeAPICalls exSnap 0) = ["Syncing... 85%"; "Collecting: 2 tasks"; "Sent: 7 batches"; "BATCH SENT! (41 items)"]%string /\
  textLine exSnap = "[02m] Coherence: 85.0% | Savings: $1.19 (91.8%) | Batches: 7"%string /\
  map agentLine (d_agents exSnap) = ["TempSensor    12!     3"; "HumiditySen    4     1"; "PowerMeter     4     1"]%string.
Proof.
  destruct (flit_fin 85 100 ltac:(lia) ltac:(lia)) as [F1 V1].
  split; [split; [exact F1|]; cbn [d_coherence exSnap]; rewrite V1; split; [apply rnd_ge_0; lra|apply rnd_le_fmt; [apply (fmt_IZR 1); lia|lra]]|]. split; [discriminate|].
  repeat split; vm_compute; reflexivity.
Qed.
End WithTrig.

Print Assumptions C81_spread.
Print Assumptions C81_load.
Print Assumptions C81_rounds.
Print Assumptions C81_latency.
Print Assumptions C81_energy.
Print Assumptions C81_drift.
Print Assumptions C81_traffic.
Print Assumptions C81_words.
Print Assumptions C81_recovery.
Print Assumptions C81_costs.
Print Assumptions C81_summary.
Print Assumptions C81_line.
Print Assumptions C81_coherence.
Print Assumptions C81_names.
Print Assumptions C81_insight.
