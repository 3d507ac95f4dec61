(** Property theorems C33 (strategy switching). *)
From Coq Require Import ZArith Reals Psatz Bool List String Lia.
From Flocq Require Import Core.Core IEEE754.BinarySingleNaN.
From Verif Require Import Num F64 RealNum M_Core M_Agent M_Random M_GoalConfig M_Monitor M_Swarm M_Sync S_Sync
  L_F64 L_F64x L_Ford L_Random L_Swarm L_PhaseF P_Converge.
Import ListNotations.
Open Scope Z_scope.

(** Every registered strategy has an entry. *)
Definition complete (tbl : PerfTable) : Prop := forall s, In s strategyNames -> kvLoad tbl s <> None.
(** Its counters are sensible, and no entry was used in the future. *)
Definition entries_ok (now : Z) (tbl : PerfTable) : Prop := forall s p, kvLoad tbl s = Some p ->
  0 <= pf_successes p <= 2 ^ 53 /\ 0 <= pf_attempts p <= 2 ^ 53 /\ 0 <= sinceTime now (pf_last p) <= maxDuration.

Lemma kv_load_store {A} (m : list (string * A)) k v k' :
  kvLoad (kvStore m k v) k' = if String.eqb k k' then Some v else kvLoad m k'.
Proof.
  induction m as [|[k0 v0] m IH]; cbn [kvStore kvLoad].
  - reflexivity.
  - destruct (String.eqb_spec k0 k) as [->|D]; cbn [kvLoad].
    + destruct (String.eqb k k'); reflexivity.
    + rewrite IH. destruct (String.eqb_spec k0 k') as [->|]; [|reflexivity].
      destruct (String.eqb_spec k k'); congruence.
Qed.

Section Any.
Context {T : Type} {N : Num T}.

Lemma record_ok now tbl cur : complete tbl -> (forall i, cur = Some i -> (i < 5)%nat) ->
  exists tbl', recordFailure now tbl cur = Some tbl' /\ complete tbl'.
Proof.
  intros C H. destruct cur as [i|]; [|eexists; split; [reflexivity|auto]]. cbn [recordFailure]. specialize (H i eq_refl).
  destruct (nth_error strategyNames i) as [s|] eqn:E.
  2:{ apply nth_error_None in E. cbn in E. lia. }
  destruct (kvLoad tbl s) as [p|] eqn:L; [|exfalso; apply (C s); eauto using nth_error_In].
  eexists. split; [reflexivity|]. intros s' I. rewrite kv_load_store. destruct (String.eqb s s'); [discriminate|auto].
Qed.
Lemma select_total (cfg : GCfg T) now tbl dr : forall names i best, (forall s, In s names -> kvLoad tbl s <> None) ->
  (forall j, fst best = Some j -> (j < i)%nat) ->
  exists b, selectLoop cfg now tbl dr i names best = Some b /\ (forall j, fst b = Some j -> (j < i + List.length names)%nat).
Proof.
  induction names as [|s r IH]; intros i best C B; cbn [selectLoop List.length].
  - exists best. split; auto. intros j Hj. specialize (B j Hj). lia.
  - destruct (kvLoad tbl s) as [p|] eqn:L; [|exfalso; apply (C s); [now left|auto]].
    destruct (IH (S i) (if nlt (snd best) (score cfg now p (dr i)) then (Some i, score cfg now p (dr i)) else best)) as (b & E & J).
    + intros s' I. apply C. now right.
    + intros j. destruct (nlt _ _); cbn [fst]; [intros [= ->]; lia|intros Hj; specialize (B j Hj); lia].
    + exists b. split; auto. intros j Hj. specialize (J j Hj). lia.
Qed.

(** Switching never crashes: with a complete table (as the constructor makes it) and a current strategy that is nil or one of
    the five, the result is again such a state. *)
Theorem C33_never_crashes : forall (cfg : GCfg T) now dr tbl cur, complete tbl -> (forall i, cur = Some i -> (i < 5)%nat) ->
  exists tbl' cur', switchStrategy cfg now dr tbl cur = Some (tbl', cur') /\ complete tbl' /\ (forall i, cur' = Some i -> (i < 5)%nat).
Proof.
  intros cfg now dr tbl cur C H. destruct (record_ok now tbl cur C H) as (tbl' & E & C').
  unfold switchStrategy. rewrite E.
  destruct (select_total cfg now tbl' dr strategyNames 0 (None, nneg n1) C' ltac:(discriminate)) as (b & E2 & J).
  rewrite E2. exists tbl', (fst b). split; auto.
Qed.
Theorem C33_initial_complete : complete initPerf.
Proof. intros s. cbn. intuition; subst; discriminate. Qed.
End Any.

(** Success rate, plus the capped recency bonus, plus noise. *)
Theorem C33_score_real : forall (cfg : GCfg R) now p b, pf_attempts p > 0 -> gs_explore (g_str cfg) = 0%R ->
  score cfg now p b = (IZR (pf_successes p) / IZR (pf_attempts p) +
    Rmin (durSeconds (sinceTime now (pf_last p)) / durSeconds (gs_window (g_str cfg))) (gs_bonus (g_str cfg)))%R.
Proof.
  intros cfg now p b A E. unfold score. destruct (Z.ltb_spec 0 (pf_attempts p)); [|lia]. cbv zeta. rewrite E.
  cbn [nadd nmul nmin ndiv nofZ RNum]. rewrite Rmult_0_r. lra.
Qed.
Example C33_score_example : exists p, pf_attempts p > 0. Proof. exists (mkPerf 3 1 (Some 0)). reflexivity. Qed.

Lemma seconds_real z : (@durSeconds R RNum z = IZR z / 1000000000)%R.
Proof.
  unfold durSeconds. change (@nadd R RNum) with Rplus. change (@ndiv R RNum) with Rdiv. change (@nofZ R RNum) with IZR. rewrite (Z.quot_rem' z 1000000000) at 3. rewrite plus_IZR, mult_IZR. field.
Qed.
(** The score without reference to the model: a strategy used [age] ns ago gets age/window up to the cap; one that was
    never used gets the whole bonus, as the zero time is longer ago than any window of 290 years divided by the cap. *)
Theorem C33_bonus_used : forall (cfg : GCfg R) now t p b, pf_last p = Some t -> 0 < gs_window (g_str cfg) ->
  score cfg now p b = ((if (0 <? pf_attempts p)%Z then IZR (pf_successes p) / IZR (pf_attempts p) else 0) +
    Rmin (IZR (now - t) / IZR (gs_window (g_str cfg))) (gs_bonus (g_str cfg)) + Float64 b * gs_explore (g_str cfg))%R.
Proof.
  intros cfg now t p b L W. unfold score. cbv zeta. rewrite L. cbn [sinceTime]. rewrite !seconds_real. cbn [nadd nmul nmin ndiv nofZ n0 RNum]. apply IZR_lt in W.
  replace (IZR (now - t) / 1000000000 / (IZR (gs_window (g_str cfg)) / 1000000000))%R with (IZR (now - t) / IZR (gs_window (g_str cfg)))%R by (field; lra). reflexivity.
Qed.
Theorem C33_bonus_untried : forall (cfg : GCfg R) now p b, pf_last p = None -> 0 < gs_window (g_str cfg) -> (gs_bonus (g_str cfg) * IZR (gs_window (g_str cfg)) <= IZR (2 ^ 63 - 1))%R ->
  score cfg now p b = ((if (0 <? pf_attempts p)%Z then IZR (pf_successes p) / IZR (pf_attempts p) else 0) + gs_bonus (g_str cfg) + Float64 b * gs_explore (g_str cfg))%R.
Proof.
  intros cfg now p b L W B. unfold score. cbv zeta. rewrite L. cbn [sinceTime]. rewrite !seconds_real. unfold maxDuration. cbn [nadd nmul nmin ndiv nofZ n0 RNum]. apply IZR_lt in W.
  rewrite Rmin_right; [reflexivity|]. set (m := IZR (2 ^ 63 - 1)) in *. replace (m / 1000000000 / (IZR (gs_window (g_str cfg)) / 1000000000))%R with (m / IZR (gs_window (g_str cfg)))%R by (field; lra).
  apply Rmult_le_reg_r with (IZR (gs_window (g_str cfg))); [lra|]. unfold Rdiv. rewrite Rmult_assoc, Rinv_l by lra. lra.
Qed.
Example C33_bonus_applies : forall g, 0 < gs_window (g_str (@For R RNum g)) /\ (gs_bonus (g_str (@For R RNum g)) * IZR (gs_window (g_str (@For R RNum g))) <= IZR (2 ^ 63 - 1))%R.
Proof. intros g. destruct g; cbn; split; lia || lra. Qed.

Section Float.
Variable tr : Trig.
Local Instance NF : Num F := FNum tr.

Lemma dur_nonneg d : 0 <= d <= maxDuration -> is_finite (durSeconds d) = true /\ (0 <= B2R (durSeconds d))%R.
Proof.
  intros Hd. unfold durSeconds. change (@nofZ F NF) with fofZ. change (@nadd F NF) with fadd. change (@ndiv F NF) with fdiv.
  assert (HQ : 0 <= Z.quot d 1000000000 <= 2 ^ 53).
  { unfold maxDuration in Hd. rewrite Z.quot_div_nonneg by lia. split; [apply Z.div_pos; lia|]. apply Z.div_le_upper_bound; lia. }
  assert (HR : 0 <= Z.rem d 1000000000 < 1000000000) by (apply Z.rem_bound_pos; lia).
  destruct (fofZ_fin (Z.quot d 1000000000) ltac:(lia)) as [FQ VQ].
  destruct (fofZ_fin (Z.rem d 1000000000) ltac:(lia)) as [FR VR].
  destruct (fofZ_fin 1000000000 ltac:(lia)) as [FG VG].
  assert (RR : (0 <= IZR (Z.rem d 1000000000) <= 1000000000)%R) by (split; apply IZR_le; lia).
  assert (RQ : (0 <= IZR (Z.quot d 1000000000) <= IZR (2 ^ 53))%R) by (split; apply IZR_le; lia).
  assert (DB : (0 <= IZR (Z.rem d 1000000000) / 1000000000 <= 1)%R).
  { split; [apply Rle_div_r; lra|apply Rle_div_l; lra]. }
  pose proof (bpow1023_ge 54 ltac:(lia)) as B54. assert (E54 : (IZR (2 ^ 54) = 2 * IZR (2 ^ 53))%R) by (rewrite <- mult_IZR; reflexivity).
  assert (B1 : (1 <= IZR (2 ^ 53))%R) by (apply IZR_le; lia).
  destruct (fdiv_fin _ _ FR FG) as [FD VD]; [rewrite VG; lra|rewrite VR, VG; rewrite Rabs_pos_eq by lra; lra|].
  rewrite VR, VG in VD.
  assert (DV : (0 <= B2R (fdiv (fofZ (Z.rem d 1000000000)) (fofZ 1000000000)) <= 1)%R).
  { rewrite VD. split; [apply rnd_ge_0; lra|apply rnd_le_fmt; [apply (fmt_IZR 1); lia|lra]]. }
  destruct (fadd_fin _ _ FQ FD) as [FA VA]; [rewrite VQ; rewrite Rabs_pos_eq by lra; lra|].
  split; auto. rewrite VA, VQ. apply rnd_ge_0. lra.
Qed.
Lemma dur_pos d : 1 <= d <= maxDuration -> (0 < B2R (durSeconds d))%R.
Proof.
  intros Hd. destruct (dur_nonneg d ltac:(lia)) as [FD ND]. revert FD ND. unfold durSeconds.
  change (@nofZ F NF) with fofZ. change (@nadd F NF) with fadd. change (@ndiv F NF) with fdiv. intros FD ND.
  (* the sum is at least the smaller of 1 and 2^-30 *)
  assert (HQ : 0 <= Z.quot d 1000000000 <= 2 ^ 53).
  { unfold maxDuration in Hd. rewrite Z.quot_div_nonneg by lia. split; [apply Z.div_pos; lia|]. apply Z.div_le_upper_bound; lia. }
  assert (HR : 0 <= Z.rem d 1000000000 < 1000000000) by (apply Z.rem_bound_pos; lia).
  assert (HS : 1 <= Z.quot d 1000000000 \/ 1 <= Z.rem d 1000000000).
  { pose proof (Z.quot_rem d 1000000000 ltac:(lia)). lia. }
  destruct (fofZ_fin (Z.quot d 1000000000) ltac:(lia)) as [FQ VQ].
  destruct (fofZ_fin (Z.rem d 1000000000) ltac:(lia)) as [FR VR].
  destruct (fofZ_fin 1000000000 ltac:(lia)) as [FG VG].
  assert (RR : (0 <= IZR (Z.rem d 1000000000) <= 1000000000)%R) by (split; apply IZR_le; lia).
  assert (RQ : (0 <= IZR (Z.quot d 1000000000) <= IZR (2 ^ 53))%R) by (split; apply IZR_le; lia).
  assert (DB : (0 <= IZR (Z.rem d 1000000000) / 1000000000 <= 1)%R).
  { split; [apply Rle_div_r; lra|apply Rle_div_l; lra]. }
  pose proof (bpow1023_ge 54 ltac:(lia)) as B54. assert (E54 : (IZR (2 ^ 54) = 2 * IZR (2 ^ 53))%R) by (rewrite <- mult_IZR; reflexivity).
  assert (B1 : (1 <= IZR (2 ^ 53))%R) by (apply IZR_le; lia).
  destruct (fdiv_fin _ _ FR FG) as [FDV VD]; [rewrite VG; lra|rewrite VR, VG; rewrite Rabs_pos_eq by lra; lra|].
  rewrite VR, VG in VD.
  assert (DV : (0 <= B2R (fdiv (fofZ (Z.rem d 1000000000)) (fofZ 1000000000)) <= 1)%R).
  { rewrite VD. split; [apply rnd_ge_0; lra|apply rnd_le_fmt; [apply (fmt_IZR 1); lia|lra]]. }
  destruct (fadd_fin _ _ FQ FDV) as [FA VA]; [rewrite VQ; rewrite Rabs_pos_eq by lra; lra|].
  rewrite VA, VQ.
  assert (TP : (0 < bpow radix2 (-30))%R) by apply bpow_gt_0.
  assert (FM : fmt (bpow radix2 (-30))) by (rewrite <- F2R_bpow; apply fmt_F2R; lia).
  apply Rlt_le_trans with (bpow radix2 (-30)); auto. apply rnd_ge_fmt; auto.
  assert (T1 : (bpow radix2 (-30) <= 1)%R) by (apply (bpow_le radix2 (-30) 0); lia).
  destruct HS as [HS|HS].
  - apply IZR_le in HS. lra.
  - assert (bpow radix2 (-30) <= B2R (fdiv (fofZ (Z.rem d 1000000000)) (fofZ 1000000000)))%R; [|lra].
    rewrite VD. apply rnd_ge_fmt; auto. apply Rle_div_r; [lra|].
    apply IZR_le in HS. change (bpow radix2 (-30)) with (/ IZR (2 ^ 30))%R. 
    apply Rle_trans with 1%R; [|lra]. rewrite Rmult_comm. apply Rle_div_l; [apply (IZR_lt 0); lia|]. rewrite Rmult_1_l. apply IZR_le. lia.
Qed.

Definition sane_strategy (cfg : GCfg F) : Prop :=
  fle (fofZ 0) (gs_bonus (g_str cfg)) = true /\ is_finite (gs_explore (g_str cfg)) = true /\
  fle (fofZ 0) (gs_explore (g_str cfg)) = true /\ 1 <= gs_window (g_str cfg) <= maxDuration.

Lemma nonneg_fin x : is_finite x = true -> (0 <= B2R x)%R -> fle (fofZ 0) x = true.
Proof. intros A B. apply fle_true. rewrite ford_fofZ, ford_fin by (auto; lia). repeat split; auto using fin_nan. Qed.

Lemma score_nonneg cfg now p b : sane_strategy cfg ->
  0 <= pf_successes p <= 2 ^ 53 /\ 0 <= pf_attempts p <= 2 ^ 53 /\ 0 <= sinceTime now (pf_last p) <= maxDuration ->
  fle (fofZ 0) (score cfg now p b) = true.
Proof.
  intros (HB & FE & HE & HW) (HS & HA & HT). unfold score. cbv zeta.
  change (@nadd F NF) with fadd. change (@nmin F NF) with fmin. change (@nmul F NF) with fmul. change (@ndiv F NF) with fdiv.
  change (@nofZ F NF) with fofZ. change (@n0 F NF) with (fofZ 0).
  apply fadd_nonneg; [apply fadd_nonneg|].
  - destruct (Z.ltb_spec 0 (pf_attempts p)); [|vm_compute; reflexivity].
    destruct (fofZ_fin (pf_attempts p) ltac:(lia)) as [FA VA]. destruct (fofZ_fin (pf_successes p) ltac:(lia)) as [FS VS].
    apply fdiv_nonneg; auto; [apply nonneg_fin; auto; rewrite VS; apply IZR_le; lia|rewrite VA; apply (IZR_lt 0); lia].
  - destruct (dur_nonneg _ HT) as [F1 N1]. destruct (dur_nonneg (gs_window (g_str cfg)) ltac:(lia)) as [F2 _].
    pose proof (dur_pos _ HW) as P2.
    pose proof (fdiv_nonneg _ _ (nonneg_fin _ F1 N1) F2 P2) as D.
    apply fle_true in D, HB. destruct D as (_ & ND & D), HB as (_ & NB & HB).
    destruct (fmin_cases _ _ ND NB) as [NM EM]. apply fle_true. split; [reflexivity|]. split; auto. rewrite EM. now apply Rmin_glb.
  - destruct (Float64_unit tr b) as [FU BU]. 
    change (@Float64 F (FNum tr) b) with (@Float64 F NF b) in FU, BU. destruct (fmul_ord (Float64 b) (gs_explore (g_str cfg)) FU FE) as [NM PM].
    apply fle_true in HE. rewrite ford_fofZ, ford_fin in HE by (auto; lia). destruct HE as (_ & _ & HE).
    apply fle_true. rewrite ford_fofZ by lia. split; [reflexivity|]. split; [exact NM|]. eapply Rle_trans; [|apply Req_le; symmetry; exact PM]. apply sat_ge_0, rnd_ge_0. nra.
Qed.

Lemma select_max cfg now tbl dr : sane_strategy cfg -> entries_ok now tbl -> forall names i best b,
  (fst best = None -> flt (snd best) (fofZ 0) = true) -> fisnan (snd best) = false ->
  selectLoop cfg now tbl dr i names best = Some b -> (names <> [] \/ fst best <> None) ->
  fst b <> None /\ fle (snd best) (snd b) = true /\ (flt (snd best) (snd b) = true \/ b = best) /\
  (forall j s, nth_error names j = Some s -> exists p, kvLoad tbl s = Some p /\ fle (score cfg now p (dr (i + j)%nat)) (snd b) = true /\
     (fst b = Some (i + j)%nat -> b <> best -> feq (snd b) (score cfg now p (dr (i + j)%nat)) = true) /\
     (forall k, fst b = Some k -> b <> best -> (i + j < k)%nat -> flt (score cfg now p (dr (i + j)%nat)) (snd b) = true)) /\
  (b <> best -> exists k, fst b = Some k /\ (i <= k < i + List.length names)%nat).
Proof.
  intros SC EO. induction names as [|s r IH]; intros i best b B0 NB E NE; cbn [selectLoop] in E.
  - injection E as <-. split; [tauto|]. split; [now apply fle_refl|]. split; auto. split; [intros [|j] ?; discriminate|congruence].
  - destruct (kvLoad tbl s) as [p|] eqn:L; [|discriminate].
    pose proof (score_nonneg cfg now p (dr i) SC (EO _ _ L)) as SN. set (sc := score cfg now p (dr i)) in *.
    change (@nlt F NF) with flt in E.
    assert (NS : fisnan sc = false) by (apply fle_true in SN; tauto).
    destruct (flt (snd best) sc) eqn:LT.
    + apply IH in E; [|cbn [fst]; discriminate|auto|right; cbn; discriminate]. cbn [fst snd] in E.
      destruct E as (E1 & E2 & E3 & E4 & E5). split; auto. 
      assert (LB : flt (snd best) (snd b) = true) by (eapply L_Ford.flt_fle_trans; eauto).
      split; [now apply flt_le|]. split; [now left|]. split.
      * intros [|j] s' Hj; cbn [nth_error] in Hj.
        -- injection Hj as <-. exists p. rewrite Nat.add_0_r. fold sc. split; auto. split; auto. split.
           ++ intros Fb _. destruct E3 as [E3| ->].
              ** destruct (feq (snd b) sc) eqn:EQ; auto. exfalso.
                 assert (b <> (Some i, sc)) as NB2 by (intros ->; cbn [snd] in E3; rewrite (fle_not_lt _ _ (fle_refl _ NS)) in E3; discriminate).
                 destruct (E5 NB2) as (k & K & KR). rewrite K in Fb. injection Fb as ->. lia.
              ** cbn. apply feq_true. auto.
           ++ intros k Fb _ Hk. destruct E3 as [E3| ->]; auto. cbn in Fb. injection Fb as <-. lia.
        -- destruct (E4 j s' Hj) as (p' & Lp & S1 & S2 & S3). exists p'. replace (i + S j)%nat with (S i + j)%nat by lia.
           split; auto. split; auto. split.
           ++ intros Fb _. apply S2; auto. intros ->. cbn in Fb. injection Fb as Fb. lia.
           ++ intros k Fb _ Hk. apply (S3 k); auto. intros ->. cbn in Fb. injection Fb as <-. lia.
      * intros _. destruct E3 as [E3| ->].
        -- assert (b <> (Some i, sc)) as NB2 by (intros ->; cbn [snd] in E3; rewrite (fle_not_lt _ _ (fle_refl _ NS)) in E3; discriminate).
           destruct (E5 NB2) as (k & K & KR). exists k. split; auto. cbn [List.length]. lia.
        -- exists i. cbn [fst List.length]. split; auto. lia.
    + assert (NN : fst best <> None).
      { intros C. specialize (B0 C). pose proof (L_Ford.flt_fle_trans _ _ _ B0 SN). congruence. }
      apply IH in E; auto. destruct E as (E1 & E2 & E3 & E4 & E5). split; auto. split; auto. split; auto. split.
      * intros [|j] s' Hj; cbn [nth_error] in Hj.
        -- injection Hj as <-. exists p. rewrite Nat.add_0_r. fold sc. split; auto.
           assert (SB : fle sc (snd best) = true) by (apply not_lt_fle; auto).
           split; [eapply fle_trans; eauto|]. split.
           ++ intros Fb ND. destruct (E5 ND) as (k & K & KR). rewrite K in Fb. injection Fb as ->. lia.
           ++ intros k Fb ND Hk. destruct E3 as [E3|]; [|congruence]. eapply fle_flt_trans; eauto.
        -- destruct (E4 j s' Hj) as (p' & Lp & S1 & S2 & S3). exists p'. replace (i + S j)%nat with (S i + j)%nat by lia. auto.
      * intros ND. destruct (E5 ND) as (k & K & KR). exists k. cbn [List.length]. split; auto. lia.
Qed.

(** With a sane strategy configuration (non-negative bonus and noise, positive window) and sane statistics, one of the five
    registered strategies is selected; its score is maximal, and it is the first with that score. *)
Theorem C33_selects_maximal : forall cfg now dr tbl cur, sane_strategy cfg -> complete tbl -> (forall i, cur = Some i -> (i < 5)%nat) ->
  (forall tbl', recordFailure now tbl cur = Some tbl' -> entries_ok now tbl') ->
  exists tbl' i si pi, switchStrategy cfg now dr tbl cur = Some (tbl', Some i) /\ nth_error strategyNames i = Some si /\
    kvLoad tbl' si = Some pi /\ recordFailure now tbl cur = Some tbl' /\
    forall j sj, nth_error strategyNames j = Some sj -> exists pj, kvLoad tbl' sj = Some pj /\
      fle (score cfg now pj (dr j)) (score cfg now pi (dr i)) = true /\
      ((j < i)%nat -> flt (score cfg now pj (dr j)) (score cfg now pi (dr i)) = true).
Proof.
  intros cfg now dr tbl cur SC C H EO. destruct (record_ok now tbl cur C H) as (tbl' & E & C'). specialize (EO tbl' E).
  unfold switchStrategy. rewrite E.
  destruct (select_total cfg now tbl' dr strategyNames 0 (None, nneg n1) C' ltac:(discriminate)) as (b & E2 & J).
  rewrite E2. destruct (select_max cfg now tbl' dr SC EO strategyNames 0%nat (None, nneg n1) b) as (A1 & A2 & A3 & A4 & A5).
  { intros _. vm_compute. reflexivity. } { reflexivity. } { exact E2. } { left. discriminate. }
  assert (ND : b <> (None, nneg n1)) by (intros ->; now apply A1).
  destruct (A5 ND) as (k & K & KR). cbn [Nat.add] in *.
  destruct (nth_error strategyNames k) as [si|] eqn:NS; [|apply nth_error_None in NS; lia].
  destruct (A4 k si NS) as (pi & Lp & S1 & S2 & _). rewrite K in *. exists tbl', k, si, pi. split; auto. split; auto. split; auto. split; auto.
  specialize (S2 eq_refl ND). cbn [Nat.add] in *.
  assert (EB : fle (snd b) (score cfg now pi (dr k)) = true).
  { apply feq_true in S2. apply fle_true. intuition lra. }
  intros j sj Hj. destruct (A4 j sj Hj) as (pj & Lj & T1 & _ & T3). exists pj. split; auto. cbn [Nat.add] in *. split; [eapply fle_trans; eauto|].
  intros Hjk. specialize (T3 k eq_refl ND Hjk). eapply L_Ford.flt_fle_trans; eauto.
Qed.

(** Without exploration noise the score does not depend on the draw. *)
Theorem C33_no_noise : forall cfg now p b b', sane_strategy cfg -> gs_explore (g_str cfg) = fofZ 0 ->
  0 <= pf_successes p <= 2 ^ 53 /\ 0 <= pf_attempts p <= 2 ^ 53 /\ 0 <= sinceTime now (pf_last p) <= maxDuration ->
  feq (score cfg now p b) (score cfg now p b') = true.
Proof.
  intros cfg now p b b' SC E OK. pose proof (score_nonneg cfg now p b SC OK) as N1. pose proof (score_nonneg cfg now p b' SC OK) as N2.
  apply fle_true in N1, N2. destruct N1 as (_ & N1 & _), N2 as (_ & N2 & _).
  apply feq_true. split; auto. split; auto. revert N1 N2. unfold score. cbv zeta. rewrite E.
  change (@nadd F NF) with fadd. change (@nmul F NF) with fmul.
  match goal with |- context [fadd ?x (fmul (Float64 b) _)] => set (u := x) end. intros N1 N2.
  assert (Z : forall c, is_finite (fmul (Float64 c) (fofZ 0)) = true /\ B2R (fmul (Float64 c) (fofZ 0)) = 0%R).
  { intros c. destruct (Float64_unit tr c) as [FU BU]. change (@Float64 F (FNum tr) c) with (@Float64 F NF c) in FU, BU. destruct (fofZ_fin 0 ltac:(lia)) as [F0 V0].
    pose proof bpow1023_big. destruct (fmul_fin (Float64 c) (fofZ 0) FU F0) as [FM VM]; [rewrite V0, Rmult_0_r, Rabs_R0; lra|].
    split; auto. rewrite VM, V0, Rmult_0_r. apply rnd_0. }
  destruct (Z b) as [Fz Vz], (Z b') as [Fz' Vz'].
  destruct (fisnan u) eqn:NU.
  - destruct u; try discriminate; destruct (fmul (Float64 b) (fofZ 0)); discriminate N1.
  - destruct (not_nan_cases u NU) as [FU|[s ->]].
    + destruct (fadd_ord u _ FU Fz) as [_ ->]. destruct (fadd_ord u _ FU Fz') as [_ ->]. now rewrite Vz, Vz'.
    + destruct (fmul (Float64 b) (fofZ 0)); try discriminate Fz; destruct (fmul (Float64 b') (fofZ 0)); try discriminate Fz'; reflexivity.
Qed.

(** The default configuration and the eight presets are sane. *)
Theorem C33_presets_sane : forall g, sane_strategy (For g).
Proof. intros g. destruct g; (split; [vm_compute; reflexivity|split; [vm_compute; reflexivity|split; [vm_compute; reflexivity|vm_compute; split; discriminate]]]). Qed.
Theorem C33_default_sane : sane_strategy defaultConfig.
Proof. split; [vm_compute; reflexivity|split; [vm_compute; reflexivity|split; [vm_compute; reflexivity|vm_compute; split; discriminate]]]. Qed.

(** Any number of switches (fewer than 2^53) at non-decreasing times between 0 and the end of the clock, from the
    state the constructor makes, keeps the statistics sane; so every one of them selects a registered strategy. *)
Inductive switches (cfg : GCfg F) : Z -> Z -> PerfTable -> option nat -> Prop :=
| sw_init : switches cfg 0 0 initPerf (Some 0%nat)
| sw_step n t tbl cur now dr tbl' cur' : switches cfg n t tbl cur -> t <= now <= maxDuration ->
    switchStrategy cfg now dr tbl cur = Some (tbl', cur') -> switches cfg (n + 1) now tbl' cur'.
Lemma switches_inv cfg n t tbl cur : switches cfg n t tbl cur ->
  0 <= n /\ 0 <= t <= maxDuration /\ complete tbl /\ (forall i, cur = Some i -> (i < 5)%nat) /\
  forall s p, kvLoad tbl s = Some p -> pf_successes p = 0 /\ 0 <= pf_attempts p <= n /\
    match pf_last p with Some u => 0 <= u <= t | None => True end.
Proof.
  induction 1 as [|n t tbl cur now dr tbl' cur' H IH Ht E].
  - split; [lia|]. split; [unfold maxDuration; lia|]. split; [exact C33_initial_complete|]. split; [intros i [= <-]; lia|].
    intros s p. cbn. repeat match goal with |- context [if ?b then _ else _] => destruct b end; try discriminate; intros [= <-]; cbn; repeat split; lia.
  - destruct IH as (Hn & Ht0 & C & J & P).
    destruct (C33_never_crashes cfg now dr tbl cur C J) as (tbl2 & cur2 & E2 & C2 & J2). rewrite E in E2. injection E2 as <- <-.
    split; [lia|]. split; [lia|]. split; auto. split; auto.
    unfold switchStrategy in E. destruct (recordFailure now tbl cur) as [tb|] eqn:R; [|discriminate].
    destruct (selectLoop _ _ _ _ _ _ _) as [bb|]; [|discriminate]. injection E as E1 _. subst tb.
    destruct cur as [i|]; cbn [recordFailure] in R.
    + destruct (nth_error strategyNames i) as [si|]; [|discriminate]. destruct (kvLoad tbl si) as [pi|] eqn:L; [|discriminate].
      injection R as <-. intros s p. rewrite kv_load_store. destruct (String.eqb si s).
      * intros [= <-]. cbn. destruct (P _ _ L) as (A & B & D). lia.
      * intros Lp. destruct (P _ _ Lp) as (A & B & D). destruct (pf_last p); repeat split; try lia; auto.
    + injection R as <-. intros s p Lp. destruct (P _ _ Lp) as (A & B & D). destruct (pf_last p); repeat split; try lia; auto.
Qed.
Theorem C33_always_selects : forall cfg n t tbl cur now dr, sane_strategy cfg -> switches cfg n t tbl cur -> n + 1 < 2 ^ 53 ->
  t <= now <= maxDuration -> exists tbl' i, switchStrategy cfg now dr tbl cur = Some (tbl', Some i) /\ (i < 5)%nat.
Proof.
  intros cfg n t tbl cur now dr SC SW Hn Hnow. pose proof (switches_inv _ _ _ _ _ SW) as (N0 & Ht & C & J & P).
  destruct (C33_selects_maximal cfg now dr tbl cur SC C J) as (tbl' & i & si & pi & E & NI & _).
  { intros tbl' R.
    assert (SW' : forall s p, kvLoad tbl' s = Some p -> pf_successes p = 0 /\ 0 <= pf_attempts p <= n + 1 /\
       match pf_last p with Some u => 0 <= u <= now | None => True end).
    { destruct (C33_never_crashes cfg now dr tbl cur C J) as (tbl2 & cur2 & E2 & _).
      assert (tbl2 = tbl') as ->.
      { unfold switchStrategy in E2. fold NF in R. rewrite R in E2. destruct (selectLoop _ _ _ _ _ _ _); [|discriminate]. now injection E2. }
      pose proof (sw_step cfg n t tbl cur now dr tbl' cur2 SW Hnow E2) as SW2. apply switches_inv in SW2. tauto. }
    intros s p L. destruct (SW' s p L) as (A & B & D). rewrite A. split; [lia|]. split; [lia|].
    unfold sinceTime, maxDuration in *. destruct (pf_last p); lia. }
  exists tbl', i. split; auto. assert (nth_error strategyNames i <> None) by congruence. apply nth_error_Some in H. exact H.
Qed.
Example C33_switches_example : exists tbl cur, switches (@defaultConfig F NF) 1 5 tbl cur.
Proof.
  destruct (C33_never_crashes (@defaultConfig F NF) 5 (fun _ => 0) initPerf (Some 0%nat) C33_initial_complete) as (tbl & cur & E & _).
  { intros i [= <-]; lia. }
  exists tbl, cur. apply (sw_step _ 0 0 initPerf (Some 0%nat) 5 (fun _ => 0) tbl cur (sw_init _)); auto. unfold maxDuration. lia.
Qed.

(** REFUTED in general: a configuration that passes Validate but has a bonus of -2 makes the loop select no strategy. *)
Definition gloomyConfig : GCfg F :=
  let d := @defaultConfig F NF in
  mkGC (g_conv d) (g_thr d) (g_var d)
    (mkGStr (gs_iter (g_str d)) (gs_upd (g_str d)) (fofZ (-2)) (gs_window (g_str d)) (gs_explore (g_str d))) (g_res d).
Theorem C33_selects_refuted : exists cfg, ValidateG cfg = true /\
  exists tbl', switchStrategy cfg 1000000000 (fun _ => 0) initPerf (Some 0%nat) = Some (tbl', None).
Proof.
  exists gloomyConfig. split; [vm_compute; reflexivity|].
  destruct (C33_never_crashes gloomyConfig 1000000000 (fun _ => 0) initPerf (Some 0%nat) C33_initial_complete) as (tbl & cur & E & _).
  { intros i [= <-]; lia. }
  exists tbl. rewrite E. do 2 f_equal.
  assert (B : match switchStrategy gloomyConfig 1000000000 (fun _ => 0) initPerf (Some 0%nat) with Some (_, None) => true | _ => false end = true) by (vm_compute; reflexivity).
  rewrite E in B. destruct cur; [discriminate|reflexivity].
Qed.
(** Recording a success adds one to the successes of the current strategy and changes nothing else. *)
Theorem C33_success : forall tbl i s p, complete tbl -> nth_error strategyNames i = Some s -> kvLoad tbl s = Some p ->
  exists tbl' p', RecordSuccess tbl (Some i) = Some tbl' /\ kvLoad tbl' s = Some p' /\
    pf_successes p' = pf_successes p + 1 /\ pf_attempts p' = pf_attempts p /\ pf_last p' = pf_last p /\
    (forall s', s' <> s -> kvLoad tbl' s' = kvLoad tbl s') /\ complete tbl'.
Proof.
  intros tbl i s p HC Hs Hp. unfold RecordSuccess. rewrite Hs, Hp. eexists _, _. split; [reflexivity|].
  rewrite kv_load_store, String.eqb_refl. split; [reflexivity|]. split; [reflexivity|]. split; [reflexivity|]. split; [reflexivity|]. split.
  - intros s' D. rewrite kv_load_store. destruct (String.eqb_spec s s'); [congruence|reflexivity].
  - intros s' Hin. rewrite kv_load_store. destruct (String.eqb s s'); [discriminate|]. apply HC, Hin.
Qed.
(** Recording a failure adds one to the attempts, notes the time and changes nothing else. *)
Theorem C33_failure : forall now tbl i s p, nth_error strategyNames i = Some s -> kvLoad tbl s = Some p ->
  exists tbl' p', recordFailure now tbl (Some i) = Some tbl' /\ kvLoad tbl' s = Some p' /\
    pf_successes p' = pf_successes p /\ pf_attempts p' = pf_attempts p + 1 /\ pf_last p' = Some now /\
    (forall s', s' <> s -> kvLoad tbl' s' = kvLoad tbl s').
Proof.
  intros now tbl i s p Hs Hp. unfold recordFailure. rewrite Hs, Hp. eexists _, _. split; [reflexivity|].
  rewrite kv_load_store, String.eqb_refl. split; [reflexivity|]. split; [reflexivity|]. split; [reflexivity|]. split; [reflexivity|].
  intros s' D. rewrite kv_load_store. destruct (String.eqb_spec s s'); [congruence|reflexivity].
Qed.

(** Two of the five strategies have the same name, so they share one statistics entry. *)
Theorem C33_shared_entry : exists i j s, i <> j /\ nth_error strategyNames i = Some s /\ nth_error strategyNames j = Some s.
Proof. exists 0%nat, 1%nat, "phase_nudge"%string. repeat split. discriminate. Qed.
End Float.

Print Assumptions C33_never_crashes.
Print Assumptions C33_selects_maximal.
Print Assumptions C33_no_noise.
Print Assumptions C33_always_selects.
Print Assumptions C33_selects_refuted.
Print Assumptions C33_score_real.
Example C33_record_applies : exists p, complete initPerf /\ nth_error strategyNames 0 = Some (nth 0 strategyNames ""%string) /\
  kvLoad initPerf (nth 0 strategyNames ""%string) = Some p /\ pf_attempts p = 0.
Proof. eexists. split; [exact C33_initial_complete|]. split; [reflexivity|]. split; reflexivity. Qed.
Print Assumptions C33_success.
Print Assumptions C33_failure.
Print Assumptions C33_bonus_used.
Print Assumptions C33_bonus_untried.
