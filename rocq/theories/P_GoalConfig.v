(** C25: goal configuration presets, tuning and size adjustment (binary64). *)
From Coq Require Import ZArith Reals Psatz Bool List String Lia.
From Flocq Require Import Core.Core IEEE754.BinarySingleNaN.
From Verif Require Import Num F64 M_GoalConfig S_GoalConfig L_F64 L_F64x L_Ford.
Import ListNotations.
Open Scope Z_scope.

Lemma lit_fin n d : 0 < n <= 2 ^ 53 -> 0 < d <= 2 ^ 53 -> is_finite (flit n d) = true /\ B2R (flit n d) = rnd (IZR n / IZR d).
Proof. intros Hn Hd. apply flit_fin; lia. Qed.
Lemma lit_ge_half n d : 0 < n <= 2 ^ 53 -> 0 < d <= 2 ^ 53 -> d <= 2 * n -> (1 / 2 <= B2R (flit n d))%R.
Proof.
  intros Hn Hd H. destruct (lit_fin n d Hn Hd) as [_ ->]. apply rnd_ge_fmt.
  - replace (1 / 2)%R with (F2R (Float radix2 1 (-1))) by (unfold F2R; cbn; lra). apply fmt_F2R; lia.
  - apply Rmult_le_reg_r with (IZR d); [apply IZR_lt; lia|]. assert (0 < IZR d)%R by (apply IZR_lt; lia).
    replace (IZR n / IZR d * IZR d)%R with (IZR n) by (field; lra). apply IZR_le in H. rewrite mult_IZR in H. lra.
Qed.
Lemma lit_mono n d n' d' : 0 < n <= 2 ^ 53 -> 0 < d <= 2 ^ 53 -> 0 < n' <= 2 ^ 53 -> 0 < d' <= 2 ^ 53 -> n * d' <= n' * d ->
  (B2R (flit n d) <= B2R (flit n' d'))%R.
Proof.
  intros Hn Hd Hn' Hd' H. destruct (lit_fin n d Hn Hd) as [_ ->]. destruct (lit_fin n' d' Hn' Hd') as [_ ->].
  apply rnd_le. apply IZR_le in H. rewrite !mult_IZR in H.
  assert (0 < IZR d)%R by (apply IZR_lt; lia). assert (0 < IZR d')%R by (apply IZR_lt; lia).
  apply Rmult_le_reg_r with (IZR d * IZR d')%R; [apply Rmult_lt_0_compat; auto|].
  replace (IZR n / IZR d * (IZR d * IZR d'))%R with (IZR n * IZR d')%R by (field; lra).
  replace (IZR n' / IZR d' * (IZR d * IZR d'))%R with (IZR n' * IZR d)%R by (field; lra). exact H.
Qed.
Lemma lit_le n d k : 0 < n <= 2 ^ 53 -> 0 < d <= 2 ^ 53 -> 0 <= k <= 2 ^ 53 -> n <= k * d -> (B2R (flit n d) <= IZR k)%R.
Proof.
  intros Hn Hd Hk H. destruct (lit_fin n d Hn Hd) as [_ ->]. apply rnd_le_fmt; [apply fmt_IZR; lia|].
  assert (0 < IZR d)%R by (apply IZR_lt; lia).
  apply Rmult_le_reg_r with (IZR d); auto. replace (IZR n / IZR d * IZR d)%R with (IZR n) by (field; lra).
  apply IZR_le in H. now rewrite mult_IZR in H.
Qed.

Lemma scale_dur tr d c : 0 < d <= 2 ^ 53 -> is_finite c = true -> (1 / 2 <= B2R c <= 2)%R -> (1 <= IZR d * B2R c)%R ->
  1 <= @scaleDur F (FNum tr) d c <= 2 * d.
Proof.
  intros Hd Fc Hc H1. unfold scaleDur. cbn [ntrunc nmul nofZ FNum].
  destruct (fofZ_fin d ltac:(lia)) as [Fd Vd].
  assert (Hp : (0 <= IZR d * B2R c <= IZR (2 * d))%R).
  { rewrite mult_IZR. assert (0 < IZR d)%R by (apply IZR_lt; lia). nra. }
  assert (Hpow : (IZR (2 * d) <= bpow radix2 1023)%R) by (apply Rle_trans with (IZR (2 ^ 54)); [apply IZR_le; lia|apply bpow1023_ge; lia]).
  destruct (fmul_fin (fofZ d) c Fd Fc) as [Fm Vm].
  { rewrite Vd. rewrite Rabs_pos_eq by lra. lra. }
  rewrite Vd in Vm.
  assert (R1 : (1 <= B2R (fmul (fofZ d) c))%R) by (rewrite Vm; apply rnd_ge_fmt; [apply (fmt_IZR 1); lia|exact H1]).
  assert (R2 : (B2R (fmul (fofZ d) c) <= IZR (2 * d))%R).
  { rewrite Vm. apply rnd_le_fmt; [|lra]. rewrite mult_IZR.
    replace (2 * IZR d)%R with (F2R (Float radix2 d 1)) by (unfold F2R; cbn; lra). apply fmt_F2R; lia. }
  assert (T1 : 1 <= Ztrunc (B2R (fmul (fofZ d) c))) by (rewrite <- (Ztrunc_IZR 1); apply Ztrunc_le; exact R1).
  assert (T2 : Ztrunc (B2R (fmul (fofZ d) c)) <= 2 * d) by (rewrite <- (Ztrunc_IZR (2 * d)); apply Ztrunc_le; exact R2).
  rewrite ftrunc_spec; auto. lia.
Qed.

Section C25.
Variable tr : Trig.
Local Notation V := (@ValidateG F (FNum tr)).
Local Notation For_ := (@For F (FNum tr)).
Local Notation Tune := (@TuneFor F (FNum tr)).
Local Notation Size := (@WithSize F (FNum tr)).

Lemma out_unit x : fisnan x = false -> @outside01 F (FNum tr) x = false <-> unit01 x.
Proof.
  intros Nx. unfold outside01, unit01. change (@nlt F (FNum tr)) with flt.
  change (@n0 F (FNum tr)) with (fofZ 0). change (@n1 F (FNum tr)) with (fofZ 1).
  rewrite orb_false_iff. split; intros [A B]; split.
  - apply not_lt_fle; auto; apply fofZ_nan.
  - apply not_lt_fle; auto; apply fofZ_nan.
  - now apply fle_not_lt.
  - now apply fle_not_lt.
Qed.
Lemma if_ff (b : bool) : (if b then false else true) = negb b. Proof. now destruct b. Qed.
Lemma if_fx (b x : bool) : (if b then false else x) = (negb b && x)%bool. Proof. now destruct b. Qed.
Lemma nlt_le x y : fisnan x = false -> fisnan y = false -> flt y x = false <-> fle x y = true.
Proof. intros A B. split; [now apply not_lt_fle|apply fle_not_lt]. Qed.

(** Validate accepts exactly the valid configurations, as long as no checked field is NaN. *)
Theorem C25_validate_iff : forall c, gcfg_no_nan c -> (V c = true <-> gcfg_ok c).
Proof.
  intros c (N1 & N2 & N3 & N4 & N5 & N6 & N7 & N8 & N9 & N10).
  unfold ValidateG, validateConvergence, validateThresholds, validateVariation, validateStrategy, validateResonance.
  cbv zeta. rewrite !if_ff, !if_fx. rewrite !andb_true_iff, !negb_true_iff.
  rewrite !out_unit by auto. change (@nlt F (FNum tr)) with flt. change (@n0 F (FNum tr)) with (fofZ 0).
  rewrite !orb_false_iff, !Z.leb_gt. rewrite !nlt_le by (auto; apply fofZ_nan). split.
  - intros ((((A1 & A2) & A3) & A4) & A5). constructor; tauto.
  - intros []. repeat match goal with |- _ /\ _ => split end; auto. eapply fle_trans; eauto.
Qed.
(** ... and with NaN it accepts invalid ones. *)
Theorem C25_validate_nan_refuted : exists c, V c = true /\ ~ gcfg_ok c /\ fisnan (gv_scale (g_conv c)) = true.
Proof.
  exists (let c := @defaultConfig F (FNum tr) in let v := g_conv c in
    mkGC (mkGConv (gv_tolS v) (gv_tolM v) (gv_tolL v) (gv_goal v) (gv_dist v) fnan) (g_thr c) (g_var c) (g_str c) (g_res c)).
  split; [vm_compute; reflexivity|]. split; [|reflexivity]. intros [[K _] _ _ _ _ _ _ _ _ _ _]. discriminate K.
Qed.

Lemma ok_no_nan c : gcfg_ok c -> gcfg_no_nan c.
Proof.
  intros [[A1 A2] [B1 B2] C D E G [H1 H2] _ _ [J1 J2] [K1 K2]]. unfold gcfg_no_nan.
  repeat match goal with |- _ /\ _ => split end; eauto using fle_nan_l, fle_nan_r.
Qed.
Lemma ok_valid c : gcfg_ok c -> V c = true.
Proof. intros H. apply C25_validate_iff; auto. now apply ok_no_nan. Qed.

Definition okb (c : GCfg F) : bool :=
  let u x := (fle (fofZ 0) x && fle x (fofZ 1))%bool in
  (u (gv_scale (g_conv c)) && u (gv_goal (g_conv c)) && fle (gt_mod (g_thr c)) (gt_high (g_thr c))
   && fle (gt_high (g_thr c)) (gt_very (g_thr c)) && fle (fofZ 0) (ga_min (g_var c)) && fle (ga_min (g_var c)) (ga_max (g_var c))
   && u (ga_chance (g_var c)) && (0 <? gs_upd (g_str c)) && (0 <? gs_window (g_str c)) && u (gr_aff (g_res c)) && u (gr_act (g_res c)))%bool.
Lemma okb_ok c : okb c = true -> gcfg_ok c.
Proof.
  unfold okb. cbv zeta. rewrite !andb_true_iff, !Z.ltb_lt. intros H. constructor; unfold unit01; tauto.
Qed.

Lemma size_classes n (P : Z -> Prop) :
  (forall m, m <= 20 -> P m) -> (forall m, 20 < m <= 50 -> P m) -> (forall m, 50 < m <= 200 -> P m) ->
  (forall m, 200 < m <= 1000 -> P m) -> (forall m, 1000 < m -> P m) -> P n.
Proof. intros. destruct (Z_le_gt_dec n 20), (Z_le_gt_dec n 50), (Z_le_gt_dec n 200), (Z_le_gt_dec n 1000); auto with zarith. Qed.
Lemma size_rep n : exists m, In m [0; 30; 100; 500; 2000] /\ forall c, Size n c = Size m c.
Proof.
  apply (size_classes n); intros m Hm; [exists 0|exists 30|exists 100|exists 500|exists 2000];
    (split; [cbn; tauto|intros c; unfold WithSize;
      destruct (Z.leb_spec m 20), (Z.leb_spec m 50), (Z.leb_spec m 200), (Z.leb_spec m 1000); try lia; reflexivity]).
Qed.

(** Every preset, at every size, is valid. *)
Theorem C25_presets : forall g n, gcfg_ok (Size n (For_ g)) /\ V (Size n (For_ g)) = true.
Proof.
  intros g n. assert (K : gcfg_ok (Size n (For_ g))).
  { destruct (size_rep n) as (m & Hm & E). rewrite E. apply okb_ok. cbn [In] in Hm.
    decompose [or False] Hm; subst m; destruct g; vm_compute; reflexivity. }
  split; auto. now apply ok_valid.
Qed.

(** What the presets have in common: the larger the swarm, the stricter the tolerance; the levels of coherence are in order
    and enclose the goal; disturbances are smaller than walks, walks smaller than the variation. *)
Theorem C25_presets_ordered : forall g, let c := For_ g in
  flt (fofZ 0) (gv_tolL (g_conv c)) = true /\ flt (gv_tolL (g_conv c)) (gv_tolM (g_conv c)) = true /\ flt (gv_tolM (g_conv c)) (gv_tolS (g_conv c)) = true /\
  fle (gt_mod (g_thr c)) (gv_goal (g_conv c)) = true /\ fle (gv_goal (g_conv c)) (gt_very (g_thr c)) = true /\
  flt (gt_mod (g_thr c)) (gt_very (g_thr c)) = true /\ flt (ga_min (g_var c)) (ga_max (g_var c)) = true /\
  flt (ga_pert (g_var c)) (ga_walk (g_var c)) = true /\ fle (ga_walk (g_var c)) (ga_min (g_var c)) = true /\
  fle (gr_aff (g_res c)) (gr_act (g_res c)) = true /\ fle (gr_aff (g_res c)) (ga_walk (g_var c)) = true /\
  fle (gr_noise (g_res c)) (gt_var (g_thr c)) = true /\ fle (gs_explore (g_str c)) (gs_bonus (g_str c)) = true.
Proof. intros g. destruct g; vm_compute; repeat split; reflexivity. Qed.
(** What sets them apart: latency is watched most often and pushed hardest, saving energy least often and most gently;
    spreading load asks for the least agreement and consensus for the most; consensus is the strictest and quietest goal,
    adapting to traffic the loosest and noisiest; recovering tries longest. *)
Theorem C25_presets_apart : forall g,
  (gs_upd (g_str (For_ MinimizeLatency)) <= gs_upd (g_str (For_ g)) <= gs_upd (g_str (For_ SaveEnergy))) /\
  (gs_window (g_str (For_ MinimizeLatency)) <= gs_window (g_str (For_ g)) <= gs_window (g_str (For_ SaveEnergy))) /\
  (let between f lo hi := fle (f (For_ lo)) (f (For_ g)) = true /\ fle (f (For_ g)) (f (For_ hi)) = true in
   between (fun c => gv_scale (g_conv c)) SaveEnergy MinimizeLatency /\
   between (fun c => gv_goal (g_conv c)) DistributeLoad ReachConsensus /\ between (fun c => gt_high (g_thr c)) DistributeLoad ReachConsensus /\
   between (fun c => gt_very (g_thr c)) DistributeLoad ReachConsensus /\ between (fun c => gt_mod (g_thr c)) DistributeLoad ReachConsensus /\
   between (fun c => gv_tolS (g_conv c)) ReachConsensus AdaptToTraffic /\ between (fun c => gv_tolM (g_conv c)) ReachConsensus AdaptToTraffic /\
   between (fun c => gv_tolL (g_conv c)) ReachConsensus AdaptToTraffic /\ between (fun c => gv_dist (g_conv c)) ReachConsensus AdaptToTraffic /\
   between (fun c => gt_var (g_thr c)) ReachConsensus AdaptToTraffic /\ between (fun c => ga_max (g_var c)) ReachConsensus AdaptToTraffic /\
   between (fun c => ga_min (g_var c)) ReachConsensus AdaptToTraffic /\ between (fun c => ga_coh (g_var c)) ReachConsensus AdaptToTraffic /\
   between (fun c => ga_walk (g_var c)) ReachConsensus AdaptToTraffic /\ between (fun c => ga_pert (g_var c)) ReachConsensus AdaptToTraffic /\
   between (fun c => ga_chance (g_var c)) ReachConsensus AdaptToTraffic /\ between (fun c => gr_noise (g_res c)) ReachConsensus AdaptToTraffic /\
   between (fun c => gr_aff (g_res c)) ReachConsensus AdaptToTraffic /\ between (fun c => gr_act (g_res c)) ReachConsensus AdaptToTraffic /\
   between (fun c => gs_bonus (g_str c)) SaveEnergy AdaptToTraffic /\ between (fun c => gs_explore (g_str c)) SaveEnergy AdaptToTraffic /\
   between (fun c => gs_iter (g_str c)) MinimizeLatency RecoverFromFailure).
Proof.
  intros g. split; [destruct g; cbn; lia|]. split; [destruct g; cbn; lia|]. destruct g; vm_compute; repeat split; reflexivity.
Qed.

(** One tuning of a preset, before or after the size adjustment: valid except for throughput tuning of
    MinimizeLatency (0.85 * 1.2 > 1). *)
Theorem C25_one_tuning : forall g t n,
  (V (Size n (Tune t (For_ g))) = true <-> ~ (g = MinimizeLatency /\ t = Throughput)) /\
  (V (Tune t (Size n (For_ g))) = true <-> ~ (g = MinimizeLatency /\ t = Throughput)).
Proof.
  intros g t n. destruct (size_rep n) as (m & Hm & E). rewrite !E. cbn [In] in Hm.
  assert (K : V (Size m (Tune t (For_ g))) = V (Tune t (Size m (For_ g))) /\
    V (Size m (Tune t (For_ g))) = negb (match g, t with MinimizeLatency, Throughput => true | _, _ => false end)).
  { decompose [or False] Hm; subst m; destruct g, t; vm_compute; split; reflexivity. }
  destruct K as [K1 K2]. rewrite <- K1, K2. destruct g, t; cbn [negb]; intuition discriminate.
Qed.
Theorem C25_tuning_refuted : exists g t, V (For_ g) = true /\ V (Tune t (For_ g)) = false.
Proof. exists MinimizeLatency, Throughput. split; vm_compute; reflexivity. Qed.

Lemma unit_mul x n d : unit01 x -> 0 < n <= 2 ^ 53 -> 0 < d <= 2 ^ 53 -> d <= 2 * n -> n <= d -> unit01 (fmul x (flit n d)).
Proof.
  intros [A B] Hn Hd H1 H2. destruct (lit_fin n d Hn Hd) as [Fl _].
  pose proof (lit_ge_half n d Hn Hd H1). pose proof (lit_le n d 1 Hn Hd ltac:(lia) ltac:(lia)).
  destruct (fmul_nonneg x (flit n d) A Fl ltac:(lra)) as [N P]. split.
  - apply fle_true. rewrite ford_fofZ by lia. repeat split; auto; try apply fofZ_nan.
  - eapply fle_trans; [apply fmul_le_same; auto; lra|exact B].
Qed.
Lemma nonneg_mul x n d : fle (fofZ 0) x = true -> 0 < n <= 2 ^ 53 -> 0 < d <= 2 ^ 53 -> d <= 2 * n ->
  fle (fofZ 0) (fmul x (flit n d)) = true.
Proof.
  intros A Hn Hd H1. destruct (lit_fin n d Hn Hd) as [Fl _]. pose proof (lit_ge_half n d Hn Hd H1).
  destruct (fmul_nonneg x (flit n d) A Fl ltac:(lra)) as [N P].
  apply fle_true. rewrite ford_fofZ by lia. repeat split; auto; try apply fofZ_nan.
Qed.
Lemma range_mul x y n d n' d' : fle (fofZ 0) x = true -> fle x y = true ->
  0 < n <= 2 ^ 53 -> 0 < d <= 2 ^ 53 -> 0 < n' <= 2 ^ 53 -> 0 < d' <= 2 ^ 53 -> d <= 2 * n -> n * d' <= n' * d ->
  fle (fmul x (flit n d)) (fmul y (flit n' d')) = true.
Proof.
  intros A B Hn Hd Hn' Hd' H1 H2. destruct (lit_fin n d Hn Hd) as [Fl _]. destruct (lit_fin n' d' Hn' Hd') as [Fl' _].
  pose proof (lit_ge_half n d Hn Hd H1). pose proof (lit_mono n d n' d' Hn Hd Hn' Hd' H2).
  apply fmul_mono; auto. lra.
Qed.
Lemma unit_min k x n d : unit01 k -> unit01 x -> 0 < n <= 2 ^ 53 -> 0 < d <= 2 ^ 53 -> d <= 2 * n ->
  unit01 (@minValueF F (FNum tr) k (fmul x (flit n d))).
Proof.
  intros [K1 K2] [A B] Hn Hd H1. unfold minValueF. change (@nlt F (FNum tr)) with flt.
  pose proof (nonneg_mul x n d A Hn Hd H1) as P.
  destruct (flt k (fmul x (flit n d))) eqn:E; split; auto.
  eapply fle_trans; [|exact K2]. apply not_lt_fle; auto; eauto using fle_nan_r, fle_nan_l.
Qed.
Lemma scale_lit d n k : 0 < d <= 2 ^ 53 -> 0 < n <= 2 ^ 53 -> 0 < k <= 2 ^ 53 -> k <= 2 * n -> n <= 2 * k ->
  2 <= d \/ k <= n -> 1 <= @scaleDur F (FNum tr) d (flit n k) <= 2 * d.
Proof.
  intros Hd Hn Hk H1 H2 H3. destruct (lit_fin n k Hn Hk) as [Fl Vl].
  pose proof (lit_ge_half n k Hn Hk H1). pose proof (lit_le n k 2 Hn Hk ltac:(lia) H2).
  apply scale_dur; auto.
  destruct H3 as [H3|H3].
  - apply IZR_le in H3. nra.
  - assert (1 <= B2R (flit n k))%R.
    { rewrite Vl. apply rnd_ge_fmt; [apply (fmt_IZR 1); lia|].
      assert (0 < IZR k)%R by (apply IZR_lt; lia). apply Rmult_le_reg_r with (IZR k); auto.
      replace (IZR n / IZR k * IZR k)%R with (IZR n) by (field; lra). apply IZR_le in H3. lra. }
    assert (1 <= IZR d)%R by (apply (IZR_le 1); lia). nra.
Qed.
Lemma unit_one : unit01 (fofZ 1). Proof. split; vm_compute; reflexivity. Qed.
Lemma unit_98 : unit01 (flit 98 100). Proof. split; vm_compute; reflexivity. Qed.

Ltac z := vm_compute; intuition (discriminate || reflexivity).

(** One tuning of any valid configuration. *)
Theorem C25_tune_keeps : forall t c, gcfg_ok c -> 2 <= gs_upd (g_str c) <= 2 ^ 53 ->
  (t = Throughput -> fle (fmul (gv_scale (g_conv c)) (flit 12 10)) (fofZ 1) = true) ->
  (t = Resilience -> fle (fmul (gr_aff (g_res c)) (flit 15 10)) (fofZ 1) = true /\
                     fle (fmul (gr_act (g_res c)) (flit 18 10)) (fofZ 1) = true) ->
  gcfg_ok (Tune t c).
Proof.
  intros t c K U HT HR. pose proof K as [K1 K2 K3 K4 K5 K6 K7 K8 K9 K10 K11].
  destruct t; unfold TuneFor; cbv zeta; constructor;
    cbn [g_conv g_thr g_var g_str g_res gv_scale gv_goal gt_mod gt_high gt_very ga_min ga_max ga_chance gs_upd gs_window gr_aff gr_act];
    cbn [nmul nlit FNum]; change (@n1 F (FNum tr)) with (fofZ 1); auto.
  - apply unit_mul; auto; lia.
  - apply nonneg_mul; auto; lia.
  - apply range_mul; auto; lia.
  - pose proof (scale_lit (gs_upd (g_str c)) 15 10 ltac:(lia) ltac:(lia) ltac:(lia) ltac:(lia) ltac:(lia) ltac:(lia)). lia.
  - apply unit_min; auto using unit_one; lia.
  - pose proof (scale_lit (gs_upd (g_str c)) 5 10 ltac:(lia) ltac:(lia) ltac:(lia) ltac:(lia) ltac:(lia) ltac:(lia)). lia.
  - apply unit_mul; auto; lia.
  - cbn [nofZ FNum]. pose proof (scale_dur tr (gs_upd (g_str c)) (fofZ 2) ltac:(lia)) as S.
    destruct (fofZ_fin 2 ltac:(lia)) as [F2 V2]. rewrite V2 in S. specialize (S F2 ltac:(lra)).
    assert (2 <= IZR (gs_upd (g_str c)))%R by (apply IZR_le; lia). specialize (S ltac:(lra)). lia.
  - apply unit_mul; auto; lia.
  - split; [apply nonneg_mul; try lia; apply K1|]. now apply HT.
  - pose proof (scale_lit (gs_upd (g_str c)) 7 10 ltac:(lia) ltac:(lia) ltac:(lia) ltac:(lia) ltac:(lia) ltac:(lia)). lia.
  - apply nonneg_mul; auto; lia.
  - apply range_mul; auto; lia.
  - split; [apply nonneg_mul; try lia; apply K10|]. now apply HR.
  - split; [apply nonneg_mul; try lia; apply K11|]. now apply HR.
  - apply unit_min; auto using unit_98; lia.
Qed.

(** The traits without a Speed, Throughput or Resilience step can be chained without limit, as long as the
    update interval stays below 2^53 ns (104 days). *)
Definition calm (t : Trait) : Prop := t = Stability \/ t = Efficiency \/ t = Precision \/ t = OtherTrait.
Lemma tune_upd t c : calm t -> 0 < gs_upd (g_str c) <= 2 ^ 53 ->
  1 <= gs_upd (g_str (Tune t c)) <= 2 * gs_upd (g_str c) /\ (2 <= gs_upd (g_str c) -> 2 <= gs_upd (g_str (Tune t c))).
Proof.
  assert (LE : forall d n k, 2 <= d <= 2 ^ 53 -> 0 < n <= 2 ^ 53 -> 0 < k <= 2 ^ 53 -> k <= n -> n <= 2 * k ->
    2 <= @scaleDur F (FNum tr) d (flit n k)).
  { intros d n k Hd Hn Hk H1 H2. unfold scaleDur. cbn [ntrunc nmul nofZ FNum].
    destruct (lit_fin n k Hn Hk) as [Fl Vl]. destruct (fofZ_fin d ltac:(lia)) as [Fd Vd].
    pose proof (lit_le n k 2 Hn Hk ltac:(lia) H2) as L2.
    assert (L1 : (1 <= B2R (flit n k))%R).
    { rewrite Vl. apply rnd_ge_fmt; [apply (fmt_IZR 1); lia|].
      assert (0 < IZR k)%R by (apply IZR_lt; lia). apply Rmult_le_reg_r with (IZR k); auto.
      replace (IZR n / IZR k * IZR k)%R with (IZR n) by (field; lra). apply IZR_le in H1. lra. }
    assert (D2 : (2 <= IZR d)%R) by (apply IZR_le; lia).
    assert (Hpow : (IZR (2 * d) <= bpow radix2 1023)%R)
      by (apply Rle_trans with (IZR (2 ^ 54)); [apply IZR_le; lia|apply bpow1023_ge; lia]).
    rewrite mult_IZR in Hpow.
    destruct (fmul_fin (fofZ d) (flit n k) Fd Fl) as [Fm Vm].
    { rewrite Vd. rewrite Rabs_pos_eq by nra. nra. }
    rewrite Vd in Vm.
    assert (R1 : (2 <= B2R (fmul (fofZ d) (flit n k)))%R) by (rewrite Vm; apply rnd_ge_fmt; [apply (fmt_IZR 2); lia|nra]).
    assert (R2 : (B2R (fmul (fofZ d) (flit n k)) <= IZR (2 * d))%R).
    { rewrite Vm. apply rnd_le_fmt; [|rewrite mult_IZR; nra]. rewrite mult_IZR.
      replace (2 * IZR d)%R with (F2R (Float radix2 d 1)) by (unfold F2R; cbn; lra). apply fmt_F2R; lia. }
    assert (T1 : 2 <= Ztrunc (B2R (fmul (fofZ d) (flit n k)))) by (rewrite <- (Ztrunc_IZR 2); apply Ztrunc_le; exact R1).
    assert (T2 : Ztrunc (B2R (fmul (fofZ d) (flit n k))) <= 2 * d) by (rewrite <- (Ztrunc_IZR (2 * d)); apply Ztrunc_le; exact R2).
    rewrite ftrunc_spec; auto. lia. }
  intros [->|[->|[->| ->]]] U; unfold TuneFor; cbv zeta; cbn [g_str gs_upd]; cbn [nlit nofZ FNum]; try lia.
  - split; [|intros H; apply LE; lia].
    exact (scale_lit (gs_upd (g_str c)) 15 10 ltac:(lia) ltac:(lia) ltac:(lia) ltac:(lia) ltac:(lia) ltac:(lia)).
  - assert (E2 : fofZ 2 = flit 2 1) by (apply (B2SF_inj 53 1024); vm_compute; reflexivity). rewrite E2.
    split; [|intros H; apply LE; lia].
    exact (scale_lit (gs_upd (g_str c)) 2 1 ltac:(lia) ltac:(lia) ltac:(lia) ltac:(lia) ltac:(lia) ltac:(lia)).
Qed.
Theorem C25_chain : forall ts c, gcfg_ok c -> Forall calm ts -> 2 <= gs_upd (g_str c) ->
  gs_upd (g_str c) * 2 ^ Z.of_nat (List.length ts) <= 2 ^ 53 ->
  gcfg_ok (fold_left (fun c t => Tune t c) ts c) /\ V (fold_left (fun c t => Tune t c) ts c) = true.
Proof.
  induction ts as [|t ts IH]; intros c K Hc L B; cbn [fold_left].
  - split; auto. now apply ok_valid.
  - inversion Hc as [|t' ts' Ht Hts]; subst. cbn [List.length] in B. rewrite Nat2Z.inj_succ, Z.pow_succ_r in B by lia.
    assert (P : 1 <= 2 ^ Z.of_nat (List.length ts)) by (apply (Z.pow_le_mono_r 2 0); lia).
    assert (U : gs_upd (g_str c) <= 2 ^ 53) by nia.
    destruct (tune_upd t c Ht ltac:(lia)) as [[U1 U2] U3]. apply IH; auto.
    + apply C25_tune_keeps; auto; intros ->; exfalso; red in Ht; intuition discriminate.
    + nia.
Qed.

(** Chaining Speed drives the update interval to 0; chaining Throughput drives the base scale above 1. *)
Theorem C25_chain_refuted : exists g t k, V (For_ g) = true /\ V (Nat.iter k (Tune t) (For_ g)) = false /\
  gs_upd (g_str (Nat.iter k (Tune t) (For_ g))) = 0.
Proof. exists MinimizeAPICalls, Speed, 30%nat. split; [|split]; vm_compute; reflexivity. Qed.
Theorem C25_chain_scale_refuted : exists k, V (Nat.iter k (Tune Throughput) (For_ MinimizeAPICalls)) = false /\
  0 < gs_upd (g_str (Nat.iter k (Tune Throughput) (For_ MinimizeAPICalls))) /\
  flt (fofZ 1) (gv_scale (g_conv (Nat.iter k (Tune Throughput) (For_ MinimizeAPICalls)))) = true.
Proof. exists 12%nat. split; [|split]; vm_compute; reflexivity. Qed.

(** Size adjustment of any valid configuration. *)
Theorem C25_withsize_keeps : forall n c, gcfg_ok c -> n <= 20 \/ 50 < n \/ 1000000 <= gs_upd (g_str c) -> gcfg_ok (Size n c).
Proof.
  intros n c K H. pose proof K as [K1 K2 K3 K4 K5 K6 K7 K8 K9 K10 K11]. unfold WithSize. cbv zeta.
  destruct (Z.leb_spec n 20); [|destruct (Z.leb_spec n 50); [|destruct (Z.leb_spec n 200); [exact K|destruct (Z.leb_spec n 1000)]]];
  constructor;
    cbn [g_conv g_thr g_var g_str g_res gv_scale gv_goal gt_mod gt_high gt_very ga_min ga_max ga_chance gs_upd gs_window gr_aff gr_act];
    cbn [nmul nlit FNum]; auto; try (apply nonneg_mul; auto; lia); try (apply range_mul; auto; lia).
  - vm_compute; reflexivity.
  - unfold minValueZ. pose proof (Z.quot_le_mono 1000000 (gs_upd (g_str c)) 1000000 ltac:(lia) ltac:(lia)) as Q.
    rewrite Z.quot_same in Q by lia. destruct (50 <? _); lia.
  - unfold maxValueZ. destruct (Z.ltb_spec (Z.quot (gs_upd (g_str c)) 1000000) 150); lia.
  - unfold maxValueZ. destruct (Z.ltb_spec (Z.quot (gs_upd (g_str c)) 1000000) 200); lia.
  - destruct K10 as [A B]. unfold minValueF. change (@nlt F (FNum tr)) with flt. destruct (flt (flit 5 100) (gr_aff (g_res c))).
    + split; vm_compute; reflexivity.
    + split; auto.
Qed.
(** With an update interval below one millisecond and 21..50 agents the interval becomes 0. *)
Theorem C25_withsize_refuted : exists c n, gcfg_ok c /\ V c = true /\ V (Size n c) = false.
Proof.
  exists (Nat.iter 8 (Tune Speed) (For_ MinimizeLatency)), 30. split; [apply okb_ok|split]; vm_compute; reflexivity.
Qed.

(** Non-vacuity. *)
Example C25_no_nan_nonvacuous : gcfg_no_nan (@defaultConfig F (FNum tr)).
Proof. apply ok_no_nan. apply okb_ok. vm_compute. reflexivity. Qed.
Example C25_tune_nonvacuous :
  gcfg_ok (For_ MinimizeAPICalls) /\ (2 <=? gs_upd (g_str (For_ MinimizeAPICalls))) = true /\
  (gs_upd (g_str (For_ MinimizeAPICalls)) * 2 ^ 20 <=? 2 ^ 53) = true /\
  fle (fmul (gv_scale (g_conv (For_ MinimizeAPICalls))) (flit 12 10)) (fofZ 1) = true /\
  fle (fmul (gr_aff (g_res (For_ MinimizeAPICalls))) (flit 15 10)) (fofZ 1) = true /\
  fle (fmul (gr_act (g_res (For_ MinimizeAPICalls))) (flit 18 10)) (fofZ 1) = true.
Proof. split; [apply okb_ok; vm_compute; reflexivity|]. repeat split; vm_compute; reflexivity. Qed.
End C25.

Print Assumptions C25_validate_iff. Print Assumptions C25_validate_nan_refuted. Print Assumptions C25_presets.
Print Assumptions C25_one_tuning. Print Assumptions C25_tuning_refuted. Print Assumptions C25_tune_keeps.
Print Assumptions C25_chain. Print Assumptions C25_chain_refuted. Print Assumptions C25_chain_scale_refuted.
Print Assumptions C25_withsize_keeps. Print Assumptions C25_withsize_refuted.
Print Assumptions C25_presets_ordered.
Print Assumptions C25_presets_apart.
