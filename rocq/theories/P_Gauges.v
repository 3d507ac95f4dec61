(** C67: the gauges of the terminal display; C68: its coherence chart. *)
From Coq Require Import ZArith Reals Psatz Bool List String Lia.
From Flocq Require Import Core.Core IEEE754.BinarySingleNaN.
From Verif Require Import Num F64 RealNum GoBase M_GoalConfig M_Display S_Agent S_Display S_Gauges L_F64 L_F64x L_Ford L_Display.
Import ListNotations.
Open Scope R_scope.

Section S.
Variable tr : Trig.
Notation NF := (FNum tr).

(** ** C67 *)
Lemma percent_val c : in_unit c -> is_finite (fmul c (fofZ 100)) = true /\ B2R (fmul c (fofZ 100)) = rnd (B2R c * 100) /\
  @percentOf F NF c = Zfloor (rnd (B2R c * 100)) /\ (0 <= @percentOf F NF c <= 100)%Z.
Proof.
  intros [Fc Bc]. unfold percentOf. cbn [nmul nofZ FNum ntrunc]. destruct (fofZ_fin 100) as [F1 V1]; [lia|].
  assert (B8 : 1024 <= bpow radix2 1023) by (apply (bpow1023_ge 10); lia).
  destruct (fmul_fin _ _ Fc F1) as [Fm Vm]. { rewrite V1. apply Rabs_le. lra. } rewrite V1 in Vm.
  assert (Bm : 0 <= rnd (B2R c * 100) <= 100) by (split; [apply rnd_ge_0; lra|apply rnd_le_fmt; [apply (fmt_IZR 100); lia|lra]]).
  assert (TB : (0 <= Zfloor (rnd (B2R c * 100)) <= 100)%Z) by (split; [apply Zfloor_lub; lra|apply le_IZR; eapply Rle_trans; [apply Zfloor_lb|]; lra]).
  split; [exact Fm|]. split; [exact Vm|]. rewrite ftrunc_spec; auto; rewrite Vm, Ztrunc_floor by lra; [auto|lia].
Qed.
(** The percentage never decreases with the coherence. *)
Lemma percent_mono c c' : in_unit c -> in_unit c' -> B2R c <= B2R c' -> (@percentOf F NF c <= @percentOf F NF c')%Z.
Proof.
  intros H H' L. destruct (percent_val c H) as (_ & _ & -> & _). destruct (percent_val c' H') as (_ & _ & -> & _).
  apply Zfloor_le. apply rnd_le. lra.
Qed.
(** Integer thresholds are float thresholds: [t] percent is reached exactly from the float [l] on. *)
Lemma percent_thr c l t : in_unit c -> in_unit l -> 0 < B2R l -> (t <= @percentOf F NF l)%Z -> (@percentOf F NF (Bpred l) < t)%Z ->
  (t <=? @percentOf F NF c)%Z = fle l c.
Proof.
  intros Hc Hl Pl Ht Hp. destruct Hc as [Fc Bc]. destruct Hl as [Fl Bl].
  rewrite (fle_ord l c), !ford_fin by (auto using fin_nan). destruct (Rle_bool_spec (B2R l) (B2R c)) as [G|G].
  - apply Z.leb_le. eapply Z.le_trans; [exact Ht|]. apply percent_mono; [now split|now split|exact G].
  - apply Z.leb_gt. eapply Z.le_lt_trans; [|exact Hp].
    pose proof (Bpred_correct 53 1024 _ _ l Fl) as BP.
    assert (PG : 0 <= pred radix2 (SpecFloat.fexp 53 1024) (B2R l)) by (apply pred_ge_0; [apply (fexp_correct 53 1024); reflexivity|exact Pl|apply generic_format_B2R]).
    assert (PL : pred radix2 (SpecFloat.fexp 53 1024) (B2R l) <= B2R l) by apply pred_le_id.
    rewrite Rlt_bool_true in BP by (pose proof (bpow_gt_0 radix2 1024); lra). destruct BP as (BV & BF & _).
    apply percent_mono; [now split|split; [exact BF|lra]|]. rewrite BV. apply pred_ge_gt; [apply (fexp_correct 53 1024); reflexivity|apply generic_format_B2R|apply generic_format_B2R|exact G].
Qed.
Lemma unit_b c : fle (fofZ 0) c = true -> fle c (fofZ 1) = true -> in_unit c.
Proof.
  intros A B. destruct (fofZ_fin 0) as [F0 V0]; [lia|]. destruct (fofZ_fin 1) as [F1 V1]; [lia|].
  assert (Fc : is_finite c = true).
  { destruct c as [s|s| |s m e H]; try reflexivity; [|discriminate A]. destruct s; [vm_compute in A|vm_compute in B]; discriminate. }
  rewrite (fle_ord _ c), !ford_fin in A by (auto using fin_nan). rewrite (fle_ord c), !ford_fin in B by (auto using fin_nan).
  split; [exact Fc|]. rewrite V0 in A. rewrite V1 in B. destruct (Rle_bool_spec 0 (B2R c)); [|discriminate]. destruct (Rle_bool_spec (B2R c) 1); [|discriminate]. lra.
Qed.
Lemma pos_b c : is_finite c = true -> flt (fofZ 0) c = true -> 0 < B2R c.
Proof.
  intros Fc A. destruct (fofZ_fin 0) as [F0 V0]; [lia|]. rewrite (flt_ord _ c), !ford_fin in A by (auto using fin_nan). rewrite V0 in A.
  destruct (Rlt_bool_spec 0 (B2R c)); [assumption|discriminate].
Qed.
Lemma thr l t : fle (fofZ 0) l && fle l (fofZ 1) && flt (fofZ 0) l && (t <=? ftrunc (fmul l (fofZ 100)))%Z && (ftrunc (fmul (Bpred l) (fofZ 100)) <? t)%Z = true ->
  forall c, in_unit c -> (t <=? @percentOf F NF c)%Z = fle l c.
Proof.
  intros H c Hc. apply andb_true_iff in H as [H H5]. apply andb_true_iff in H as [H H4]. apply andb_true_iff in H as [H H3]. apply andb_true_iff in H as [H1 H2].
  pose proof (unit_b l H1 H2) as U. apply percent_thr; auto; [apply pos_b; [apply U|exact H3]|now apply Z.leb_le|now apply Z.ltb_lt].
Qed.
(** The gauges stay between 0 and 100 for every goal, whatever the coherence and target in the unit interval and
    whatever the agents. *)
Lemma one_minus c : in_unit c -> in_unit (fsub (fofZ 1) c).
Proof.
  intros [Fc Bc]. destruct (fofZ_fin 1) as [F1 V1]; [lia|]. assert (B8 : 1024 <= bpow radix2 1023) by (apply (bpow1023_ge 10); lia).
  destruct (fsub_fin _ _ F1 Fc) as [Fs Vs]. { rewrite V1. apply Rabs_le. lra. } split; [exact Fs|]. rewrite Vs, V1.
  split; [apply rnd_ge_0; lra|apply rnd_le_fmt; [apply (fmt_IZR 1); lia|lra]].
Qed.
Lemma share100_range (p : ASnap F -> bool) agents : agents <> [] -> (lenZ agents <= 2 ^ 40)%Z -> (0 <= @share F NF (count p agents) (lenZ agents) 100 <= 100)%Z.
Proof.
  intros Hne Hn. assert (Pn : (0 < lenZ agents)%Z) by (destruct agents; [contradiction|unfold lenZ; cbn [List.length]; lia]). pose proof (count_range p agents) as CR. rewrite share_exact100 by lia.
  assert (J : (0 <= 100 * count p agents / lenZ agents <= 100)%Z) by (split; [apply Z.div_pos; lia|apply Z.div_le_upper_bound; lia]).
  destruct ((100 * count p agents) mod lenZ agents =? 0)%Z; [|cbn [andb]; lia]. unfold oneLow.
  destruct (Z.eqb_spec (100 * count p agents / lenZ agents) 29), (Z.eqb_spec (100 * count p agents / lenZ agents) 57), (Z.eqb_spec (100 * count p agents / lenZ agents) 58); cbn [andb orb]; lia.
Qed.
Theorem C67_range : forall g disrupted (c t : F) agents, in_unit c -> in_unit t -> agents <> [] -> (lenZ agents <= 2 ^ 40)%Z ->
  let v := @goalGauges F NF g disrupted c t agents in (0 <= gg_value v <= 100)%Z /\ (0 <= gg_target v <= 100)%Z.
Proof.
  intros g ds c t agents Hc Ht Hne Hn v. unfold v. pose proof (percent_val c Hc) as (_ & _ & _ & PC). pose proof (percent_val t Ht) as (_ & _ & _ & PT).
  pose proof (percent_val _ (one_minus c Hc)) as (_ & _ & _ & PC1). pose proof (percent_val _ (one_minus t Ht)) as (_ & _ & _ & PT1).
  pose proof (share100_range quiet agents Hne Hn). pose proof (share100_range (fun a => bursting a || (an_act a =? "active")%string) agents Hne Hn).
  destruct g; cbn [goalGauges gg_value gg_target]; try (split; assumption); try (split; [assumption|lia]).
  split; [|lia]. destruct ds; [|assumption]. rewrite Z.quot_div_nonneg by lia. split; [apply Z.div_pos; lia|apply Z.div_le_upper_bound; lia].
Qed.
(** The shown percentage is the coherence in percent, rounded down (up to one rounding of the product). *)
Theorem C67_percent : forall c : F, in_unit c -> let p := @percentOf F NF c in
  IZR p <= 100 * B2R c + / 10 ^ 12 /\ 100 * B2R c < IZR p + 1 + / 10 ^ 12.
Proof.
  intros c Hc p. destruct (percent_val c Hc) as (_ & _ & E & _). unfold p. rewrite E. destruct Hc as [_ Bc].
  pose proof (rnd_err128 (B2R c * 100) ltac:(lra)) as Er. apply Rabs_le_inv in Er. pose proof (Zfloor_lb (rnd (B2R c * 100))). pose proof (Zfloor_ub (rnd (B2R c * 100))).
  assert (/ 35184372088832 <= / 10 ^ 12) by (simpl; lra). lra.
Qed.
Lemma whole n j r a : (n * j + r = a * n)%Z -> (0 <= r < n)%Z -> (j = a /\ r = 0)%Z.
Proof. intros E H. destruct (Z.div_mod_unique n j a r 0) as [A B]; [lia|lia|lia|auto]. Qed.
(** Shares of agents are exact percentages rounded down, except that exactly 29, 57 and 58 percent show one less. *)
Theorem C67_share : forall (k n : Z), (0 <= k <= n)%Z -> (0 < n <= 2 ^ 40)%Z ->
  let p := @share F NF k n 100 in
  ((100 * k = 29 * n \/ 100 * k = 57 * n \/ 100 * k = 58 * n)%Z -> p = (100 * k / n - 1)%Z) /\
  (~ (100 * k = 29 * n \/ 100 * k = 57 * n \/ 100 * k = 58 * n)%Z -> p = (100 * k / n)%Z).
Proof.
  intros k n Hk Hn p. unfold p. rewrite share_exact100 by lia.
  pose proof (Z.div_mod (100 * k) n ltac:(lia)) as DM. pose proof (Z.mod_pos_bound (100 * k) n ltac:(lia)) as MB.
  set (j := (100 * k / n)%Z) in *. set (r := ((100 * k) mod n)%Z) in *. unfold oneLow.
  split.
  - intros H. assert (r = 0 /\ (j = 29 \/ j = 57 \/ j = 58))%Z as [-> J].
    { destruct H as [H|[H|H]]; rewrite H in DM; symmetry in DM; apply whole in DM; lia. } cbn [Z.eqb andb].
    destruct (Z.eqb_spec j 29), (Z.eqb_spec j 57), (Z.eqb_spec j 58); cbn [orb]; lia.
  - intros H. destruct (Z.eqb_spec r 0) as [R0|R0]; cbn [andb]; [|lia].
    destruct (Z.eqb_spec j 29), (Z.eqb_spec j 57), (Z.eqb_spec j 58); cbn [orb]; try lia; exfalso; apply H; rewrite DM; subst; lia.
Qed.
(** Colours.  Consensus: green exactly from 0.95, yellow from the float just below 0.8. *)
Theorem C67_consensus : forall ds (c t : F) agents, in_unit c ->
  gg_color (@goalGauges F NF ReachConsensus ds c t agents) =
    if fle (flit 95 100) c then CGreen else if fle (Bpred (flit 8 10)) c then CYellow else CRed.
Proof.
  intros ds c t agents Hc. cbn [goalGauges gg_color]. rewrite (thr (flit 95 100) 95) by (auto; vm_compute; reflexivity).
  rewrite (thr (Bpred (flit 8 10)) 80) by (auto; vm_compute; reflexivity). reflexivity.
Qed.
(** Health: halved and always red while disrupted; otherwise green from just below 0.8, yellow from 0.6. *)
Theorem C67_health : forall ds (c t : F) agents, in_unit c ->
  gg_color (@goalGauges F NF RecoverFromFailure ds c t agents) =
    if ds then CRed else if fle (Bpred (flit 8 10)) c then CGreen else if fle (flit 6 10) c then CYellow else CRed.
Proof.
  intros ds c t agents Hc. cbn [goalGauges gg_color]. pose proof (percent_val c Hc) as (_ & _ & _ & PC). destruct ds.
  - rewrite andb_false_r. rewrite Z.quot_div_nonneg by lia. assert (@percentOf F NF c / 2 <= 50)%Z by (apply Z.div_le_upper_bound; lia).
    destruct (Z.leb_spec 60 (@percentOf F NF c / 2)); [lia|reflexivity].
  - rewrite andb_true_r. rewrite (thr (Bpred (flit 8 10)) 80) by (auto; vm_compute; reflexivity).
    rewrite (thr (flit 6 10) 60) by (auto; vm_compute; reflexivity). reflexivity.
Qed.
(** API calls: green exactly when the target is reached; load: red exactly when the coherence exceeds one half. *)
Theorem C67_api_and_load : forall ds (c t : F) agents,
  (gg_color (@goalGauges F NF MinimizeAPICalls ds c t agents) = CGreen <-> fle t c = true) /\
  (gg_color (@goalGauges F NF DistributeLoad ds c t agents) = CRed <-> flt (flit 5 10) c = true).
Proof.
  intros ds c t agents. cbn [goalGauges gg_color nle nlt nlit FNum]. split.
  - destruct (fle t c); split; auto; discriminate.
  - destruct (flt (flit 5 10) c); split; auto; discriminate.
Qed.
(** Latency and rhythm: a reached target is green; but the comparison of rounded percentages also lets a missed
    target through. *)
Theorem C67_latency : forall g ds (c t : F) agents, g = MinimizeLatency \/ g = MaintainRhythm -> in_unit c -> in_unit t ->
  (fle t c = true -> gg_color (@goalGauges F NF g ds c t agents) = CGreen) /\
  (gg_color (@goalGauges F NF g ds c t agents) = CGreen -> 100 * B2R t < 100 * B2R c + 1 + / 10 ^ 11).
Proof.
  intros g ds c t agents Hg Hc Ht. assert (E : gg_color (@goalGauges F NF g ds c t agents) = if (@percentOf F NF t <=? @percentOf F NF c)%Z then CGreen else CRed) by (destruct Hg as [->| ->]; reflexivity).
  rewrite E. split.
  - intros L. rewrite (fle_ord t c), !ford_fin in L by (apply fin_nan || idtac; apply Hc || apply Ht). destruct (Rle_bool_spec (B2R t) (B2R c)) as [G|]; [|discriminate].
    pose proof (percent_mono t c Ht Hc G). destruct (Z.leb_spec (@percentOf F NF t) (@percentOf F NF c)); [reflexivity|lia].
  - destruct (Z.leb_spec (@percentOf F NF t) (@percentOf F NF c)) as [L|]; [|discriminate]. intros _.
    destruct (C67_percent c Hc) as [A _]. destruct (C67_percent t Ht) as [_ B]. apply IZR_le in L.
    assert (2 * / 10 ^ 12 <= / 10 ^ 11) by (simpl; lra). lra.
Qed.
Theorem C67_latency_refuted : exists c t : F, in_unit c /\ in_unit t /\ flt c t = true /\
  (forall ds agents, gg_color (@goalGauges F NF MinimizeLatency ds c t agents) = CGreen) /\
  (forall ds agents, gg_color (@goalGauges F NF MinimizeAPICalls ds c t agents) = CRed).
Proof.
  exists (flit 901 1000), (flit 909 1000). split; [apply unit_b; vm_compute; reflexivity|]. split; [apply unit_b; vm_compute; reflexivity|]. split; [vm_compute; reflexivity|].
  split; intros; cbn [goalGauges gg_color].
  - assert (E : (@percentOf F NF (flit 909 1000) <=? @percentOf F NF (flit 901 1000))%Z = true) by (vm_compute; reflexivity). now rewrite E.
  - assert (E : fle (flit 909 1000) (flit 901 1000) = false) by (vm_compute; reflexivity). cbn [nle FNum]. now rewrite E.
Qed.
(** Energy: green exactly from seven tenths of the agents asleep, yellow from one half. *)
Theorem C67_energy : forall ds (c t : F) agents, agents <> [] -> (lenZ agents <= 2 ^ 40)%Z ->
  let k := howMany (fun a => (an_act a =? "quiet")%string) agents in
  gg_color (@goalGauges F NF SaveEnergy ds c t agents) =
    if (7 * lenZ agents <=? 10 * k)%Z then CGreen else if (lenZ agents <=? 2 * k)%Z then CYellow else CRed.
Proof.
  intros ds c t agents Hne Hn k. cbn [goalGauges gg_color]. assert (Pn : (0 < lenZ agents)%Z) by (destruct agents; [contradiction|unfold lenZ; cbn [List.length]; lia]).
  assert (Ek : count quiet agents = k) by apply count_filter. pose proof (count_range quiet agents) as CR. rewrite Ek in *.
  destruct (C67_share k (lenZ agents) CR ltac:(lia)) as [A B]. set (p := @share F NF k (lenZ agents) 100) in *.
  pose proof (Z.div_mod (100 * k) (lenZ agents) ltac:(lia)) as DM. pose proof (Z.mod_pos_bound (100 * k) (lenZ agents) ltac:(lia)) as MB.
  set (j := (100 * k / lenZ agents)%Z) in *. set (r := ((100 * k) mod lenZ agents)%Z) in *. set (n := lenZ agents) in *.
  assert (PB : (p = j \/ (p = j - 1 /\ (j = 29 \/ j = 57 \/ j = 58)))%Z).
  { destruct (Z.eq_dec (100 * k) (29 * n)) as [E|E1]; [right; split; [apply A; auto|left; rewrite E in DM; symmetry in DM; apply whole in DM; lia]|]. destruct (Z.eq_dec (100 * k) (57 * n)) as [E|E2]; [right; split; [apply A; auto|right; left; rewrite E in DM; symmetry in DM; apply whole in DM; lia]|].
    destruct (Z.eq_dec (100 * k) (58 * n)) as [E|E3]; [right; split; [apply A; auto|right; right; rewrite E in DM; symmetry in DM; apply whole in DM; lia]|]. left. apply B. intros [?|[?|?]]; contradiction. }
  assert (J7 : (70 <= j <-> 7 * n <= 10 * k)%Z) by nia. assert (J5 : (50 <= j <-> n <= 2 * k)%Z) by nia.
  destruct (Z.leb_spec 70 p), (Z.leb_spec (7 * n) (10 * k)); try (exfalso; lia); [reflexivity|].
  destruct (Z.leb_spec 50 p), (Z.leb_spec n (2 * k)); try (exfalso; lia); reflexivity.
Qed.
(** Utilisation: green from 40 % to below 81 %, red from 91 %, by exact counts of the agents that burst or are active. *)
Theorem C67_traffic : forall ds (c t : F) agents, agents <> [] -> (lenZ agents <= 2 ^ 40)%Z ->
  let k := howMany (fun a => (an_act a =? "burst")%string || (an_act a =? "active")%string) agents in
  gg_color (@goalGauges F NF AdaptToTraffic ds c t agents) =
    if (2 * lenZ agents <=? 5 * k)%Z && (100 * k <? 81 * lenZ agents)%Z then CGreen else if (91 * lenZ agents <=? 100 * k)%Z then CRed else CYellow.
Proof.
  intros ds c t agents Hne Hn k. cbn [goalGauges gg_color]. assert (Pn : (0 < lenZ agents)%Z) by (destruct agents; [contradiction|unfold lenZ; cbn [List.length]; lia]).
  set (f := fun a : ASnap F => bursting a || (an_act a =? "active")%string). assert (Ek : count f agents = k) by apply count_filter. pose proof (count_range f agents) as CR. rewrite Ek in *.
  destruct (C67_share k (lenZ agents) CR ltac:(lia)) as [A B]. set (p := @share F NF k (lenZ agents) 100) in *.
  pose proof (Z.div_mod (100 * k) (lenZ agents) ltac:(lia)) as DM. pose proof (Z.mod_pos_bound (100 * k) (lenZ agents) ltac:(lia)) as MB.
  set (j := (100 * k / lenZ agents)%Z) in *. set (r := ((100 * k) mod lenZ agents)%Z) in *. set (n := lenZ agents) in *.
  assert (PB : (p = j \/ (p = j - 1 /\ (j = 29 \/ j = 57 \/ j = 58)))%Z).
  { destruct (Z.eq_dec (100 * k) (29 * n)) as [E|E1]; [right; split; [apply A; auto|left; rewrite E in DM; symmetry in DM; apply whole in DM; lia]|]. destruct (Z.eq_dec (100 * k) (57 * n)) as [E|E2]; [right; split; [apply A; auto|right; left; rewrite E in DM; symmetry in DM; apply whole in DM; lia]|].
    destruct (Z.eq_dec (100 * k) (58 * n)) as [E|E3]; [right; split; [apply A; auto|right; right; rewrite E in DM; symmetry in DM; apply whole in DM; lia]|]. left. apply B. intros [?|[?|?]]; contradiction. }
  assert (J4 : (40 <= j <-> 2 * n <= 5 * k)%Z) by nia. assert (J8 : (j <= 80 <-> 100 * k < 81 * n)%Z) by nia. assert (J9 : (91 <= j <-> 91 * n <= 100 * k)%Z) by nia.
  destruct (Z.leb_spec 40 p), (Z.leb_spec (2 * n) (5 * k)); try (exfalso; lia); cbn [andb].
  - destruct (Z.leb_spec p 80), (Z.ltb_spec (100 * k) (81 * n)); try (exfalso; lia); [reflexivity|]. destruct (Z.ltb_spec 90 p), (Z.leb_spec (91 * n) (100 * k)); try (exfalso; lia); reflexivity.
  - destruct (Z.ltb_spec 90 p), (Z.leb_spec (91 * n) (100 * k)); try (exfalso; lia); reflexivity.
Qed.
(** What the two gauges show for each goal: percentages of the coherence, of its complement, of the sleeping or the busy agents. *)
Theorem C67_values : forall g ds (c t : F) agents, let v := @goalGauges F NF g ds c t agents in
  gg_value v = (match g with
    | DistributeLoad => @percentOf F NF (fsub (fofZ 1) c)
    | SaveEnergy => @share F NF (howMany (fun a => (an_act a =? "quiet")%string) agents) (lenZ agents) 100
    | AdaptToTraffic => @share F NF (howMany (fun a => (an_act a =? "burst")%string || (an_act a =? "active")%string) agents) (lenZ agents) 100
    | RecoverFromFailure => if ds then Z.quot (@percentOf F NF c) 2 else @percentOf F NF c
    | _ => @percentOf F NF c end) /\
  gg_target v = (match g with
    | DistributeLoad => @percentOf F NF (fsub (fofZ 1) t) | ReachConsensus => 95 | SaveEnergy => 70 | RecoverFromFailure => 80 | AdaptToTraffic => 60
    | _ => @percentOf F NF t end)%Z.
Proof.
  intros g ds c t agents. destruct g; cbn [goalGauges gg_value gg_target]; (split; [|reflexivity]); try reflexivity; (f_equal; apply count_filter).
Qed.
(** With exactly seven tenths asleep the gauge is green while the panel below says HIGH DRAIN. *)
Theorem C67_energy_disagrees_refuted : exists agents : list (ASnap F), (forall ds c t, gg_color (@goalGauges F NF SaveEnergy ds c t agents) = CGreen) /\
  ev_efficient (@displayEnergyPattern F NF agents) = false.
Proof.
  exists (repeat (mkASnap (fofZ 0) "quiet"%string) 7 ++ repeat (mkASnap (fofZ 0) "burst"%string) 3). split; [|vm_compute; reflexivity].
  intros ds c t. rewrite C67_energy; [reflexivity|discriminate|cbn; lia].
Qed.
(** A swarm of steady agents: the gauge shows no utilisation, the panel full utilisation and SCALE UP. *)
Theorem C67_utilisation_disagrees_refuted : exists agents : list (ASnap F), (forall ds c t, gg_value (@goalGauges F NF AdaptToTraffic ds c t agents) = 0%Z) /\
  tv_advice (@displayTrafficLoad F NF agents) = "SCALE UP"%string.
Proof.
  exists (repeat (mkASnap (fofZ 0) "steady"%string) 3). split; [|vm_compute; reflexivity]. intros. cbn [goalGauges gg_value]. vm_compute. reflexivity.
Qed.
(** Without agents the energy gauge is set to the smallest integer. *)
Theorem C67_no_agents_refuted : forall ds (c t : F), gg_value (@goalGauges F NF SaveEnergy ds c t []) = (- 2 ^ 63)%Z.
Proof. intros. cbn [goalGauges gg_value]. vm_compute. reflexivity. Qed.
Example C67_applies : in_unit (flit 72 100) /\ in_unit (flit 9 10) /\ @percentOf F NF (flit 72 100) = 72%Z.
Proof. split; [apply unit_b; vm_compute; reflexivity|]. split; [apply unit_b; vm_compute; reflexivity|]. vm_compute. reflexivity. Qed.
End S.

(** ** C68 *)
Section Chart.
Context {T : Type} {N : Num T}.
(** A history of updates: coherence, target, paused. *)
Definition charted (us : list (T * T * bool)) : Chart T := fold_left (fun ch u => chartPoint ch (fst (fst u)) (snd (fst u)) (snd u)) us newChart.
Definition unpaused (us : list (T * T * bool)) : list (T * T * bool) := filter (fun u => negb (snd u)) us.
Lemma lastN_snoc {A} (l : list A) x n : (0 < n)%nat ->
  lastN n (l ++ [x]) = (if (n <? List.length (lastN n l ++ [x]))%nat then tl (lastN n l ++ [x]) else lastN n l ++ [x]).
Proof.
  intros Hn. unfold lastN. rewrite !app_length, skipn_length. cbn [List.length].
  destruct (Nat.ltb_spec n (List.length l - (List.length l - n) + 1)) as [H|H].
  - replace (List.length l + 1 - n)%nat with (S (List.length l - n)) by lia.
    remember (List.length l - n)%nat as d. assert (Hd : (d < List.length l)%nat) by lia. clear Heqd H Hn n.
    revert l Hd. induction d as [|d IH]; intros l Hd; destruct l as [|a l]; cbn [List.length] in Hd; try lia; [reflexivity|].
    cbn [app]. change (skipn (S (S d)) (a :: l ++ [x])) with (skipn (S d) (l ++ [x])). rewrite IH by lia. reflexivity.
  - replace (List.length l + 1 - n)%nat with 0%nat by lia. replace (List.length l - n)%nat with 0%nat by lia. reflexivity.
Qed.
(** The chart holds the last fifty unpaused points, coherence and target together, in percent. *)
Theorem C68_history : forall us : list (T * T * bool),
  ch_coh (charted us) = lastN 50 (map (fun u => nmul (fst (fst u)) (nofZ 100)) (unpaused us)) /\
  ch_tgt (charted us) = lastN 50 (map (fun u => nmul (snd (fst u)) (nofZ 100)) (unpaused us)).
Proof.
  intros us. induction us as [|u us IH] using rev_ind; [split; reflexivity|]. destruct IH as [IC IT].
  unfold charted. rewrite fold_left_app. cbn [fold_left]. fold (charted us).
  unfold unpaused. rewrite filter_app. cbn [filter]. fold (unpaused us). unfold chartPoint. destruct (snd u); cbn [negb].
  - rewrite app_nil_r. auto.
  - rewrite !map_app. cbn [map]. rewrite !lastN_snoc by lia. rewrite IC, IT.
    assert (L : forall A B (f : A) (g : B) p q, List.length p = List.length q -> (50 <? List.length (lastN 50 p ++ [f]))%nat = (50 <? List.length (lastN 50 q ++ [g]))%nat).
    { intros A B f g p q E. unfold lastN. rewrite !app_length, !skipn_length, E. reflexivity. }
    rewrite (L _ _ (nmul (snd (fst u)) (nofZ 100)) (nmul (fst (fst u)) (nofZ 100)) (map (fun u => nmul (snd (fst u)) (nofZ 100)) (unpaused us))
      (map (fun u => nmul (fst (fst u)) (nofZ 100)) (unpaused us))) by (rewrite !map_length; reflexivity).
    destruct (50 <? _)%nat; split; reflexivity.
Qed.
Theorem C68_at_most_fifty : forall us : list (T * T * bool), (List.length (ch_coh (charted us)) <= 50)%nat /\ List.length (ch_coh (charted us)) = List.length (ch_tgt (charted us)).
Proof.
  intros us. destruct (C68_history us) as [-> ->]. unfold lastN. rewrite !skipn_length, !map_length. split; lia.
Qed.
(** The two series: the upper one has each point at or above the target and each point following one; the lower
    one likewise below; so every point is drawn and the point after a crossing is in both. *)
Lemma series_inv tv hist : forall pre above below, pre <> [] -> forall d,
  List.length above = List.length pre -> List.length below = List.length pre ->
  (forall i, (i < List.length pre)%nat -> nth i above None = (if sideOrBefore (fun v => nle tv v) d pre i then Some (nth i pre d) else None) /\
                                       nth i below None = (if sideOrBefore (fun v => negb (nle tv v)) d pre i then Some (nth i pre d) else None)) ->
  let r := seriesLoop tv hist (Some (last pre d)) above below in
  List.length (fst r) = List.length (pre ++ hist) /\ List.length (snd r) = List.length (pre ++ hist) /\
  (forall i, (i < List.length (pre ++ hist))%nat ->
     nth i (fst r) None = (if sideOrBefore (fun v => nle tv v) d (pre ++ hist) i then Some (nth i (pre ++ hist) d) else None) /\
     nth i (snd r) None = (if sideOrBefore (fun v => negb (nle tv v)) d (pre ++ hist) i then Some (nth i (pre ++ hist) d) else None)).
Proof.
  induction hist as [|v r IH]; intros pre above below Hp d La Lb K; cbn [seriesLoop fst snd].
  - rewrite app_nil_r. auto.
  - assert (Lp : (0 < List.length pre)%nat) by (destruct pre; [contradiction|cbn; lia]).
    assert (LAST : last pre d = nth (List.length pre - 1) pre d).
    { clear - Hp. induction pre as [|a pre IHp]; [contradiction|]. destruct pre as [|b pre]; [reflexivity|]. cbn [last]. cbn [last] in IHp. rewrite IHp by discriminate. cbn [List.length]. replace (S (S (List.length pre)) - 1)%nat with (S (List.length pre)) by lia. replace (S (List.length pre) - 1)%nat with (List.length pre) by lia. reflexivity. }
    assert (SIDE : forall s i, (i < List.length pre)%nat -> sideOrBefore s d (pre ++ [v]) i = sideOrBefore s d pre i).
    { intros s i Hi. destruct i; cbn [sideOrBefore]; rewrite ?app_nth1 by lia; reflexivity. }
    assert (SNEW : forall s, sideOrBefore s d (pre ++ [v]) (List.length pre) = s v || s (last pre d)).
    { intros s. rewrite LAST. destruct (List.length pre) eqn:E; [lia|]. cbn [sideOrBefore]. rewrite app_nth2 by lia. rewrite app_nth1 by lia. rewrite E, Nat.sub_diag. cbn [nth].
      replace (S n - 1)%nat with n by lia. reflexivity. }
    assert (RL : forall (l : list (option T)) w, List.length l = List.length pre -> nth (List.length pre - 1) l None = w -> removelast l ++ [w] = l).
    { intros l w Ll Hw. assert (l <> []) by (destruct l; [cbn in Ll; lia|discriminate]). rewrite (app_removelast_last None H) at 2. do 2 f_equal. rewrite <- Hw.
      rewrite <- Ll. clear - H. induction l as [|a l IHl]; [contradiction|]. destruct l as [|b l]; [reflexivity|]. cbn [last]. cbn [last] in IHl. rewrite <- IHl by discriminate. cbn [List.length]. replace (S (S (List.length l)) - 1)%nat with (S (List.length l)) by lia. replace (S (List.length l) - 1)%nat with (List.length l) by lia. reflexivity. }
    destruct (K (List.length pre - 1)%nat ltac:(lia)) as [KA KB].
    assert (STEP : exists a b, (if Bool.eqb (nle tv v) (nle tv (last pre d)) then seriesLoop tv r (Some v) (above ++ [if nle tv v then Some v else None]) (below ++ [if nle tv v then None else Some v])
        else if nle tv v then seriesLoop tv r (Some v) (above ++ [Some v]) (removelast below ++ [Some (last pre d)] ++ [Some v])
        else seriesLoop tv r (Some v) (removelast above ++ [Some (last pre d)] ++ [Some v]) (below ++ [Some v])) = seriesLoop tv r (Some v) (above ++ [a]) (below ++ [b]) /\
        a = (if nle tv v || nle tv (last pre d) then Some v else None) /\ b = (if negb (nle tv v) || negb (nle tv (last pre d)) then Some v else None)).
    { assert (SL : forall s, s (last pre d) = true -> sideOrBefore s d pre (List.length pre - 1) = true).
      { intros s Hs. rewrite LAST in Hs. destruct (List.length pre - 1)%nat; cbn [sideOrBefore]; rewrite Hs; reflexivity. }
      destruct (nle tv v) eqn:E1; destruct (nle tv (last pre d)) eqn:E2; cbn [Bool.eqb orb negb].
      - exists (Some v), None. auto.
      - exists (Some v), (Some v). split; [|auto]. f_equal. rewrite app_assoc. f_equal. apply RL; [exact Lb|]. rewrite KB, SL, LAST by (rewrite E2; reflexivity). reflexivity.
      - exists (Some v), (Some v). split; [|auto]. f_equal. rewrite app_assoc. f_equal. apply RL; [exact La|]. rewrite KA, SL, LAST by (exact E2). reflexivity.
      - exists None, (Some v). auto. }
    destruct STEP as (a & b & -> & Ea & Eb).
    replace (pre ++ v :: r) with ((pre ++ [v]) ++ r) by (rewrite <- app_assoc; reflexivity).
    replace (Some v) with (Some (last (pre ++ [v]) d)) by (rewrite last_last; reflexivity).
    apply IH.
    + intros E. apply app_eq_nil in E. now destruct E.
    + rewrite !app_length. cbn [List.length]. lia.
    + rewrite !app_length. cbn [List.length]. lia.
    + intros i Hi. rewrite app_length in Hi. cbn [List.length] in Hi. destruct (Nat.eq_dec i (List.length pre)) as [->|Hn].
      * rewrite !SNEW. rewrite (app_nth2 above), (app_nth2 below), (app_nth2 pre) by lia. rewrite La, Lb, Nat.sub_diag. cbn [nth]. auto.
      * rewrite !SIDE by lia. rewrite (app_nth1 above), (app_nth1 below), (app_nth1 pre) by lia. apply K. lia.
Qed.
Theorem C68_series : forall (ch : Chart T) (target d : T) i, (i < List.length (ch_coh ch))%nat ->
  let tv := nmul target (nofZ 100) in let h := ch_coh ch in
  List.length (fst (chartSeries ch target)) = List.length h /\ List.length (snd (chartSeries ch target)) = List.length h /\
  nth i (fst (chartSeries ch target)) None = (if sideOrBefore (fun v => nle tv v) d h i then Some (nth i h d) else None) /\
  nth i (snd (chartSeries ch target)) None = (if sideOrBefore (fun v => negb (nle tv v)) d h i then Some (nth i h d) else None).
Proof.
  intros ch target d i Hi tv h. unfold chartSeries. fold tv. unfold h in *. destruct (ch_coh ch) as [|v r]; [cbn in Hi; lia|].
  cbn [seriesLoop]. replace (Some v) with (Some (last [v] d)) by reflexivity.
  destruct (series_inv tv r [v] ([] ++ [if nle tv v then Some v else None]) ([] ++ [if nle tv v then None else Some v])) with (d := d) as (A & B & C); try reflexivity.
  - discriminate.
  - intros j Hj. cbn in Hj. assert (j = 0%nat) by lia. subst j. cbn [app nth sideOrBefore]. destruct (nle tv v); auto.
  - split; [exact A|]. split; [exact B|]. apply C. exact Hi.
Qed.
End Chart.
Theorem C68_every_point_drawn : forall (ch : Chart R) (target : R) i, (i < List.length (ch_coh ch))%nat ->
  let v := nth i (ch_coh ch) 0 in
  nth i (fst (@chartSeries R RNum ch target)) None = Some v \/ nth i (snd (@chartSeries R RNum ch target)) None = Some v.
Proof.
  intros ch target i Hi v. destruct (@C68_series R RNum ch target 0 i Hi) as (_ & _ & A & B). rewrite A, B. fold v.
  destruct i; cbn [sideOrBefore].
  - destruct (nle _ _); cbn [negb]; auto.
  - destruct (nle _ (nth (S i) _ _)); cbn [negb orb]; auto.
Qed.
Example C68_applies : exists us : list (R * R * bool), List.length (ch_coh (@charted R RNum us)) = 50%nat /\ List.length us = 60%nat.
Proof. exists (repeat (1 / 2, 9 / 10, false) 60). split; reflexivity. Qed.
Print Assumptions C67_range.
Print Assumptions C67_percent.
Print Assumptions C67_share.
Print Assumptions C67_consensus.
Print Assumptions C67_health.
Print Assumptions C67_api_and_load.
Print Assumptions C67_latency.
Print Assumptions C67_latency_refuted.
Print Assumptions C67_energy.
Print Assumptions C67_energy_disagrees_refuted.
Print Assumptions C67_utilisation_disagrees_refuted.
Print Assumptions C67_no_agents_refuted.
Print Assumptions C68_history.
Print Assumptions C68_at_most_fifty.
Print Assumptions C68_series.
Print Assumptions C68_every_point_drawn.
