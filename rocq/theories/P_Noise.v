(** Property C90: the noise added to a stuck swarm. *)
From Coq Require Import ZArith Reals Psatz Bool List String Lia Permutation.
From Flocq Require Import Core.Core IEEE754.BinarySingleNaN.
From Verif Require Import Num GoBase F64 RealNum M_Core M_Random M_Strategy M_Agent M_Limits M_GoalConfig M_Monitor M_ConvMonitor M_Engine
  M_Swarm M_Sync S_Sync S_Circle S_Agent S_Round S_RoundMove S_Align S_Noise L_F64 L_F64x L_Circle L_Random L_Acc P_RoundDir P_RoundExact.
Import ListNotations.
Open Scope list_scope.
Open Scope R_scope.

Lemma setnth_split {A} (v : A) : forall l k q a, nth_error l k = Some a -> setnth l k v = Some q -> exists x y, l = x ++ a :: y /\ q = x ++ v :: y.
Proof.
  induction l as [|u l IH]; intros [|k] q a H E; try discriminate; cbn in H, E.
  - injection H as ->. injection E as <-. now exists [], l.
  - destruct (setnth l k v) as [r|] eqn:G; [|discriminate]. injection E as <-. destruct (IH k r a H G) as (x & y & -> & ->). now exists (u :: x), y.
Qed.

Lemma noise_step cfg b mag c a a' : gr_noise (g_res cfg) = mag -> 0 <= mag -> displaced mag c a a' -> displaced mag (S c) a (@noiseAgent R RNum cfg b a').
Proof.
  intros <- Hm ((p & Ep) & (dl & Hd & Hc) & _). split; [|split; [|discriminate]].
  - subst a'. eexists. unfold noiseAgent, SetPhase, upd_sd, fPhase. cbn. reflexivity.
  - set (z := (@Float64 R RNum b - 5 / 10) * gr_noise (g_res cfg)). pose proof (draw_half b (gr_noise (g_res cfg))) as H. fold z in H. rewrite (Rabs_pos_eq (gr_noise _)) in H by auto.
    exists (dl + z). split; [rewrite S_INR; apply Rle_trans with (Rabs dl + Rabs z); [apply Rabs_triang|lra]|].
    unfold noiseAgent, SetPhase, upd_sd, fPhase. cbn [ag_sd sd_phase].
    change (cong (@WrapPhase R RNum (@WrapPhase R RNum (phaseOf a' + z))) (sd_phase (ag_sd a) + (dl + z))).
    destruct (RWrap_spec (@WrapPhase R RNum (phaseOf a' + z))) as [_ [i I]]. destruct (RWrap_spec (phaseOf a' + z)) as [_ [j J]]. destruct Hc as [k K].
    unfold phaseOf in *. exists (i + j + k)%Z. rewrite !plus_IZR. rewrite I, J, K. ring.
Qed.

(** The disturbances, whoever is picked. *)
Lemma resonance_R cfg ord bytes noise l0 : 0 <= gr_noise (g_res cfg) -> (forall k l, Permutation (ord k l) l) ->
  forall todo k j l q, disturbed (gr_noise (g_res cfg)) j l0 l -> @resonanceLoop R RNum cfg ord bytes noise k todo l = Some q ->
  disturbed (gr_noise (g_res cfg)) (j + todo) l0 q.
Proof.
  intros Hm HO. induction todo as [|t IH]; intros k j l q D E; cbn [resonanceLoop] in E.
  - injection E as <-. now rewrite Nat.add_0_r.
  - cbv zeta in E. set (w := ord k l) in *. destruct (Intn _ _) as [idx| |] eqn:GI; try discriminate.
    replace (j + S t)%nat with (S j + t)%nat by lia. refine (IH _ _ _ _ _ E). clear E IH.
    assert (In01 : (0 <= idx < Z.of_nat (List.length w))%Z).
    { revert GI. unfold Intn. destruct (Z.leb_spec (Z.of_nat (List.length w)) 0); [discriminate|].
      destruct (Z.leb_spec (Z.of_nat (List.length w)) 1); [intros Q; injection Q as <-; lia|].
      destruct (_ <=? _)%Z; [|discriminate]. induction (bytes k) as [|u r IHb]; cbn [intnLoop]; [discriminate|].
      destruct (_ <? _)%Z; [|exact IHb]. intros Q; injection Q as <-. apply Z.mod_pos_bound. lia. }
    destruct (nthZ w idx) as [a|] eqn:GA.
    2:{ exfalso. unfold nthZ in GA. destruct (Z.ltb_spec idx 0); [lia|]. apply nth_error_None in GA. lia. }
    unfold nthZ in GA. unfold setZ. destruct (Z.ltb_spec idx 0); [lia|].
    destruct (setnth w (Z.to_nat idx) _) as [r|] eqn:GS.
    2:{ exfalso. clear - GA GS. revert GA GS. generalize (Z.to_nat idx). generalize (@noiseAgent R RNum cfg (noise k) a) as v. intros v.
        induction w as [|u w IHw]; intros [|n]; cbn; try discriminate. intros H. destruct (setnth w n v) eqn:G; [discriminate|]. intros _. exact (IHw n H G). }
    destruct (setnth_split _ _ _ _ _ GA GS) as (x & y & Ew & Er). destruct D as (ts & P1 & P2 & P3 & P4).
    assert (PW : Permutation w (map snd ts)) by (rewrite P2; apply HO).
    destruct (Permutation_map_inv _ _ PW) as (ts' & E' & Pt). rewrite Ew in E'. symmetry in E'.
    apply map_eq_app in E'. destruct E' as (tx & ty' & -> & Ex & Ey). apply map_eq_cons in Ey. destruct Ey as ([[a0 c] a1] & ty & -> & Ea & Ey). cbn [snd] in Ea. subst a1.
    exists (tx ++ (a0, S c, @noiseAgent R RNum cfg (noise k) a) :: ty). split; [|split; [|split]].
    + rewrite <- P1. rewrite (Permutation_map _ Pt). rewrite !map_app. reflexivity.
    + rewrite map_app. cbn [map snd]. rewrite Ex, Ey, Er. reflexivity.
    + intros u n v Hin. assert (D : forall z, In z (tx ++ (a0, c, a) :: ty) -> In z ts) by (intros z Hz; eapply Permutation_in; [symmetry; exact Pt|exact Hz]).
      apply in_app_or in Hin. destruct Hin as [Hin|[Hin|Hin]].
      * apply P3, D, in_or_app. now left.
      * injection Hin as <- <- <-. apply noise_step; auto. apply P3, D, in_or_app. right. now left.
      * apply P3, D, in_or_app. right. now right.
    + assert (S1 : forall u v : list (Agent R * nat * Agent R), Permutation u v -> fold_right (fun t n => snd (fst t) + n)%nat 0%nat u = fold_right (fun t n => snd (fst t) + n)%nat 0%nat v).
      { induction 1; cbn; lia. }
      assert (S2 : forall u v : list (Agent R * nat * Agent R), (fold_right (fun t n => snd (fst t) + n) 0 (u ++ v) = fold_right (fun t n => snd (fst t) + n) 0 u + fold_right (fun t n => snd (fst t) + n) 0 v)%nat).
      { induction u as [|z u IHu]; intros v; cbn; [reflexivity|]. rewrite IHu. lia. }
      rewrite <- P4, (S1 _ _ Pt), !S2. cbn. lia.
Qed.

Lemma touched_le ts : (touched ts <= fold_right (fun t n => snd (fst t) + n) 0 ts)%nat.
Proof.
  unfold touched. induction ts as [|[[a c] b] ts IH]; cbn; [lia|]. destruct c; cbn [Nat.eqb negb]; cbn [List.length]; lia.
Qed.

Lemma disturbed_0 mag l : 0 <= mag -> disturbed mag 0 l l.
Proof.
  intros Hm. exists (map (fun a => (a, 0%nat, a)) l). split; [|split; [|split]].
  - rewrite map_map. cbn. rewrite map_id. reflexivity.
  - rewrite map_map. cbn. rewrite map_id. reflexivity.
  - intros a c b H. apply in_map_iff in H. destruct H as (z & E & _). injection E as <- <- <-. split; [|split; [|reflexivity]].
    + exists (sd_phase (ag_sd z)). destruct z as [? [] ? ? ? ? ? ? ? ?]. reflexivity.
    + exists 0. split; [rewrite Rabs_R0; cbn; lra|]. exists 0%Z. lra.
  - induction l; cbn; auto.
Qed.

(** What the noise does to a population: as many disturbances as asked for, each of at most half the magnitude, nothing but phases changed, no more agents
    touched than disturbances made. *)
Theorem C90_noise : forall cfg ord bytes noise todo k l q, 0 <= gr_noise (g_res cfg) -> (forall k l, Permutation (ord k l) l) ->
  @resonanceLoop R RNum cfg ord bytes noise k todo l = Some q ->
  disturbed (gr_noise (g_res cfg)) todo l q /\
  exists ts, Permutation (map (fun t => fst (fst t)) ts) l /\ Permutation (map snd ts) q /\ (forall a c b, In (a, c, b) ts -> c = 0%nat -> b = a) /\ (touched ts <= todo)%nat.
Proof.
  intros cfg ord bytes noise todo k l q Hm HO E. pose proof (resonance_R cfg ord bytes noise l Hm HO todo k 0 l q (disturbed_0 _ l Hm) E) as D. cbn [plus] in D.
  split; [exact D|]. destruct D as (ts & P1 & P2 & P3 & P4). exists ts. split; [exact P1|]. split; [exact P2|]. split.
  - intros a c b Hin Hc. now apply (P3 a c b Hin).
  - rewrite <- P4. apply touched_le.
Qed.
Print Assumptions C90_noise.

(** How many: at least one, at most everybody, about the configured share (floats). *)
Theorem C90_count : forall tr (cfg : GCfg F) n, in_unit (gr_aff (g_res cfg)) -> (1 <= Z.of_nat n <= 2 ^ 53)%Z ->
  let c := @perturbCount F (FNum tr) cfg n in let share := IZR (Z.of_nat n) * B2R (gr_aff (g_res cfg)) in
  (1 <= c <= Z.of_nat n)%Z /\ IZR c <= Rmax 1 (share * (1 + / 2 ^ 53) + / 2 ^ 53) /\ share * (1 - / 2 ^ 53) - / 2 ^ 53 < IZR c + 1.
Proof.
  intros tr cfg n [Fa Ba] Hn. cbv zeta. unfold perturbCount. cbn [nmul nofZ ntrunc FNum]. set (A := gr_aff (g_res cfg)) in *.
  destruct (fofZ_fin (Z.of_nat n)) as [Fz Vz]; [lia|]. assert (N1 : 1 <= IZR (Z.of_nat n) <= IZR (2 ^ 53)) by (split; apply IZR_le; lia).
  set (N := IZR (Z.of_nat n)) in *. assert (S0 : 0 <= N * B2R A <= N) by (split; [apply Rmult_le_pos; lra|rewrite <- (Rmult_1_r N) at 2; apply Rmult_le_compat_l; lra]).
  assert (Bp : IZR (2 ^ 53) <= bpow radix2 1023) by (change (IZR (2 ^ 53)) with (bpow radix2 53); apply bpow_le; lia).
  destruct (fmul_fin (fofZ (Z.of_nat n)) A Fz Fa) as [Fm Vm]; [rewrite Vz; fold N; rewrite Rabs_pos_eq; lra|]. rewrite Vz in Vm. fold N in Vm.
  pose proof (rnd_abs (N * B2R A)) as E. rewrite <- Vm, (Rabs_pos_eq (N * B2R A)) in E by lra.
  assert (R0 : 0 <= B2R (fmul (fofZ (Z.of_nat n)) A)) by (rewrite Vm, <- rnd_0; apply rnd_le; lra).
  assert (R1 : B2R (fmul (fofZ (Z.of_nat n)) A) <= N).
  { rewrite Vm. apply Rle_trans with (rnd N); [apply rnd_le; lra|]. rewrite rnd_fmt; [lra|apply fmt_IZR; lia]. }
  set (z := fmul (fofZ (Z.of_nat n)) A) in *. set (v := B2R z) in *.
  assert (TZ : (0 <= Ztrunc v <= Z.of_nat n)%Z).
  { rewrite Ztrunc_floor by auto. split; [apply Zfloor_lub; auto|]. apply le_IZR. apply Rle_trans with v; [apply Zfloor_lb|exact R1]. }
  rewrite ftrunc_spec by (auto; fold v; lia). fold v.
  assert (T1 : IZR (Ztrunc v) <= v) by (rewrite Ztrunc_floor by auto; apply Zfloor_lb).
  assert (T2 : v < IZR (Ztrunc v) + 1) by (rewrite Ztrunc_floor by auto; apply Zfloor_ub).
  pose proof tiny_u1000 as TU. assert (UP : 0 < u53) by (unfold u53; lra). assert (V53 : / 2 ^ 53 = u53) by (rewrite pow_Z; unfold u53; cbn; lra). rewrite V53. apply Rabs_le_inv in E.
  split; [lia|]. split.
  - destruct (Z.max_spec (Ztrunc v) 1) as [[_ ->]|[_ ->]]; [apply Rmax_l|]. apply Rle_trans with v; [exact T1|]. eapply Rle_trans; [|apply Rmax_r]. lra.
  - assert (IZR (Ztrunc v) <= IZR (Z.max (Ztrunc v) 1)) by (apply IZR_le; lia). lra.
Qed.
Print Assumptions C90_count.

(** A round of a stuck swarm that is not done adds that noise to what the completion made of the population; a round of a swarm that is not stuck adds none. *)
Theorem C90_round : forall cfg target e s s', 0 <= gr_noise (g_res cfg) -> 0 <= gr_aff (g_res cfg) -> (forall k l, Permutation (ev_view e k l) l) ->
  @round R RNum cfg target e s = Some (s', false) ->
  exists cp coh var l, Permutation l (ss_agents s) /\
    disturbed (gr_noise (g_res cfg))
      (if IsStuck (ss_mon s') then Z.to_nat (Z.max 1 (Zfloor (IZR (Z.of_nat (List.length (ss_agents s))) * gr_aff (g_res cfg)))) else 0)
      (@applyPatternCompletion R RNum cfg target cp coh var (ev_draw e) l) (ss_agents s').
Proof.
  intros cfg target e s s' Hm Ha HV. unfold round. cbv zeta. set (ag0 := ev_view e 0 (ss_agents s)). set (ag1 := ev_view e 1 ag0). set (ag2 := ev_view e 2 ag1). set (ag3 := ev_view e 3 ag2).
  destruct (isPatternAchieved _ _ _ _); [discriminate|].
  destruct (if ShouldSwitchStrategy _ then _ else _) as [[pf c]|]; [|discriminate].
  destruct (CompletePattern _ _ _) as [cp|]; [|discriminate].
  set (ag5 := ev_view e 5 _). set (ag6 := ev_view e 6 _). destruct (MeasurePhaseVariance _ _) as [var|]; [|discriminate].
  set (l := ev_view e 7 ag6). intros E. exists cp, (@swarmCoherence R RNum ag5), var, l.
  assert (Pl : Permutation l (ss_agents s)) by (unfold l, ag6, ag5, ag3, ag2, ag1, ag0; rewrite !HV; reflexivity).
  split; [exact Pl|]. set (ag7 := applyPatternCompletion _ _ _ _ _ _ _) in *.
  assert (L7 : List.length ag7 = List.length l).
  { unfold ag7, applyPatternCompletion. assert (L1 : forall d l i, List.length (@scatterLoop R RNum i d l) = List.length l) by (clear; induction l; intros; cbn; auto).
    assert (L2 : forall x d l i sc, List.length (@applyLoop R RNum x i d sc l) = List.length l).
    { clear. induction l as [|a l IH]; intros; cbn [applyLoop]; auto. destruct (applyAgent _ _ _ _ _). cbn [List.length]. now rewrite IH. }
    destruct (_ && _)%bool; [apply L1|apply L2]. }
  assert (D0 : disturbed (gr_noise (g_res cfg)) 0 ag7 (ev_view e 8 ag7)).
  { destruct (disturbed_0 _ ag7 Hm) as (ts & P1 & P2 & P3 & P4). exists ts. split; [exact P1|]. split; [rewrite P2; symmetry; apply HV|]. now split. }
  destruct (IsStuck _) eqn:ST.
  - destruct (resonanceLoop _ _ _ _ _ _ _) as [q|] eqn:RL; [|discriminate]. injection E as <-. cbn [ss_mon ss_agents]. rewrite ST.
    apply (resonance_R _ _ _ _ ag7 Hm (fun k l => HV (9 + k)%nat l) _ _ 0%nat _ _ D0) in RL. cbn [plus] in RL.
    assert (EC : @perturbCount R RNum cfg (List.length (ev_view e 8 ag7)) = Z.max 1 (Zfloor (IZR (Z.of_nat (List.length (ss_agents s))) * gr_aff (g_res cfg)))).
    { unfold perturbCount. rewrite (Permutation_length (HV 8%nat ag7)), L7, (Permutation_length Pl). rewrite Z.max_comm. cbn [ntrunc nmul nofZ RNum]. rewrite Ztrunc_floor; [reflexivity|].
      apply Rmult_le_pos; [apply IZR_le; lia|exact Ha]. }
    rewrite EC in RL. exact RL.
  - injection E as <-. cbn [ss_mon ss_agents]. rewrite ST. exact D0.
Qed.
Print Assumptions C90_round.

(** The agents are drawn with replacement: the same agent may be hit each time, and then moves by more than half the magnitude; of twenty agents, ten percent, only one is touched. *)
Definition still : Agent R := mkAgent "a" (mkSD 0 100 0 1%Z) (mkBD (1 / 2) 0) (@ctx0 R RNum) 2 1 true true None None.
Lemma res_first cfg (ord : nat -> list (Agent R) -> list (Agent R)) noise k t a l : List.length l = 19%nat -> forall w, ord k w = a :: l ->
  @resonanceLoop R RNum cfg ord (fun _ => [0%Z]) noise k (S t) w = @resonanceLoop R RNum cfg ord (fun _ => [0%Z]) noise (S k) t (@noiseAgent R RNum cfg (noise k) a :: l).
Proof. intros L w E. cbn [resonanceLoop]. cbv zeta. rewrite E. cbn [List.length]. rewrite L. reflexivity. Qed.
Theorem C90_replacement_refuted : forall cfg : GCfg R, gr_noise (g_res cfg) = 4 / 10 -> gr_aff (g_res cfg) = 1 / 10 ->
  exists noise bytes a, @perturbCount R RNum cfg 20 = 2%Z /\
    @resonanceLoop R RNum cfg (fun _ l => l) bytes noise 0 2 (repeat still 20) = Some (a :: repeat still 19) /\
    sd_phase (ag_sd a) = 3 / 4 * gr_noise (g_res cfg).
Proof.
  intros cfg Hn Ha. set (b := (7 * 2 ^ 50)%Z). exists (fun _ => b), (fun _ => [0%Z]).
  eexists. split; [|split].
  - unfold perturbCount. cbn [ntrunc nmul nofZ RNum]. rewrite Ha. replace (IZR (Z.of_nat 20) * (1 / 10)) with (IZR 2) by (cbn; lra). rewrite Ztrunc_IZR. reflexivity.
  - rewrite (res_first cfg (fun _ l => l) _ 0 1 still (repeat still 19) eq_refl) by reflexivity.
    rewrite (res_first cfg (fun _ l => l) _ 1 0 _ (repeat still 19) eq_refl) by reflexivity. reflexivity.
  - assert (Fb : @Float64 R RNum b = 7 / 8) by (change (7881299347898368 / 9007199254740992 = 7 / 8); lra).
    assert (W : forall x, 0 <= x < 2 * PI -> @WrapPhase R RNum x = x) by (intros x Hx; apply RWrap_unique; [exact Hx|exists 0%Z; lra]).
    pose proof PI_bounds as PB.
    assert (St : forall z x, sd_phase (ag_sd z) = x -> 0 <= x <= 1 -> sd_phase (ag_sd (@noiseAgent R RNum cfg b z)) = x + 3 / 20).
    { intros z x E Hx. unfold noiseAgent, SetPhase, upd_sd, fPhase, phaseOf. cbn [ag_sd sd_phase]. rewrite Fb, Hn, E. cbn [nadd nmul nsub nlit RNum].
      assert (W1 : @WrapPhase R RNum (x + (7 / 8 - 5 / 10) * (4 / 10)) = x + 3 / 20) by (rewrite W by lra; lra). rewrite W1. apply W. lra. }
    rewrite (St _ (0 + 3 / 20)); [rewrite Hn; lra|apply St; [reflexivity|lra]|lra].
Qed.
Print Assumptions C90_replacement_refuted.

(** With nobody to disturb the program panics. *)
Theorem C90_empty_refuted : forall cfg ord bytes noise k todo, (forall k l, Permutation (ord k l) l) -> @resonanceLoop R RNum cfg ord bytes noise k (S todo) [] = None.
Proof. intros cfg ord bytes noise k todo H. cbn [resonanceLoop]. specialize (H k []). apply Permutation_sym, Permutation_nil in H. now rewrite H. Qed.
Print Assumptions C90_empty_refuted.

(** The amplitude, the waveform and the stability of the target play no part in a round. *)
Theorem C27_target_inert : forall T (N : Num T) (cfg : GCfg T) t t' e s, tp_phase t = tp_phase t' -> tp_freq t = tp_freq t' -> tp_coh t = tp_coh t' ->
  round cfg t e s = round cfg t' e s.
Proof.
  intros T N cfg [p f a c w z] [p' f' a' c' w' z'] e s. cbn [tp_phase tp_freq tp_coh]. intros -> -> ->. reflexivity.
Qed.
Print Assumptions C27_target_inert.
(** The coherence recorded in a round is that of the third traversal. *)
Theorem C27_recorded : forall T (N : Num T) (cfg : GCfg T) t e s s' b, round cfg t e s = Some (s', b) ->
  exists cur, ss_mon s' = GRecord (ss_mon s) (ev_now e) (Some cur) (swarmCoherence (ev_view e 2 (ev_view e 1 (ev_view e 0 (ss_agents s))))).
Proof.
  intros T N cfg t e s s' b. unfold round. cbv zeta. set (cur := measureSystemPattern _ _). set (mon := GRecord _ _ _ _). intros E. exists cur. change (ss_mon s' = mon). clearbody mon cur.
  destruct (isPatternAchieved _ _ _ _); [injection E as <- _; reflexivity|].
  destruct (if ShouldSwitchStrategy _ then _ else _) as [[pf c]|]; [|discriminate].
  destruct (CompletePattern _ _ _) as [cp|]; [|discriminate].
  destruct (MeasurePhaseVariance _ _) as [var|]; [|discriminate].
  destruct (if IsStuck _ then _ else _) as [q|]; [|discriminate]. injection E as <- _. reflexivity.
Qed.
Print Assumptions C27_recorded.

(** The hypotheses can be met. *)
Example C90_hyp : exists (cfg : GCfg R), 0 <= gr_noise (g_res cfg) /\ 0 <= gr_aff (g_res cfg) /\
  exists q, @resonanceLoop R RNum cfg (fun _ l => l) (fun _ => [0%Z]) (fun k => Z.of_nat k) 0 3 (repeat still 20) = Some q.
Proof.
  exists (@For R RNum SaveEnergy). split; [cbn; lra|]. split; [cbn; lra|]. eexists.
  do 3 erewrite (res_first _ (fun _ l => l) _ _ _ _ (repeat still 19) eq_refl) by reflexivity. reflexivity.
Qed.
