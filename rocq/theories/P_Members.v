(** C95: what the coherence of a swarm says about its parts, and how far it can change when agents fail, join or move. *)
From Coq Require Import ZArith Reals Psatz Bool List Lia Permutation String.
From Flocq Require Import Core.Core IEEE754.BinarySingleNaN.
From Verif Require Import Num GoBase F64 RealNum M_Random M_Core M_Agent M_SwarmConfig M_Conn M_Swarm M_Sync M_Continuous S_Circle S_Agent S_Swarm S_Sync S_Acc L_F64 L_F64x L_Circle L_Coherence L_Acc L_AccRes L_Dist P_Accuracy P_AccuracySwarm P_SimReset P_Disrupt P_Patterns P_Predict P_AccuracyMove P_Arrived.
Import ListNotations.
Open Scope list_scope.
Open Scope R_scope.
Local Notation count l := (INR (List.length l)).

(** ** Exact arithmetic *)
Lemma RMC_vlen l : count l * RMC l = vlen (rsum cos l) (rsum sin l).
Proof.
  destruct l as [|x l]; [cbn; unfold vlen; rewrite !Rmult_0_l, Rplus_0_r, sqrt_0; ring|]. rewrite RMC_unfold by discriminate. field. apply not_0_INR. discriminate.
Qed.
(** The coherence of two groups taken together. *)
Theorem C95_merge : forall l1 l2 : list R,
  Rabs (count l1 * RMC l1 - count l2 * RMC l2) <= count (l1 ++ l2) * RMC (l1 ++ l2) <= count l1 * RMC l1 + count l2 * RMC l2.
Proof.
  intros l1 l2. rewrite !RMC_vlen, !rsum_app. set (a := rsum cos l1). set (b := rsum sin l1). set (c := rsum cos l2). set (d := rsum sin l2).
  pose proof (vlen_triangle a b c d) as T1. pose proof (vlen_triangle (a + c) (b + d) (- a) (- b)) as T2. pose proof (vlen_triangle (a + c) (b + d) (- c) (- d)) as T3. rewrite vlen_opp in T2, T3.
  replace (a + c + - a) with c in T2 by ring. replace (b + d + - b) with d in T2 by ring. replace (a + c + - c) with a in T3 by ring. replace (b + d + - d) with b in T3 by ring.
  split; [apply Rabs_le; lra|exact T1].
Qed.

Lemma RMC_repeat p n : (1 <= n)%nat -> RMC (repeat p n) = 1.
Proof.
  intros H. apply RMC_one_iff; [destruct n; [lia|discriminate]|]. intros a b A B. apply repeat_spec in A, B. subst. apply cong_refl.
Qed.
Lemma rsum_repeat (f : R -> R) p n : rsum f (repeat p n) = INR n * f p.
Proof.
  rewrite (rsum_ext f (fun _ => f p)) by (intros x Hx; apply repeat_spec in Hx; now subst). rewrite rsum_const, repeat_length. reflexivity.
Qed.
Lemma vlen_polar r t : 0 <= r -> vlen (r * cos t) (r * sin t) = r.
Proof.
  intros H. rewrite vlen_scale by exact H. unfold vlen. pose proof (sin2_cos2 t) as E. unfold Rsqr in E. rewrite Rplus_comm, E, sqrt_1. ring.
Qed.
Lemma has_direction a b : exists t, a = vlen a b * cos t /\ b = vlen a b * sin t.
Proof.
  destruct (Req_dec a 0) as [A|A]; [destruct (Req_dec b 0) as [B|B]|].
  - subst. exists 0. unfold vlen. rewrite !Rmult_0_l, Rplus_0_r, sqrt_0. lra.
  - destruct (polar a b) as (r & u & Hr & Hu & E1 & E2 & E3); [auto|]. exists u. rewrite E1, E2. rewrite (vlen_polar r u) by lra. split; reflexivity.
  - destruct (polar a b) as (r & u & Hr & Hu & E1 & E2 & E3); [auto|]. exists u. rewrite E1, E2. rewrite (vlen_polar r u) by lra. split; reflexivity.
Qed.
Lemma pos_count (l : list R) : l <> [] -> 1 <= count l.
Proof. destruct l; [contradiction|]. intros _. cbn [List.length]. rewrite S_INR. pose proof (pos_INR (List.length l)). lra. Qed.

(** Both bounds of [C95_merge] are attained, whatever the first group: by a second group standing where the first points,
    and by one standing opposite. *)
Theorem C95_merge_attained : forall (l1 : list R) m, exists t,
  count (l1 ++ repeat t m) * RMC (l1 ++ repeat t m) = count l1 * RMC l1 + INR m /\
  count (l1 ++ repeat (t + PI) m) * RMC (l1 ++ repeat (t + PI) m) = Rabs (count l1 * RMC l1 - INR m).
Proof.
  intros l1 m. destruct (has_direction (rsum cos l1) (rsum sin l1)) as (t & E1 & E2). exists t. rewrite !RMC_vlen, !rsum_app, !rsum_repeat.
  pose proof (vlen_ge0 (rsum cos l1) (rsum sin l1)) as V. set (v := vlen (rsum cos l1) (rsum sin l1)) in *. rewrite E1, E2. rewrite neg_cos, neg_sin.
  pose proof (pos_INR m) as M. split.
  - replace (v * cos t + INR m * cos t) with ((v + INR m) * cos t) by ring. replace (v * sin t + INR m * sin t) with ((v + INR m) * sin t) by ring. apply vlen_polar. lra.
  - replace (v * cos t + INR m * - cos t) with ((v - INR m) * cos t) by ring. replace (v * sin t + INR m * - sin t) with ((v - INR m) * sin t) by ring.
    destruct (Rle_dec 0 (v - INR m)) as [L|L]; [rewrite (Rabs_pos_eq (v - INR m)) by lra; apply vlen_polar; lra|].
    rewrite <- (Rabs_Ropp (v - INR m)), (Rabs_pos_eq (- (v - INR m))) by lra. rewrite <- vlen_opp.
    replace (- ((v - INR m) * cos t)) with (- (v - INR m) * cos t) by ring. replace (- ((v - INR m) * sin t)) with (- (v - INR m) * sin t) by ring. apply vlen_polar. lra.
Qed.

(** ** Failures: [l1] the agents that are left, [l2] those that failed *)
Theorem C95_failures : forall l1 l2 : list R, l1 <> [] ->
  (count (l1 ++ l2) * RMC (l1 ++ l2) - count l2) / count l1 <= RMC l1 /\
  RMC l1 <= (count (l1 ++ l2) * RMC (l1 ++ l2) + count l2) / count l1.
Proof.
  intros l1 l2 H. pose proof (C95_merge l1 l2) as [A B]. apply Rabs_le_inv in A. pose proof (RMC_bounds l2) as R2. pose proof (pos_count l1 H) as N1. pose proof (pos_INR (List.length l2)) as N2.
  assert (count l2 * RMC l2 <= count l2) by nra. split.
  - apply Rmult_le_reg_r with (count l1); [lra|]. unfold Rdiv. rewrite Rmult_assoc, Rinv_l by lra. lra.
  - apply Rmult_le_reg_r with (count l1); [lra|]. unfold Rdiv. rewrite Rmult_assoc, Rinv_l by lra. lra.
Qed.
(** Half of the agents failing leaves at least 2R - 1 ... *)
Theorem C95_half : forall l1 l2 : list R, l1 <> [] -> List.length l2 = List.length l1 ->
  2 * RMC (l1 ++ l2) - 1 <= RMC l1.
Proof.
  intros l1 l2 H E. destruct (C95_failures l1 l2 H) as [A _]. rewrite app_length, plus_INR, E in A. pose proof (pos_count l1 H).
  replace ((count l1 + count l1) * RMC (l1 ++ l2) - count l1) with ((2 * RMC (l1 ++ l2) - 1) * count l1) in A by ring.
  unfold Rdiv in A. rewrite Rmult_assoc, Rinv_r, Rmult_1_r in A by lra. exact A.
Qed.
(** ... and can leave exactly that, whatever the agents that are left. *)
Theorem C95_half_refuted : forall l1 : list R, l1 <> [] -> exists l2, List.length l2 = List.length l1 /\ RMC l1 = 2 * RMC (l1 ++ l2) - 1.
Proof.
  intros l1 H. destruct (C95_merge_attained l1 (List.length l1)) as (t & E & _). exists (repeat t (List.length l1)). rewrite repeat_length. split; [reflexivity|].
  rewrite app_length, plus_INR, repeat_length in E. pose proof (pos_count l1 H). apply Rmult_eq_reg_l with (count l1); [|lra]. lra.
Qed.
(** Of a swarm of two n agents half coherent, the n that are left can be without any coherence. *)
Theorem C95_lost_refuted : forall n, (2 <= n)%nat -> exists l1 l2, List.length l1 = n /\ List.length l2 = n /\ RMC (l1 ++ l2) = 1 / 2 /\ RMC l1 = 0.
Proof.
  intros n Hn. set (l1 := map (fun k => 0 + 2 * PI * INR k / INR n) (seq 0 n)). assert (L : List.length l1 = n) by (unfold l1; now rewrite map_length, seq_length).
  assert (Z : RMC l1 = 0) by (apply (RMC_equal_spacing 0 n Hn)).
  destruct (C95_half_refuted l1) as (l2 & E1 & E2); [intros C; rewrite C in L; cbn in L; lia|]. exists l1, l2. rewrite E1, L. repeat split; auto. lra.
Qed.

(** ** Moves *)
Lemma vlen_diff a b c d : Rabs (vlen a b - vlen c d) <= vlen (a - c) (b - d).
Proof.
  pose proof (vlen_triangle (a - c) (b - d) c d) as T1. pose proof (vlen_triangle (c - a) (d - b) a b) as T2. rewrite <- (vlen_opp (c - a)) in T2.
  replace (- (c - a)) with (a - c) in T2 by ring. replace (- (d - b)) with (b - d) in T2 by ring. replace (a - c + c) with a in T1 by ring. replace (b - d + d) with b in T1 by ring.
  replace (c - a + a) with c in T2 by ring. replace (d - b + b) with d in T2 by ring. apply Rabs_le. lra.
Qed.
(** Putting k of n agents anywhere changes the coherence by at most 2k/n. *)
Theorem C95_moved : forall old new rest : list R, List.length new = List.length old -> old ++ rest <> [] ->
  Rabs (RMC (new ++ rest) - RMC (old ++ rest)) <= 2 * count old / count (old ++ rest).
Proof.
  intros old new rest E H. pose proof (pos_count _ H) as N. apply Rmult_le_reg_l with (count (old ++ rest)); [lra|].
  assert (EN : count (new ++ rest) = count (old ++ rest)) by (rewrite !app_length, E; reflexivity).
  replace (count (old ++ rest) * (2 * count old / count (old ++ rest))) with (2 * count old) by (field; lra).
  rewrite <- (Rabs_pos_eq (count (old ++ rest))) by lra. rewrite <- Rabs_mult, Rmult_minus_distr_l. rewrite <- EN at 1. rewrite !RMC_vlen, !rsum_app.
  eapply Rle_trans; [apply vlen_diff|]. set (a := rsum cos new). set (b := rsum sin new). set (c := rsum cos old). set (d := rsum sin old).
  replace (a + rsum cos rest - (c + rsum cos rest)) with (a + - c) by ring. replace (b + rsum sin rest - (d + rsum sin rest)) with (b + - d) by ring.
  eapply Rle_trans; [apply vlen_triangle|]. rewrite vlen_opp. pose proof (vlen_count new) as V1. pose proof (vlen_count old) as V2. rewrite E in V1. unfold a, b, c, d. lra.
Qed.
Lemma chord p q d : is_arc p q d -> vlen (cos p - cos q) (sin p - sin q) <= d.
Proof.
  intros [(k & E) _]. set (x := p - q + IZR k * (2 * PI)) in *. assert (D : 0 <= d) by (rewrite E; apply Rabs_pos).
  apply Rsqr_incr_0_var; [|exact D]. unfold Rsqr. rewrite P_SimReset.vlen_sq.
  assert (C : cos x = cos (p - q)) by (apply cong_cos; exists k; unfold x; ring).
  assert (K : (cos p - cos q) * (cos p - cos q) + (sin p - sin q) * (sin p - sin q) = 2 - 2 * cos x).
  { rewrite C, cos_minus. pose proof (sin2_cos2 p) as P. pose proof (sin2_cos2 q) as Q. unfold Rsqr in P, Q. nra. }
  rewrite K. replace x with (2 * (x / 2)) by field. rewrite cos_2a_sin. pose proof (sin_abs (x / 2)) as S.
  assert (E2 : Rabs (x / 2) = d / 2) by (unfold Rdiv; rewrite Rabs_mult, (Rabs_pos_eq (/ 2)) by lra; now rewrite <- E). rewrite E2 in S. apply Rabs_le_inv in S. nra.
Qed.
(** If no agent moves by more than d around the circle, the coherence changes by at most d. *)
Theorem C95_all_move : forall (d : R) (l l' : list R), 0 <= d -> Forall2 (fun p q => exists x, is_arc p q x /\ x <= d) l l' ->
  Rabs (RMC l - RMC l') <= d.
Proof.
  intros d l l' D H. assert (EL : List.length l' = List.length l) by (clear D; induction H; cbn; congruence).
  destruct l as [|p0 l0]; [inversion H; subst; rewrite Rminus_diag_eq, Rabs_R0 by reflexivity; exact D|]. set (l := p0 :: l0) in *. assert (NE : l <> []) by discriminate.
  assert (G : vlen (rsum cos l - rsum cos l') (rsum sin l - rsum sin l') <= count l * d).
  { clear EL NE. clearbody l. induction H as [|p q m m' (x & A & B) H IH]; [cbn; unfold vlen; replace ((0 - 0) * (0 - 0) + (0 - 0) * (0 - 0)) with 0 by ring; rewrite sqrt_0; lra|].
    cbn [rsum List.length]. rewrite S_INR. replace (cos p + rsum cos m - (cos q + rsum cos m')) with ((cos p - cos q) + (rsum cos m - rsum cos m')) by ring.
    replace (sin p + rsum sin m - (sin q + rsum sin m')) with ((sin p - sin q) + (rsum sin m - rsum sin m')) by ring. eapply Rle_trans; [apply vlen_triangle|]. pose proof (chord p q x A). lra. }
  pose proof (pos_count l NE) as N. apply Rmult_le_reg_l with (count l); [lra|]. rewrite <- (Rabs_pos_eq (count l)) at 1 by lra. rewrite <- Rabs_mult, Rmult_minus_distr_l.
  assert (V' : count l * RMC l' = vlen (rsum cos l') (rsum sin l')) by (rewrite <- EL; apply RMC_vlen). rewrite RMC_vlen, V'. eapply Rle_trans; [apply vlen_diff|]. exact G.
Qed.

(** ** DisruptAgents in floating point *)
Lemma scattered_keeps {tr} d : forall i (l l' : list (string * Agent F)), @scattered F (FNum tr) d i l l' ->
  List.length l' = List.length l /\ Forall (fun a => in_turn (phaseOf a)) (map snd l').
Proof.
  intros i l. revert i. induction l as [|[k a] l IH]; intros i [|[k' a'] l'] H; cbn [scattered] in H; try contradiction; [split; [reflexivity|constructor]|].
  destruct H as (_ & E & H). destruct (IH _ _ H) as [A B]. split; [cbn [List.length]; congruence|]. cbn [map snd]. constructor; [|exact B].
  rewrite E. exact (C34_new_phase tr (d i)).
Qed.
(** What a disruption of the agents in the map does to the measured coherence. *)
Theorem C95_disrupt : forall tr e p ord d (s : Swarm F), trig_sane tr -> trig_acc tr e -> 0 <= e -> range_order ord ->
  s_map s <> [] -> (Z.of_nat (List.length (s_map s)) <= 2 ^ 50)%Z -> Forall (fun a => in_turn (phaseOf a)) (map snd (s_map s)) ->
  let n := IZR (Z.of_nat (List.length (s_map s))) in
  let k := IZR (Z.min (Z.max 0 (@disruptCount F (FNum tr) (s_size s) p)) (Z.of_nat (List.length (s_map s)))) in
  let before := @swarmCoherence F (FNum tr) (map snd (s_map s)) in
  let after := @swarmCoherence F (FNum tr) (map snd (s_map (@DisruptAgents F (FNum tr) p ord d s))) in
  is_finite before = true /\ is_finite after = true /\ 0 <= B2R before /\ 0 <= B2R after /\
  Rabs (B2R after - B2R before) <= 2 * k / n + 4 * e + (n + 5) / 2 ^ 50.
Proof.
  intros tr e p ord d s HS HA He HO HNE HN HT n k before after.
  destruct (@C34_disrupt F (FNum tr) p ord d s HO) as (hit & hit' & rest & P & K & S & D).
  destruct (scattered_keeps d 0 hit hit' S) as [L T].
  assert (ES : map snd (s_map (@DisruptAgents F (FNum tr) p ord d s)) = map snd hit' ++ map snd rest) by (rewrite D; cbn [set_map s_map]; apply map_app).
  assert (PS : Permutation (map snd (s_map s)) (map snd hit ++ map snd rest)) by (rewrite <- map_app; now apply Permutation_map).
  assert (TR : Forall (fun a => in_turn (phaseOf a)) (map snd rest)).
  { apply Forall_forall. intros a Ha. rewrite Forall_forall in HT. apply HT. eapply Permutation_in; [apply Permutation_sym; exact PS|]. apply in_or_app. now right. }
  assert (LA : List.length (map snd hit' ++ map snd rest) = List.length (s_map s)).
  { rewrite app_length, !map_length, L, <- app_length. symmetry. now apply Permutation_length. }
  assert (LM : List.length (s_map s) <> 0%nat) by (destruct (s_map s); [contradiction|discriminate]).
  destruct (C03_float_accuracy tr e (map phaseOf (map snd (s_map s))) HS HA He) as (F1 & G1 & A1).
  { intros C. apply (f_equal (@List.length F)) in C. rewrite !map_length in C. cbn in C. lia. } { rewrite !map_length. exact HN. } { now apply turn_29. }
  destruct (C03_float_accuracy tr e (map phaseOf (map snd hit' ++ map snd rest)) HS HA He) as (F2 & G2 & A2).
  { intros C. apply (f_equal (@List.length F)) in C. rewrite map_length, LA in C. cbn in C. lia. } { rewrite map_length, LA. exact HN. } { apply turn_29. apply Forall_app. now split. }
  cbv zeta in *. unfold after, before, swarmCoherence. rewrite ES. rewrite !map_length in A1. rewrite map_length, LA in A2. fold n in A1, A2.
  refine (conj F1 (conj F2 (conj G1 (conj G2 _)))).
  assert (E1 : RMC (map B2R (map phaseOf (map snd (s_map s)))) = RMC (map (fun a => B2R (phaseOf (snd a))) hit ++ map (fun a => B2R (phaseOf (snd a))) rest)).
  { apply RMC_perm. rewrite <- map_app, !map_map. now apply Permutation_map. }
  assert (E2 : map B2R (map phaseOf (map snd hit' ++ map snd rest)) = map (fun a => B2R (phaseOf (snd a))) hit' ++ map (fun a => B2R (phaseOf (snd a))) rest) by (rewrite !map_app, !map_map; reflexivity).
  rewrite E1 in A1. rewrite E2 in A2.
  pose proof (C95_moved (map (fun a => B2R (phaseOf (snd a))) hit) (map (fun a => B2R (phaseOf (snd a))) hit') (map (fun a => B2R (phaseOf (snd a))) rest)) as M.
  assert (LH : List.length (hit ++ rest) = List.length (s_map s)) by (symmetry; now apply Permutation_length).
  rewrite <- !map_app, !map_length, LH in M. rewrite !map_app in M. rewrite !INR_IZR_INZ, K in M.
  assert (M' := M L). clear M. assert (NE : map (fun a : string * Agent F => B2R (phaseOf (snd a))) hit ++ map (fun a => B2R (phaseOf (snd a))) rest <> []).
  { intros C. apply (f_equal (@List.length R)) in C. rewrite <- map_app, map_length, LH in C. cbn in C. lia. }
  specialize (M' NE). fold k n in M'. replace (2 ^ 51) with (2 * 2 ^ 50) in A1, A2 by (simpl; ring). replace ((n + 5) / (2 * 2 ^ 50)) with ((n + 5) / 2 ^ 50 / 2) in A1, A2 by (field; apply pow_nonzero; lra).
  apply Rabs_le_inv in A1, A2, M'. apply Rabs_le. set (w := (n + 5) / 2 ^ 50) in *. set (q := 2 * k / n) in *. clearbody w q. lra.
Qed.

(** ** The tick of RunContinuous *)
Lemma recov_bounds tr (target : F) : is_finite target = true -> 21 / 100 <= B2R target ->
  let c := @DefaultRecoveryConfig F (FNum tr) target in
  is_finite (rc_minviable c) = true /\ is_finite (rc_margin c) = true /\ is_finite (rc_small c) = true /\
  B2R (rc_minviable c) <= 95 / 100 * B2R target + 5 / 1000 /\ 849 / 1000 <= B2R (rc_margin c) <= 9801 / 10000 /\ 299 / 10000 <= B2R (rc_small c) <= 101 / 1000 /\
  (90001 / 100000 <= B2R target -> 9799 / 10000 <= B2R (rc_margin c)).
Proof.
  intros Ft Ht c. assert (L : forall n d, (0 < n <= d)%Z -> (d <= 1000)%Z -> is_finite (flit n d) = true /\ Rabs (B2R (flit n d) - IZR n / IZR d) <= 1 / 10 ^ 15).
  { intros n d A B. exact (lit_near n d A B). }
  assert (P15 : 1 / 10 ^ 15 <= 1 / 1000000) by (apply Rmult_le_compat_l; [lra|apply Rinv_le; [lra|assert (1 <= 10 ^ 9) by (apply pow_R1_Rle; lra); replace (10 ^ 15) with (1000000 * 10 ^ 9) by (simpl; ring); lra]]).
  assert (V : forall n d, (0 < n <= d)%Z -> (d <= 1000)%Z -> is_finite (flit n d) = true /\ IZR n / IZR d - 1 / 1000000 <= B2R (flit n d) <= IZR n / IZR d + 1 / 1000000).
  { intros n d A B. destruct (L n d A B) as [X Y]. apply Rabs_le_inv in Y. split; [exact X|lra]. }
  unfold c, DefaultRecoveryConfig. cbn [nle nlit FNum].
  destruct (V 9 10 ltac:(lia) ltac:(lia))%Z as [F9 V9]. destruct (V 7 10 ltac:(lia) ltac:(lia))%Z as [F7 V7]. destruct (V 5 10 ltac:(lia) ltac:(lia))%Z as [F5 V5].
  rewrite !fle_fin by assumption.
  destruct (V 98 100 ltac:(lia) ltac:(lia))%Z as [F98 V98]. destruct (V 95 100 ltac:(lia) ltac:(lia))%Z as [F95 V95]. destruct (V 92 100 ltac:(lia) ltac:(lia))%Z as [F92 V92]. destruct (V 85 100 ltac:(lia) ltac:(lia))%Z as [F85 V85].
  destruct (V 3 100 ltac:(lia) ltac:(lia))%Z as [G3 W3]. destruct (V 5 100 ltac:(lia) ltac:(lia))%Z as [G5 W5]. destruct (V 8 100 ltac:(lia) ltac:(lia))%Z as [G8 W8]. destruct (V 10 100 ltac:(lia) ltac:(lia))%Z as [G10 W10].
  destruct (V 4 10 ltac:(lia) ltac:(lia))%Z as [F4 V4]. destruct (V 3 10 ltac:(lia) ltac:(lia))%Z as [F3 V3]. destruct (V 2 10 ltac:(lia) ltac:(lia))%Z as [F2 V2].
  destruct (Rle_bool_spec (B2R (flit 9 10)) (B2R target)) as [A|A]; [|destruct (Rle_bool_spec (B2R (flit 7 10)) (B2R target)) as [B|B]; [|destruct (Rle_bool_spec (B2R (flit 5 10)) (B2R target)) as [C|C]]];
    cbn [rc_minviable rc_margin rc_small]; repeat split; try assumption; try intros; lra.
Qed.

Lemma mul_rel x y m : is_finite x = true -> is_finite y = true -> Rabs (B2R x * B2R y) <= m -> m <= 8 -> is_finite (fmul x y) = true /\ Rabs (B2R (fmul x y) - B2R x * B2R y) <= / 1000000.
Proof.
  intros Fx Fy A B. destruct (fmul_fin x y Fx Fy) as [G E].
  { eapply Rle_trans; [exact A|]. eapply Rle_trans; [exact B|]. pose proof big1023 as K. assert (2 ^ 3 <= 2 ^ 500) by (apply Rle_pow; [lra|lia]). lra. }
  split; [exact G|]. rewrite E. eapply Rle_trans; [apply rnd_abs|]. pose proof tiny_u1000. assert (u53 * Rabs (B2R x * B2R y) <= u53 * 8) by (apply Rmult_le_compat_l; [unfold u53; lra|lra]). unfold u53 in *. lra.
Qed.
Lemma sub_rel x y m : is_finite x = true -> is_finite y = true -> Rabs (B2R x - B2R y) <= m -> m <= 8 -> is_finite (fsub x y) = true /\ Rabs (B2R (fsub x y) - (B2R x - B2R y)) <= / 1000000.
Proof.
  intros Fx Fy A B. destruct (fsub_fin x y Fx Fy) as [G E].
  { eapply Rle_trans; [exact A|]. eapply Rle_trans; [exact B|]. pose proof big1023 as K. assert (2 ^ 3 <= 2 ^ 500) by (apply Rle_pow; [lra|lia]). lra. }
  split; [exact G|]. rewrite E. eapply Rle_trans; [apply rnd_abs|]. pose proof tiny_u1000. assert (u53 * Rabs (B2R x - B2R y) <= u53 * 8) by (apply Rmult_le_compat_l; [unfold u53; lra|lra]). unfold u53 in *. lra.
Qed.
Lemma abs_mul_le a b x y : 0 <= a <= x -> 0 <= b <= y -> Rabs (a * b) <= x * y.
Proof. intros A B. rewrite Rabs_pos_eq by nra. nra. Qed.

(** A tick asks for a new synchronisation only for a coherence that fell visibly: with the default settings, nothing is
    asked while the coherence stays at 0.981 of the target and within 0.029 of the last value. *)
Theorem C95_tick_quiet : forall tr (target c cur : F) stable active sync,
  is_finite target = true -> is_finite c = true -> is_finite cur = true ->
  21 / 100 <= B2R target <= 1 -> 0 <= B2R c <= 2 -> B2R cur <= 2 ->
  981 / 1000 * B2R target <= B2R cur -> 971 / 1000 * B2R c <= B2R cur ->
  fst (@tickState F (FNum tr) (@DefaultRecoveryConfig F (FNum tr) target) target (mkMS c c stable active sync) cur) = false.
Proof.
  intros tr target c cur stable active sync Ft Fc Fu HT HC HU H1 H2.
  destruct (recov_bounds tr target Ft (proj1 HT)) as (Fv & Fm & Fs & Bv & Bm & Bs & _). set (cfg := @DefaultRecoveryConfig F (FNum tr) target) in *. clearbody cfg.
  unfold tickState, newPeak. cbn [ms_peak ms_last ms_stable ms_active ms_sync]. unfold peakDecay. cbn [nlt nmul nsub FNum nlit].
  set (pk := if flt c cur then cur else fmul c (flit 9995 10000)).
  assert (PK : is_finite pk = true /\ (pk = cur \/ B2R cur <= B2R c /\ 99 / 100 * B2R c <= B2R pk <= 9996 / 10000 * B2R c)).
  { unfold pk. rewrite flt_fin by assumption. destruct (Rlt_bool_spec (B2R c) (B2R cur)) as [L|L]; [split; auto|].
    destruct (flit_fin 9995 10000 ltac:(lia) ltac:(lia)) as [F9 V9].
    assert (W9 : 99949 / 100000 <= B2R (flit 9995 10000) <= 99951 / 100000).
    { rewrite V9. pose proof (rnd_abs (IZR 9995 / IZR 10000)) as RA. pose proof tiny_u1000. rewrite (Rabs_pos_eq (9995 / 10000)) in RA by lra. apply Rabs_le_inv in RA. unfold u53 in *. lra. }
    destruct (mul_rel c (flit 9995 10000) (2 * 1) Fc F9) as [G E]; [apply abs_mul_le; lra|lra|]. split; [exact G|]. right. split; [exact L|]. apply Rabs_le_inv in E. 
    assert (99949 / 100000 * B2R c <= B2R c * B2R (flit 9995 10000) <= 99951 / 100000 * B2R c) by nra. lra. }
  clearbody pk. destruct PK as [Fp PK]. unfold needsResync. cbn [ms_peak ms_last ms_stable nlt nmul nsub FNum].
  rewrite (flt_fin cur (rc_minviable cfg)) by assumption. rewrite Rlt_bool_false by lra.
  destruct (mul_rel target (rc_margin cfg) (1 * 1) Ft Fm) as [G1 E1]; [apply abs_mul_le; lra|lra|]. apply Rabs_le_inv in E1.
  assert (B2R (fmul target (rc_margin cfg)) <= B2R cur) as Q1.
  { assert (B2R target * B2R (rc_margin cfg) <= B2R target * (9801 / 10000)) by (apply Rmult_le_compat_l; lra). lra. }
  rewrite (flt_fin cur (fmul target (rc_margin cfg))) by assumption. rewrite (Rlt_bool_false (B2R cur)) by exact Q1.
  assert (D : flt (fmul pk (rc_small cfg)) (fsub pk cur) = false).
  { destruct PK as [->|(L & P1)].
    - rewrite sub_self by exact Fu. destruct (mul_rel cur (rc_small cfg) (2 * 1) Fu Fs) as [G2 E2]; [apply abs_mul_le; lra|lra|]. rewrite flt_fin; [|exact G2|reflexivity]. apply Rlt_bool_false.
      apply Rabs_le_inv in E2. change (B2R (fofZ 0)) with 0. assert (21 / 100 * (9 / 10) * (299 / 10000) <= B2R cur * B2R (rc_small cfg)) by (apply Rmult_le_compat; lra). lra.
    - destruct (mul_rel pk (rc_small cfg) (2 * 1) Fp Fs) as [G2 E2]; [apply abs_mul_le; lra|lra|]. destruct (sub_rel pk cur 4 Fp Fu) as [G3 E3]; [apply Rabs_le; lra|lra|].
      rewrite flt_fin by assumption. apply Rlt_bool_false. apply Rabs_le_inv in E2, E3. assert (B2R pk * (299 / 10000) <= B2R pk * B2R (rc_small cfg)) by (apply Rmult_le_compat_l; lra). lra. }
  rewrite D. cbn [andb]. rewrite !andb_false_r. cbn [fst].
  destruct (mul_rel c (rc_small cfg) (2 * 1) Fc Fs) as [G2 E2]; [apply abs_mul_le; lra|lra|]. apply Rabs_le_inv in E2.
  assert (B2R c * (299 / 10000) <= B2R c * B2R (rc_small cfg)) by (apply Rmult_le_compat_l; lra).
  assert (B2R c * B2R (rc_small cfg) <= B2R c * (101 / 1000)) by (apply Rmult_le_compat_l; lra).
  destruct (sub_rel c (fmul c (rc_small cfg)) 4 Fc G2) as [G3 E3]; [apply Rabs_le; lra|lra|]. apply Rabs_le_inv in E3.
  rewrite flt_fin by assumption. apply Rlt_bool_false. destruct (Rle_dec (B2R c) (B2R cur)); [|assert (20 / 100 <= B2R c) by lra]; try lra.
Qed.
(** And it always asks when the coherence is below 0.979 of a target of at least 0.91, or below 0.848 of any target. *)
Theorem C95_tick_alarm : forall tr (target cur : F) st,
  is_finite target = true -> is_finite cur = true -> 21 / 100 <= B2R target <= 1 ->
  (91 / 100 <= B2R target /\ B2R cur <= 979 / 1000 * B2R target \/ B2R cur <= 848 / 1000 * B2R target) ->
  fst (@tickState F (FNum tr) (@DefaultRecoveryConfig F (FNum tr) target) target st cur) = true.
Proof.
  intros tr target cur st Ft Fu HT H.
  destruct (recov_bounds tr target Ft (proj1 HT)) as (Fv & Fm & Fs & Bv & Bm & Bs & B9). set (cfg := @DefaultRecoveryConfig F (FNum tr) target) in *. clearbody cfg.
  unfold tickState, needsResync. cbn [nlt nmul nsub FNum].
  destruct (mul_rel target (rc_margin cfg) (1 * 1) Ft Fm) as [G1 E1]; [apply abs_mul_le; lra|lra|]. apply Rabs_le_inv in E1.
  assert (B2R cur < B2R (fmul target (rc_margin cfg))) as Q1.
  { destruct H as [[H9 H]|H].
    - assert (B2R target * (9799 / 10000) <= B2R target * B2R (rc_margin cfg)) by (apply Rmult_le_compat_l; [lra|apply B9; lra]). lra.
    - assert (B2R target * (849 / 1000) <= B2R target * B2R (rc_margin cfg)) by (apply Rmult_le_compat_l; lra). lra. }
  rewrite (flt_fin cur (fmul target (rc_margin cfg))) by assumption. rewrite Rlt_bool_true by exact Q1. destruct (flt cur (rc_minviable cfg)); reflexivity.
Qed.
(** REFUTED, "the system automatically detects disruptions": from a coherence c measured before, a disruption of k agents
    in n is not noticed when 2k/n (plus the rounding error) is at most 0.029 c and at most c - 0.981 target. *)
Theorem C95_unnoticed_refuted : forall tr e p ord d (s : Swarm F) (target : F) stable active sync, trig_sane tr -> trig_acc tr e -> 0 <= e <= 1 / 1000 -> range_order ord ->
  s_map s <> [] -> (Z.of_nat (List.length (s_map s)) <= 1000000)%Z -> Forall (fun a => in_turn (phaseOf a)) (map snd (s_map s)) ->
  is_finite target = true -> 21 / 100 <= B2R target <= 1 ->
  let n := IZR (Z.of_nat (List.length (s_map s))) in
  let k := IZR (Z.min (Z.max 0 (@disruptCount F (FNum tr) (s_size s) p)) (Z.of_nat (List.length (s_map s)))) in
  let before := @swarmCoherence F (FNum tr) (map snd (s_map s)) in
  let after := @swarmCoherence F (FNum tr) (map snd (s_map (@DisruptAgents F (FNum tr) p ord d s))) in
  let change := 2 * k / n + 4 * e + (n + 5) / 2 ^ 50 in
  change <= 29 / 1000 * B2R before -> change <= B2R before - 981 / 1000 * B2R target ->
  fst (@tickState F (FNum tr) (@DefaultRecoveryConfig F (FNum tr) target) target (mkMS before before stable active sync) after) = false.
Proof.
  intros tr e p ord d s target stable active sync HS HA [He0 He] HO HNE HN HT Ft Ht n k before after change C1 C2.
  pose proof (C95_disrupt tr e p ord d s HS HA He0 HO HNE ltac:(lia) HT) as A. cbv zeta in A. fold n k before after in A. fold change in A. destruct A as (F1 & F2 & P1 & P2 & A). apply Rabs_le_inv in A.
  assert (B2R before <= 15 / 10).
  { destruct (C03_float_accuracy tr e (map phaseOf (map snd (s_map s))) HS HA He0) as (_ & _ & Q).
    { intros C. apply (f_equal (@List.length F)) in C. rewrite !map_length in C. cbn in C. destruct (s_map s); [contradiction|discriminate C]. } { rewrite !map_length. lia. } { now apply turn_29. }
    cbv zeta in Q. rewrite !map_length in Q. fold n in Q. fold (@swarmCoherence F (FNum tr) (map snd (s_map s))) in Q. fold before in Q.
    pose proof (RMC_bounds (map B2R (map phaseOf (map snd (s_map s))))). apply Rabs_le_inv in Q. assert (n <= 1000000) by (unfold n; apply IZR_le; exact HN).
    assert ((n + 5) / 2 ^ 51 <= 1 / 1000).
    { apply Rmult_le_reg_r with (2 ^ 51); [apply pow_lt; lra|]. unfold Rdiv. rewrite Rmult_assoc, Rinv_l, Rmult_1_r by (apply pow_nonzero; lra). replace (2 ^ 51) with 2251799813685248 by (rewrite pow_Z; reflexivity). lra. }
    lra. }
  apply C95_tick_quiet; auto; lra.
Qed.

(** A hundred agents at phase 0, of which one is disrupted. *)
Definition hundred : Swarm F := mkSwarm (map (fun i => (agentID i, standing (fofZ 0))) (seq 0 100)) [] [] false (mkState (fofZ 0) 100000000 (flit 9 10))
  (@SmallSwarmConfig F (FNum crTrig)) 100 false newNet None (@zeroRecovery F (FNum crTrig)) None.
Lemma hundred_map : map snd (s_map hundred) = repeat (standing (fofZ 0)) 100.
Proof. reflexivity. Qed.
Lemma hundred_before : Rabs (B2R (@swarmCoherence F (FNum crTrig) (map snd (s_map hundred))) - 1) <= 1 / 10000.
Proof.
  destruct (C03_float_accuracy crTrig (/ 2 ^ 51) (map phaseOf (map snd (s_map hundred))) cr_sane cr_acc) as (_ & _ & Q).
  { left. apply Rinv_0_lt_compat, pow_lt; lra. } { discriminate. } { vm_compute. discriminate. }
  { rewrite hundred_map. apply Forall_map, Forall_forall. intros a Ha. apply repeat_spec in Ha. subst a. split; [reflexivity|]. change (B2R (phaseOf (standing (fofZ 0)))) with 0. rewrite Rabs_R0. apply pow_le; lra. }
  cbv zeta in Q. unfold swarmCoherence. assert (E : RMC (map B2R (map phaseOf (map snd (s_map hundred)))) = 1).
  { apply RMC_one_iff; [discriminate|]. rewrite hundred_map, !map_map. intros p q A B. apply in_map_iff in A, B. destruct A as (x & <- & A), B as (y & <- & B). apply repeat_spec in A, B. subst. apply cong_refl. }
  rewrite E in Q. eapply Rle_trans; [exact Q|]. change (IZR (Z.of_nat (List.length (map phaseOf (map snd (s_map hundred)))))) with 100. replace (2 ^ 51) with 2251799813685248 by (rewrite pow_Z; reflexivity). lra.
Qed.
Example C95_unnoticed_applies : exists p, @disruptCount F (FNum crTrig) (s_size hundred) p = 1%Z /\ List.length (s_map hundred) = 100%nat /\
  (forall ord d stable active sync, range_order ord ->
   fst (@tickState F (FNum crTrig) (@DefaultRecoveryConfig F (FNum crTrig) (flit 9 10)) (flit 9 10)
     (mkMS (@swarmCoherence F (FNum crTrig) (map snd (s_map hundred))) (@swarmCoherence F (FNum crTrig) (map snd (s_map hundred))) stable active sync)
     (@swarmCoherence F (FNum crTrig) (map snd (s_map (@DisruptAgents F (FNum crTrig) p ord d hundred))))) = false).
Proof.
  exists (flit 1 100). assert (K : @disruptCount F (FNum crTrig) (s_size hundred) (flit 1 100) = 1%Z) by (vm_compute; reflexivity). split; [exact K|]. split; [reflexivity|].
  intros ord d stable active sync O. destruct (lit_near 9 10 ltac:(lia) ltac:(lia))%Z as [F9 V9]. apply Rabs_le_inv in V9.
  assert (P15 : 1 / 10 ^ 15 <= 1 / 1000000) by (apply Rmult_le_compat_l; [lra|apply Rinv_le; [lra|assert (1 <= 10 ^ 9) by (apply pow_R1_Rle; lra); replace (10 ^ 15) with (1000000 * 10 ^ 9) by (simpl; ring); lra]]).
  pose proof hundred_before as HB. apply Rabs_le_inv in HB. assert (E51 : / 2 ^ 51 <= / 1000000000) by (replace (2 ^ 51) with 2251799813685248 by (rewrite pow_Z; reflexivity); lra).
  assert (E0 : 0 < / 2 ^ 51) by (apply Rinv_0_lt_compat, pow_lt; lra).
  assert (CH : 2 * IZR (Z.min (Z.max 0 1) (Z.of_nat (List.length (s_map hundred)))) / IZR (Z.of_nat (List.length (s_map hundred))) + 4 * / 2 ^ 51 + (IZR (Z.of_nat (List.length (s_map hundred))) + 5) / 2 ^ 50 <= 21 / 1000).
  { change (Z.of_nat (List.length (s_map hundred))) with 100%Z. change (Z.min (Z.max 0 1) 100) with 1%Z. replace (2 ^ 50) with 1125899906842624 by (rewrite pow_Z; reflexivity). lra. }
  apply (C95_unnoticed_refuted crTrig (/ 2 ^ 51)); auto using cr_sane, cr_acc; try rewrite K; try lra; try discriminate.
  rewrite hundred_map. apply Forall_forall. intros a Ha. apply repeat_spec in Ha. subst a. split; [reflexivity|]. change (B2R (phaseOf (standing (fofZ 0)))) with 0. split; [lra|].
  assert (H : B2SF (fhalfpi 4) = SpecFloat.S754_finite false 7074237752028440 (-50)) by (vm_compute; reflexivity). apply L_PhaseF.B2R_of_B2SF in H. destruct H as [_ ->].
  unfold F2R. cbn [Fnum Fexp SpecFloat.cond_Zopp]. apply Rmult_lt_0_compat; [apply IZR_lt; lia|apply bpow_gt_0].
Qed.
Example C95_applies : RMC ([0] ++ [PI]) = 0 /\ [0] ++ [PI] <> [] /\ is_arc 0 PI PI.
Proof.
  split; [|split; [discriminate|]].
  - apply Rmult_eq_reg_l with (count ([0] ++ [PI])); [|cbn; lra]. rewrite RMC_vlen, Rmult_0_r. cbn [app rsum]. rewrite cos_0, sin_0, cos_PI, sin_PI. unfold vlen. replace ((1 + (-1 + 0)) * (1 + (-1 + 0)) + (0 + (0 + 0)) * (0 + (0 + 0))) with 0 by ring. apply sqrt_0.
  - rewrite <- (Rabs_pos_eq PI) at 2 by (left; apply PI_RGT_0). apply is_arc_of_rep; [pose proof PI_RGT_0; lra|]. exists (-1)%Z. ring.
Qed.

Print Assumptions C95_merge.
Print Assumptions C95_merge_attained.
Print Assumptions C95_failures.
Print Assumptions C95_half.
Print Assumptions C95_half_refuted.
Print Assumptions C95_lost_refuted.
Print Assumptions C95_moved.
Print Assumptions C95_all_move.
Print Assumptions C95_disrupt.
Print Assumptions C95_tick_quiet.
Print Assumptions C95_tick_alarm.
Print Assumptions C95_unnoticed_refuted.
