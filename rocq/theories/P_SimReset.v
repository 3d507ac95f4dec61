(** Property C56: the phases set by Reset and by Disrupt (exact reals). *)
From Coq Require Import ZArith Reals Psatz Bool List Lia.
From Verif Require Import Num RealNum M_Core M_GoalConfig M_SimControl S_Circle L_Circle L_Coherence.
Import ListNotations.
Open Scope R_scope.

(** ** Pi is close to 3.14159 *)
Fixpoint zfact (n : nat) : Z := match n with O => 1%Z | S k => (Z.of_nat (S k) * zfact k)%Z end.
Lemma zfact_ok n : INR (fact n) = IZR (zfact n).
Proof.
  induction n as [|n IH]; [reflexivity|]. rewrite fact_simpl, mult_INR, IH. cbn [zfact]. rewrite mult_IZR, <- INR_IZR_INZ. reflexivity.
Qed.
Lemma sin_lo a : 0 <= a <= 4 -> a - a * a * a / 6 <= sin a.
Proof.
  intros H. destruct (pre_sin_bound a 0) as [L _]; try lra.
  cbv [sin_approx sum_f_R0 sin_term Nat.mul Nat.add] in L. rewrite !zfact_ok in L. cbv [zfact Z.of_nat Pos.of_succ_nat Pos.succ Z.mul Pos.mul Pos.add] in L. cbn [pow] in L. lra.
Qed.
Lemma PI_lo : 314159 / 100000 < PI.
Proof.
  assert (S : 0 < sin (314159 / 100000)).
  { destruct (pre_sin_bound (314159 / 100000) 4) as [L _]; try lra. eapply Rlt_le_trans; [|exact L].
    unfold sin_approx, sin_term. cbn [sum_f_R0 Nat.mul Nat.add]. rewrite !zfact_ok.
    repeat match goal with |- context [zfact ?n] => let v := eval vm_compute in (zfact n) in change (zfact n) with v end.
    cbn [pow]. lra. }
  destruct (Rlt_or_le (314159 / 100000) PI) as [H|H]; auto. exfalso.
  pose proof (sin_le_0 (314159 / 100000) H) as X. pose proof PI2_3_2. unfold PI2 in *. assert (sin (314159 / 100000) <= 0) by (apply X; lra). lra.
Qed.
Lemma PI_hi : PI < 31416 / 10000.
Proof.
  assert (S : sin (31416 / 10000) < 0).
  { destruct (pre_sin_bound (31416 / 10000) 4) as [_ U]; try lra. eapply Rle_lt_trans; [exact U|].
    unfold sin_approx, sin_term. cbn [sum_f_R0 Nat.mul Nat.add]. rewrite !zfact_ok.
    repeat match goal with |- context [zfact ?n] => let v := eval vm_compute in (zfact n) in change (zfact n) with v end.
    cbn [pow]. lra. }
  destruct (Rlt_or_le PI (31416 / 10000)) as [H|H]; auto. exfalso.
  pose proof (sin_ge_0 (31416 / 10000)). lra.
Qed.
Notation tau := (314159 / 100000).
Lemma sin_small x : 0 <= x -> sin x <= x.
Proof. intros H. destruct (Req_dec x 0) as [->|]; [rewrite sin_0; lra|]. apply Rlt_le, sin_lt_x. lra. Qed.
Lemma sin_tau : 0 <= sin tau <= / 100000.
Proof.
  pose proof PI_lo. pose proof PI_hi. rewrite <- sin_PI_x. split; [apply sin_ge_0; lra|].
  pose proof (sin_small (PI - tau)). lra.
Qed.
Lemma cos_tau : 0 <= 1 + cos tau <= / 10000000000.
Proof.
  pose proof sin_tau as [A B]. pose proof (sin2_cos2 tau) as E. unfold Rsqr in E. pose proof (COS_bound tau).
  assert (C : cos tau < 0). { apply cos_lt_0; pose proof PI_lo; pose proof PI_hi; lra. }
  split; [lra|]. assert ((1 + cos tau) * (1 - cos tau) <= / 10000000000) by nra. nra.
Qed.

(** ** Sums of evenly spaced phases *)
Lemma vlen_sq c s : vlen c s * vlen c s = c * c + s * s.
Proof. unfold vlen. apply sqrt_sqrt. nra. Qed.
Lemma dirichlet h a n : vlen (rsum (fun k => cos (a + 2 * INR k * h)) (seq 0 n)) (rsum (fun k => sin (a + 2 * INR k * h)) (seq 0 n)) * Rabs (sin h)
  = Rabs (sin (INR n * h)).
Proof.
  pose proof (dirichlet_cos h a n) as C. pose proof (dirichlet_sin h a n) as S.
  set (X := rsum (fun k => cos _) _) in *. set (Y := rsum (fun k => sin _) _) in *.
  assert (A : a + (2 * INR n - 1) * h = (a - h + INR n * h) + INR n * h) by ring.
  assert (B : a - h = (a - h + INR n * h) - INR n * h) by ring.
  set (m := a - h + INR n * h) in *. set (d := INR n * h) in *. rewrite A in C, S. rewrite B in C, S.
  rewrite sin_plus, sin_minus in C. rewrite cos_plus, cos_minus in S.
  assert (C' : sin h * X = cos m * sin d) by lra. assert (S' : sin h * Y = sin m * sin d) by lra.
  apply Rsqr_inj; [apply Rmult_le_pos; [apply vlen_ge0|apply Rabs_pos]|apply Rabs_pos|].
  rewrite Rsqr_mult, <- !Rsqr_abs. unfold Rsqr. rewrite vlen_sq.
  pose proof (sin2_cos2 m) as E. unfold Rsqr in E.
  replace ((X * X + Y * Y) * (sin h * sin h)) with ((sin h * X) * (sin h * X) + (sin h * Y) * (sin h * Y)) by ring.
  rewrite C', S'. replace (cos m * sin d * (cos m * sin d) + sin m * sin d * (sin m * sin d)) with ((sin m * sin m + cos m * cos m) * (sin d * sin d)) by ring.
  rewrite E. ring.
Qed.
Lemma seq_ne n : (1 <= n)%nat -> seq 0 n <> [].
Proof. destruct n; [lia|discriminate]. Qed.
Lemma spaced_coherence h n : (1 <= n)%nat -> 0 < sin h ->
  RMC (map (fun k => INR k * (2 * h)) (seq 0 n)) = Rabs (sin (INR n * h)) / (INR n * sin h).
Proof.
  intros Hn Hs. assert (N : 0 < INR n) by (apply lt_0_INR; lia).
  rewrite RMC_unfold by (intros E; apply map_eq_nil in E; now apply (seq_ne n Hn)).
  rewrite !rsum_map, map_length, seq_length, <- (dirichlet h 0 n), (Rabs_right (sin h)) by lra.
  rewrite (rsum_ext (fun x => cos (INR x * (2 * h))) (fun k => cos (0 + 2 * INR k * h))) by (intros; f_equal; ring).
  rewrite (rsum_ext (fun x => sin (INR x * (2 * h))) (fun k => sin (0 + 2 * INR k * h))) by (intros; f_equal; ring).
  field. lra.
Qed.

(** ** Two clusters *)
Lemma sqrt_near u v e : 0 <= u -> 0 <= e -> u * u <= v <= u * u + e * e -> u <= sqrt v <= u + e.
Proof.
  intros U E [A B]. split.
  - rewrite <- (sqrt_square u) by lra. apply sqrt_le_1_alt. lra.
  - rewrite <- (sqrt_square (u + e)) by lra. apply sqrt_le_1_alt. nra.
Qed.
Lemma clusters_coherence (l : list R) a b : l <> [] -> rsum cos l = INR a + INR b * cos tau -> rsum sin l = INR b * sin tau ->
  length l = (a + b)%nat ->
  Rabs (INR a - INR b) / INR (length l) <= RMC l <= Rabs (INR a - INR b) / INR (length l) + / 100000.
Proof.
  intros H C S L. rewrite RMC_unfold by exact H. rewrite C, S.
  assert (N : 0 < INR (length l)) by now apply INR_len_pos.
  assert (Ln : INR (length l) = INR a + INR b) by (rewrite L; apply plus_INR).
  pose proof (pos_INR a). pose proof (pos_INR b). pose proof cos_tau as [K1 K2].
  pose proof (sin2_cos2 tau) as E. unfold Rsqr in E.
  unfold vlen.
  destruct (sqrt_near (Rabs (INR a - INR b)) ((INR a + INR b * cos tau) * (INR a + INR b * cos tau) + INR b * sin tau * (INR b * sin tau)) (/ 100000 * INR (length l))) as [X Y].
  - apply Rabs_pos.
  - nra.
  - assert (V : (INR a + INR b * cos tau) * (INR a + INR b * cos tau) + INR b * sin tau * (INR b * sin tau) =
                Rabs (INR a - INR b) * Rabs (INR a - INR b) + 2 * INR a * INR b * (1 + cos tau)).
    { rewrite <- Rabs_mult, Rabs_right by (apply Rle_ge, (Rle_0_sqr (INR a - INR b))).
      replace ((INR a + INR b * cos tau) * (INR a + INR b * cos tau) + INR b * sin tau * (INR b * sin tau))
        with (INR a * INR a + 2 * INR a * INR b * cos tau + INR b * INR b * (sin tau * sin tau + cos tau * cos tau)) by ring.
      rewrite E. ring. }
    rewrite V. assert (P : 0 <= INR a * INR b) by nra.
    assert (Q : 2 * (INR a * INR b) <= INR (length l) * INR (length l)) by (rewrite Ln; nra).
    split; [nra|]. assert (2 * (INR a * INR b) * (1 + cos tau) <= INR (length l) * INR (length l) * / 10000000000) by (apply Rmult_le_compat; nra).
    nra.
  - split; [apply Rmult_le_compat_r; [left; now apply Rinv_0_lt_compat|exact X]|].
    apply Rmult_le_reg_r with (INR (length l)); [exact N|].
    replace (sqrt _ / INR (length l) * INR (length l)) with (sqrt ((INR a + INR b * cos tau) * (INR a + INR b * cos tau) + INR b * sin tau * (INR b * sin tau))) by (field; lra).
    replace ((Rabs (INR a - INR b) / INR (length l) + / 100000) * INR (length l)) with (Rabs (INR a - INR b) + / 100000 * INR (length l)) by (field; lra).
    exact Y.
Qed.

Lemma wrap_RMC (l : list R) : RMC (map WrapPhase l) = RMC l.
Proof. apply RMC_cong. induction l as [|x l IH]; cbn; constructor; auto. apply (RWrap_spec x). Qed.
Lemma parity_cut n : (n = 2 * (n / 2) + n mod 2 /\ n mod 2 < 2)%nat.
Proof. split; [apply Nat.div_mod; lia|apply Nat.mod_upper_bound; lia]. Qed.
Lemma odd_part a b n : (a + b = n)%nat -> (a = b + n mod 2 \/ b = a + n mod 2)%nat -> Rabs (INR a - INR b) = INR (n mod 2).
Proof.
  intros H [->| ->]; rewrite plus_INR.
  - replace (INR b + INR (n mod 2) - INR b) with (INR (n mod 2)) by ring. apply Rabs_right, Rle_ge, pos_INR.
  - replace (INR a - (INR a + INR (n mod 2))) with (- INR (n mod 2)) by ring. rewrite Rabs_Ropp. apply Rabs_right, Rle_ge, pos_INR.
Qed.

(** ** Reset *)
Lemma reset_RMC g n : RMC (resetPhases g n) = RMC (map (fun i => resetPhase g (Z.of_nat n) (Z.of_nat i)) (seq 0 n)).
Proof.
  unfold resetPhases. rewrite <- (map_map (fun i => resetPhase g (Z.of_nat n) (Z.of_nat i)) WrapPhase). apply wrap_RMC.
Qed.
(** All phases are in [0, 2 pi). *)
Theorem C56_reset_range : forall g n p, In p (resetPhases g n) -> 0 <= p < 2 * PI.
Proof.
  intros g n p H. unfold resetPhases in H. apply in_map_iff in H. destruct H as (i & <- & _). apply (RWrap_spec (resetPhase g (Z.of_nat n) (Z.of_nat i))).
Qed.
(** The goals that want synchrony start from (almost) none. *)
Theorem C56_reset_spread : forall g n, (2 <= n)%nat -> g = MinimizeAPICalls \/ g = ReachConsensus \/ g = OtherGoal ->
  0 <= RMC (resetPhases g n) <= / 100000.
Proof.
  intros g n Hn Hg. split; [apply RMC_bounds|]. rewrite reset_RMC.
  assert (N : 2 <= INR n) by (apply (le_INR 2); lia).
  set (h := tau / INR n).
  assert (Hh : 0 < h <= tau / 2).
  { unfold h. split; [apply Rdiv_lt_0_compat; lra|]. apply Rmult_le_compat_l; [lra|]. apply Rinv_le_contravar; lra. }
  assert (Hs : 58 / 100 * h <= sin h) by (pose proof (sin_lo h); nra).
  replace (map _ (seq 0 n)) with (map (fun k => INR k * (2 * h)) (seq 0 n)).
  2:{ apply map_ext. intros i. transitivity (IZR (Z.of_nat i) * (628318 / 100000 / IZR (Z.of_nat n))).
      - rewrite <- !INR_IZR_INZ. unfold h. field. lra.
      - destruct Hg as [->|[->| ->]]; reflexivity. }
  rewrite spaced_coherence by (try lia; lra).
  assert (Hnh : INR n * h = tau) by (unfold h; field; lra). rewrite Hnh.
  pose proof sin_tau as [A B]. rewrite Rabs_right by lra.
  assert (D : 1 <= INR n * sin h). { assert (INR n * (58 / 100 * h) <= INR n * sin h) by (apply Rmult_le_compat_l; lra). lra. }
  apply Rmult_le_reg_r with (INR n * sin h); [lra|]. unfold Rdiv. rewrite Rmult_assoc, Rinv_l by lra. nra.
Qed.
(** The goals that want the load spread start from full synchrony. *)
Theorem C56_reset_together : forall g n, (1 <= n)%nat -> g = DistributeLoad \/ g = SaveEnergy \/ g = AdaptToTraffic ->
  RMC (resetPhases g n) = 1.
Proof.
  intros g n Hn Hg. rewrite reset_RMC.
  rewrite RMC_unfold by (intros E; apply map_eq_nil in E; now apply (seq_ne n Hn)).
  assert (N : 0 < INR n) by (apply lt_0_INR; lia).
  rewrite !rsum_map, map_length, seq_length.
  rewrite (rsum_ext (fun x => cos (resetPhase g (Z.of_nat n) (Z.of_nat x))) (fun _ => 1)) by (intros; rewrite <- cos_0; destruct Hg as [->|[->| ->]]; reflexivity).
  rewrite (rsum_ext (fun x => sin (resetPhase g (Z.of_nat n) (Z.of_nat x))) (fun _ => 0)) by (intros; rewrite <- sin_0; destruct Hg as [->|[->| ->]]; reflexivity).
  rewrite !rsum_const, seq_length. unfold vlen. rewrite Rmult_0_r, Rmult_1_r, Rmult_0_r, Rplus_0_r, sqrt_square by lra. field. lra.
Qed.
Lemma two_sum (c : nat -> bool) l f : rsum (fun i => f (if c i then 0 else tau)) l =
  INR (length (filter c l)) * f 0 + INR (length (filter (fun i => negb (c i)) l)) * f tau.
Proof.
  induction l as [|x l IH]; [cbn; ring|]. cbn [rsum filter]. rewrite IH. destruct (c x); cbn [negb length]; rewrite S_INR; ring.
Qed.
Lemma filter_count {A} (c : A -> bool) l : (length (filter c l) + length (filter (fun i => negb (c i)) l) = length l)%nat.
Proof. induction l as [|x l IH]; [reflexivity|]. cbn. destruct (c x); cbn; lia. Qed.
Lemma two_phase_coherence (c : nat -> bool) n : (1 <= n)%nat ->
  let a := length (filter c (seq 0 n)) in let b := length (filter (fun i => negb (c i)) (seq 0 n)) in
  (a = b + n mod 2 \/ b = a + n mod 2)%nat ->
  INR (n mod 2) / INR n <= RMC (map (fun i => if c i then 0 else tau) (seq 0 n)) <= INR (n mod 2) / INR n + / 100000.
Proof.
  intros Hn a b H. pose proof (filter_count c (seq 0 n)) as L. fold a b in L. rewrite seq_length in L.
  pose proof (clusters_coherence (map (fun i => if c i then 0 else tau) (seq 0 n)) a b) as K.
  rewrite map_length, seq_length, (odd_part a b n L H) in K. apply K.
  - intros E; apply map_eq_nil in E; now apply (seq_ne n Hn).
  - rewrite rsum_map, two_sum, cos_0. fold a b. ring.
  - rewrite rsum_map, two_sum, sin_0. fold a b. ring.
  - lia.
Qed.
Lemma even_count n : forall s, (length (filter Nat.even (seq s n)) + (if Nat.even s then 0 else 1) * (n mod 2) = length (filter (fun i => negb (Nat.even i)) (seq s n)) + (if Nat.even s then 1 else 0) * (n mod 2))%nat.
Proof.
  induction n as [|n IH]; intros s; [cbn; lia|]. specialize (IH (S s)). cbn [seq filter].
  rewrite Nat.even_succ, <- Nat.negb_even in IH.
  assert (M : (S n mod 2 = 1 - n mod 2 /\ n mod 2 <= 1)%nat).
  { destruct (parity_cut n) as [P Q]. destruct (parity_cut (S n)) as [P' Q']. lia. }
  destruct (Nat.even s); cbn [negb length] in *; lia.
Qed.
Lemma half_count m n : (m <= n)%nat -> length (filter (fun i => i <? m)%nat (seq 0 n)) = m.
Proof.
  intros H. replace n with (m + (n - m))%nat by lia. rewrite seq_app, filter_app, app_length.
  assert (A : filter (fun i => i <? m)%nat (seq 0 m) = seq 0 m).
  { assert (X : forall l, (forall i, In i l -> (i < m)%nat) -> filter (fun i => i <? m)%nat l = l).
    { induction l as [|i l IHl]; intros K; [reflexivity|]. cbn [filter]. rewrite (proj2 (Nat.ltb_lt i m) (K i (or_introl eq_refl))). f_equal. apply IHl. intros j Hj. apply K. now right. }
    apply X. intros i Hi. apply in_seq in Hi. lia. }
  assert (B : filter (fun i => i <? m)%nat (seq (0 + m) (n - m)) = []).
  { assert (X : forall l, (forall i, In i l -> (m <= i)%nat) -> filter (fun i => i <? m)%nat l = []).
    { induction l as [|i l IHl]; intros K; [reflexivity|]. cbn [filter]. rewrite (proj2 (Nat.ltb_ge i m) (K i (or_introl eq_refl))). apply IHl. intros j Hj. apply K. now right. }
    apply X. intros i Hi. apply in_seq in Hi. lia. }
  rewrite A, B, seq_length. cbn. lia.
Qed.
(** Minimise latency alternates, recover from failure makes two halves: opposed clusters of equal size, up to one agent. *)
Theorem C56_reset_opposed : forall g n, (1 <= n)%nat -> g = MinimizeLatency \/ g = RecoverFromFailure ->
  INR (n mod 2) / INR n <= RMC (resetPhases g n) <= INR (n mod 2) / INR n + / 100000.
Proof.
  intros g n Hn [->| ->]; rewrite reset_RMC.
  - replace (map _ (seq 0 n)) with (map (fun i => if Nat.even i then 0 else tau) (seq 0 n)).
    + apply two_phase_coherence; [exact Hn|]. cbv zeta. left. pose proof (even_count n 0) as E. cbn [Nat.even] in E. lia.
    + apply map_ext. intros i. unfold resetPhase.
      replace (Z.rem (Z.of_nat i) 2 =? 0)%Z with (Nat.even i); [reflexivity|].
      rewrite Z.rem_mod_nonneg by lia. destruct (Nat.even i) eqn:E; symmetry.
      * apply Nat.even_spec in E. destruct E as [k ->]. apply Z.eqb_eq. rewrite Nat2Z.inj_mul, Z.mul_comm. apply Z.mod_mul. lia.
      * assert (O : Nat.odd i = true) by (rewrite <- Nat.negb_even, E; reflexivity). apply Nat.odd_spec in O. destruct O as [k ->].
        apply Z.eqb_neq. rewrite Nat2Z.inj_add, Nat2Z.inj_mul, Z.add_comm, Z.mul_comm, Z.mod_add by lia. discriminate.
  - replace (map _ (seq 0 n)) with (map (fun i => if (i <? n / 2)%nat then 0 else tau) (seq 0 n)).
    + apply two_phase_coherence; [exact Hn|]. cbv zeta. destruct (parity_cut n) as [P Q].
      pose proof (filter_count (fun i => i <? n / 2)%nat (seq 0 n)) as L. rewrite seq_length in L.
      rewrite half_count in * by lia. right. lia.
    + apply map_ext. intros i. unfold resetPhase.
      replace (Z.of_nat i <? Z.quot (Z.of_nat n) 2)%Z with (i <? n / 2)%nat; [reflexivity|].
      rewrite Z.quot_div_nonneg by lia. change 2%Z with (Z.of_nat 2). rewrite <- Nat2Z.inj_div.
      destruct (Nat.ltb_spec i (n / 2)); symmetry; [apply Z.ltb_lt|apply Z.ltb_ge]; lia.
Qed.
(** Maintain rhythm: steps of 1.7, coherence of the order of 1/n. *)
Theorem C56_reset_drift : forall n, (1 <= n)%nat -> 0 <= RMC (resetPhases MaintainRhythm n) <= 4 / (3 * INR n).
Proof.
  intros n Hn. split; [apply RMC_bounds|]. rewrite reset_RMC.
  assert (N : 0 < INR n) by (apply lt_0_INR; lia).
  assert (Hs : 75 / 100 <= sin (85 / 100)).
  { destruct (pre_sin_bound (85 / 100) 1) as [L _]; try lra. eapply Rle_trans; [|exact L].
    unfold sin_approx, sin_term. cbn [sum_f_R0 Nat.mul Nat.add]. rewrite !zfact_ok.
    repeat match goal with |- context [zfact ?n] => let v := eval vm_compute in (zfact n) in change (zfact n) with v end.
    cbn [pow]. lra. }
  replace (map _ (seq 0 n)) with (map (fun k => INR k * (2 * (85 / 100))) (seq 0 n)).
  2:{ apply map_ext. intros i. transitivity (IZR (Z.of_nat i) * (17 / 10)); [|reflexivity]. rewrite <- INR_IZR_INZ. lra. }
  rewrite spaced_coherence by (try lia; lra).
  assert (B : Rabs (sin (INR n * (85 / 100))) <= 1) by (apply Rabs_le; apply SIN_bound).
  pose proof (Rabs_pos (sin (INR n * (85 / 100)))).
  apply Rmult_le_reg_r with (INR n); [exact N|].
  replace (4 / (3 * INR n) * INR n) with (4 / 3) by (field; lra).
  replace (Rabs (sin (INR n * (85 / 100))) / (INR n * sin (85 / 100)) * INR n) with (Rabs (sin (INR n * (85 / 100))) / sin (85 / 100)) by (field; lra).
  apply Rmult_le_reg_r with (sin (85 / 100)); [lra|]. unfold Rdiv at 1. rewrite Rmult_assoc, Rinv_l by lra. lra.
Qed.

(** ** Disrupt *)
(** The first floor(n/5) agents move by 3.14159, the others keep their phases. *)
Theorem C56_disrupt_who : forall (ph : list R) i p, nth_error ph i = Some p ->
  exists q, nth_error (disruptPhases ph) i = Some q /\
    ((i < length ph / 5)%nat -> 0 <= q < 2 * PI /\ cong q (p + tau)) /\ ((length ph / 5 <= i)%nat -> q = p).
Proof.
  intros ph i p H. unfold disruptPhases. set (k := (length ph / 5)%nat).
  assert (Hk : (k <= length ph)%nat) by (apply Nat.div_le_upper_bound; lia).
  destruct (Nat.lt_ge_cases i k) as [L|L].
  - exists (WrapPhase (p + tau)). split; [|split; [intros _; exact (RWrap_spec (p + tau))|lia]].
    rewrite nth_error_app1 by (rewrite map_length, firstn_length; lia).
    erewrite map_nth_error; [reflexivity|]. rewrite <- H. rewrite <- (firstn_skipn k ph) at 2.
    rewrite nth_error_app1; [reflexivity|rewrite firstn_length; lia].
  - exists p. split; [|split; [lia|auto]].
    rewrite nth_error_app2 by (rewrite map_length, firstn_length; lia). rewrite map_length, firstn_length, Nat.min_l by lia.
    rewrite <- H. rewrite <- (firstn_skipn k ph) at 2. rewrite nth_error_app2 by (rewrite firstn_length; lia).
    rewrite firstn_length, Nat.min_l by lia. reflexivity.
Qed.
Theorem C56_disrupt_count : forall (ph : list R), length (disruptPhases ph) = length ph.
Proof.
  intros ph. unfold disruptPhases. rewrite app_length, map_length, <- app_length, firstn_skipn. reflexivity.
Qed.
Lemma vlen_triangle a b c d : vlen (a + c) (b + d) <= vlen a b + vlen c d.
Proof.
  apply Rsqr_incr_0_var; [|pose proof (vlen_ge0 a b); pose proof (vlen_ge0 c d); lra]. unfold Rsqr.
  rewrite vlen_sq. replace ((vlen a b + vlen c d) * (vlen a b + vlen c d)) with (vlen a b * vlen a b + vlen c d * vlen c d + 2 * (vlen a b * vlen c d)) by ring.
  rewrite !vlen_sq. assert (K : a * c + b * d <= vlen a b * vlen c d); [|lra].
  apply Rsqr_incr_0_var; [|apply Rmult_le_pos; apply vlen_ge0]. unfold Rsqr.
  replace (vlen a b * vlen c d * (vlen a b * vlen c d)) with ((vlen a b * vlen a b) * (vlen c d * vlen c d)) by ring.
  rewrite !vlen_sq. pose proof (Rle_0_sqr (a * d - b * c)). unfold Rsqr in *. nra.
Qed.
Lemma vlen_opp a b : vlen (- a) (- b) = vlen a b.
Proof. unfold vlen. f_equal. ring. Qed.
Lemma vlen_count l : vlen (rsum cos l) (rsum sin l) <= INR (length l).
Proof.
  induction l as [|x l IH]; [cbn; unfold vlen; rewrite !Rmult_0_l, Rplus_0_r, sqrt_0; lra|].
  cbn [rsum length]. rewrite S_INR. eapply Rle_trans; [apply vlen_triangle|].
  assert (vlen (cos x) (sin x) = 1).
  { unfold vlen. pose proof (sin2_cos2 x) as E. unfold Rsqr in E. rewrite Rplus_comm, E. apply sqrt_1. }
  lra.
Qed.
Lemma fifth n : 2 * INR (n / 5) <= 4 / 10 * INR n.
Proof.
  assert (H : (5 * (n / 5) <= n)%nat) by (apply Nat.mul_div_le; lia). apply le_INR in H. rewrite mult_INR in H. cbn [INR] in H. lra.
Qed.
(** The coherence changes by at most 2 floor(n/5)/n, so by at most 0.4. *)
Theorem C56_disrupt_bounded : forall (ph : list R), Rabs (RMC (disruptPhases ph) - RMC ph) <= 4 / 10.
Proof.
  intros ph. destruct ph as [|x r] eqn:Eph; [cbn; rewrite Rminus_diag_eq by reflexivity; rewrite Rabs_R0; lra|]. rewrite <- Eph in *.
  assert (H : ph <> []) by (subst; discriminate). clear x r Eph.
  assert (H' : disruptPhases ph <> []) by (intros E; apply H; apply length_zero_iff_nil; rewrite <- C56_disrupt_count, E; reflexivity).
  rewrite (RMC_unfold _ H), (RMC_unfold _ H'), C56_disrupt_count.
  pose proof (INR_len_pos _ H) as N. pose proof (fifth (length ph)) as F.
  set (k := (length ph / 5)%nat) in *.
  assert (Hk : (k <= length ph)%nat) by (apply Nat.div_le_upper_bound; lia).
  unfold disruptPhases. fold k. set (A' := map _ (firstn k ph)). set (A := firstn k ph) in *. set (B := skipn k ph) in *.
  assert (E1 : rsum cos ph = rsum cos A + rsum cos B) by (rewrite <- rsum_app; unfold A, B; now rewrite firstn_skipn).
  assert (E2 : rsum sin ph = rsum sin A + rsum sin B) by (rewrite <- rsum_app; unfold A, B; now rewrite firstn_skipn).
  rewrite E1, E2, !rsum_app. clear E1 E2.
  assert (LA : length A = k) by (unfold A; rewrite firstn_length; lia).
  assert (LA' : length A' = k) by (unfold A'; now rewrite map_length).
  pose proof (vlen_count A) as VA. pose proof (vlen_count A') as VA'. rewrite LA in VA. rewrite LA' in VA'.
  set (a := rsum cos A) in *. set (b := rsum sin A) in *. set (a' := rsum cos A') in *. set (b' := rsum sin A') in *.
  set (c := rsum cos B) in *. set (d := rsum sin B) in *.
  pose proof (vlen_triangle a b c d) as T1. pose proof (vlen_triangle a' b' c d) as T2.
  pose proof (vlen_triangle (a + c) (b + d) (- a) (- b)) as T3. pose proof (vlen_triangle (a' + c) (b' + d) (- a') (- b')) as T4.
  rewrite vlen_opp in T3, T4.
  replace (a + c + - a) with c in T3 by ring. replace (b + d + - b) with d in T3 by ring.
  replace (a' + c + - a') with c in T4 by ring. replace (b' + d + - b') with d in T4 by ring.
  unfold Rdiv. rewrite <- Rmult_minus_distr_r, Rabs_mult, (Rabs_right (/ _)) by (left; now apply Rinv_0_lt_compat).
  apply Rmult_le_reg_r with (INR (length ph)); [exact N|]. rewrite Rmult_assoc, Rinv_l, Rmult_1_r by lra.
  apply Rabs_le. lra.
Qed.
(** On a synchronised swarm: what is left. *)
Theorem C56_disrupt_synced : forall (p : R) n, (1 <= n)%nat ->
  1 - 2 * INR (n / 5) / INR n <= RMC (disruptPhases (repeat p n)) <= 1 - 2 * INR (n / 5) / INR n + / 100000.
Proof.
  intros p n Hn. assert (N : 0 < INR n) by (apply lt_0_INR; lia).
  set (k := (n / 5)%nat). assert (Hk : (5 * k <= n)%nat) by (apply Nat.mul_div_le; lia).
  assert (E : RMC (disruptPhases (repeat p n)) = RMC (repeat tau k ++ repeat 0 (n - k))).
  { transitivity (RMC (map (fun q => q + p) (repeat tau k ++ repeat 0 (n - k)))); [|apply RMC_rotate].
    apply RMC_cong. unfold disruptPhases. rewrite repeat_length. fold k. rewrite map_app. apply Forall2_app.
    - replace (firstn k (repeat p n)) with (repeat p k).
      + clear. induction k; cbn; constructor; auto. destruct (RWrap_spec (p + tau)) as [_ C]. rewrite (Rplus_comm tau p). exact C.
      + replace n with (k + (n - k))%nat by lia. rewrite repeat_app, firstn_app, repeat_length, Nat.sub_diag, firstn_O, app_nil_r.
        rewrite <- (repeat_length p k) at 2. now rewrite firstn_all.
    - replace (skipn k (repeat p n)) with (repeat p (n - k)).
      + clear. induction (n - k)%nat; cbn; constructor; auto. rewrite Rplus_0_l. exists 0%Z. ring.
      + replace n with (k + (n - k))%nat at 2 by lia. rewrite repeat_app, skipn_app, repeat_length, Nat.sub_diag, skipn_O.
        rewrite <- (repeat_length p k) at 2. now rewrite skipn_all. }
  rewrite E.
  assert (S : forall (f : R -> R) c m, rsum f (repeat c m) = INR m * f c).
  { intros f c m. induction m as [|m IH]; [cbn; ring|]. cbn [repeat rsum]. rewrite IH, S_INR. ring. }
  pose proof (clusters_coherence (repeat tau k ++ repeat 0 (n - k)) (n - k) k) as K.
  rewrite app_length, !repeat_length in K. replace (k + (n - k))%nat with n in K by lia.
  assert (V : Rabs (INR (n - k) - INR k) / INR n = 1 - 2 * INR k / INR n).
  { rewrite minus_INR by lia. assert (5 * INR k <= INR n) by (apply le_INR in Hk; rewrite mult_INR in Hk; cbn [INR] in Hk; lra).
    pose proof (pos_INR k). rewrite Rabs_right by lra. field. lra. }
  rewrite V in K. apply K.
  - intros X. apply (f_equal (@length R)) in X. rewrite app_length, !repeat_length in X. cbn in X. lia.
  - rewrite rsum_app, !S, cos_0. ring.
  - rewrite rsum_app, !S, sin_0. ring.
  - lia.
Qed.

(** Examples: twenty agents. *)
Example C56_spread_example : 0 <= RMC (resetPhases MinimizeAPICalls 20) <= / 100000.
Proof. apply C56_reset_spread; [lia|auto]. Qed.
Example C56_disrupt_example : 6 / 10 <= RMC (disruptPhases (repeat 1 20)) <= 6 / 10 + / 100000.
Proof.
  pose proof (C56_disrupt_synced 1 20) as H. change (20 / 5)%nat with 4%nat in H. cbn [INR] in H.
  assert (E : 1 - 2 * (1 + 1 + 1 + 1) / (1 + 1 + 1 + 1 + 1 + 1 + 1 + 1 + 1 + 1 + 1 + 1 + 1 + 1 + 1 + 1 + 1 + 1 + 1 + 1) = 6 / 10) by field.
  rewrite E in H. apply H. lia.
Qed.
(** Fewer than five agents are not disrupted at all. *)
Example C56_disrupt_few : disruptPhases [1; 2; 3; 4] = [1; 2; 3; 4].
Proof. reflexivity. Qed.

Print Assumptions C56_reset_range.
Print Assumptions C56_reset_spread.
Print Assumptions C56_reset_together.
Print Assumptions C56_reset_opposed.
Print Assumptions C56_reset_drift.
Print Assumptions C56_disrupt_who.
Print Assumptions C56_disrupt_count.
Print Assumptions C56_disrupt_bounded.
Print Assumptions C56_disrupt_synced.
