(** C96: the velocity, the rate and the advice to switch of the goal-directed monitor; the spread in Statistics. *)
From Coq Require Import ZArith Reals Psatz List Bool Lia Permutation.
From Flocq Require Import Core.Core IEEE754.BinarySingleNaN.
From Verif Require Import Num F64 RealNum L_F64 L_F64x M_Core M_Monitor M_ConvMonitor M_Engine S_Monitor L_Regress L_Circle L_Coherence P_ConvMonitor P_Periods.
Import ListNotations.
Open Scope list_scope.
Open Scope R_scope.

(** ** What the velocities are, from the calls alone *)
Section Spec.
Variable tg : option (TargetPattern R).
Definition at_time (c : call R) : R := IZR (fst (fst c)) / 1000000000.
Definition distOf (c : call R) : R := @PatternDistance R RNum (snd (fst c)) tg.
(** The difference quotient between two calls, in distance per second; 0 when the clock did not advance. *)
Definition speed (a b : call R) (v : R) : Prop :=
  (at_time a < at_time b -> v * (at_time b - at_time a) = distOf b - distOf a) /\ (at_time b <= at_time a -> v = 0).
(** The velocities of a whole list of calls: the first one has none. *)
Definition allSpeeds (l : list (call R)) (vs : list R) : Prop :=
  List.length vs = List.length l /\ (forall v, nth_error vs 0 = Some v -> v = 0) /\
  (forall i a b v, nth_error l i = Some a -> nth_error l (S i) = Some b -> nth_error vs (S i) = Some v -> speed a b v).
Lemma allSpeeds_snoc l vs a c v : allSpeeds (l ++ [a]) vs -> speed a c v -> allSpeeds ((l ++ [a]) ++ [c]) (vs ++ [v]).
Proof.
  intros (L & Z & H) SP. rewrite app_length in L. cbn in L. split; [rewrite !app_length; cbn; lia|]. split.
  - intros w Hw. rewrite nth_error_app1 in Hw by lia. auto.
  - intros i x y w Hx Hy Hw. assert (I : (S i < List.length ((l ++ [a]) ++ [c]))%nat) by (apply nth_error_Some; congruence). rewrite !app_length in I. cbn in I.
    rewrite nth_error_app1 in Hx by (rewrite app_length; cbn; lia). destruct (Nat.eq_dec (S i) (List.length l + 1)) as [E|E].
    + rewrite nth_error_app2 in Hy by (rewrite app_length; cbn; lia). rewrite nth_error_app2 in Hw by lia. rewrite app_length in Hy. cbn [List.length] in Hy.
      replace (S i - (List.length l + 1))%nat with 0%nat in Hy by lia. replace (S i - List.length vs)%nat with 0%nat in Hw by lia. cbn in Hy, Hw.
      rewrite nth_error_app2 in Hx by lia. replace (i - List.length l)%nat with 0%nat in Hx by lia. cbn in Hx. injection Hx as <-. injection Hy as <-. injection Hw as <-. exact SP.
    + rewrite nth_error_app1 in Hy by (rewrite app_length; cbn; lia). rewrite nth_error_app1 in Hw by lia. eapply H; eauto.
Qed.
End Spec.
Lemma lastn_snoc {A} k (l : list A) x : (1 <= k)%nat -> lastn k (l ++ [x]) = lastn (k - 1) l ++ [x].
Proof.
  intros H. unfold lastn. rewrite app_length. cbn [List.length]. replace (List.length l + 1 - k)%nat with (List.length l - (k - 1))%nat by lia. rewrite skipn_app.
  replace (List.length l - (k - 1) - List.length l)%nat with 0%nat by lia. reflexivity.
Qed.
Lemma skipn_twice {A} i : forall j (l : list A), skipn i (skipn j l) = skipn (j + i) l.
Proof. induction j as [|j IH]; intros l; [reflexivity|]. destruct l as [|x l]; [now rewrite !skipn_nil|]. cbn [skipn Nat.add]. apply IH. Qed.
Lemma lastn_lastn {A} j k (l : list A) : (j <= k)%nat -> lastn j (lastn k l) = lastn j l.
Proof.
  intros H. destruct (Nat.le_gt_cases (List.length l) k) as [L|L]; [now rewrite (lastn_all k l)|]. unfold lastn at 1 2. rewrite skipn_length. unfold lastn. 
  rewrite skipn_twice. f_equal. lia.
Qed.
Lemma lastn_len {A} k (l : list A) : List.length (lastn k l) = Nat.min k (List.length l).
Proof. unfold lastn. rewrite skipn_length. lia. Qed.

Lemma filter_le {A} (f : A -> bool) l : (List.length (filter f l) <= List.length l)%nat.
Proof. induction l as [|x l IH]; cbn; [lia|]. destruct (f x); cbn; lia. Qed.
Section Run.
Variable w : Z.
Variable tg : option (TargetPattern R).
Let mon (l : list (call R)) : GMon R := @gRun R RNum (@fresh R w tg) (map grec l).
Definition retained (l : list (call R)) : list (Sample R) := gm_hist (mon l).
Lemma retained_snoc l c : exists s, retained (l ++ [c]) = (let h := retained l ++ [s] in if (win w * 2 <? List.length h)%nat then lastn (win w) h else h) /\
  s = @newSample R RNum (mon l) (fst (fst c)) (snd (fst c)) (snd c) /\ key s = keyOf tg c.
Proof.
  unfold retained, mon. rewrite map_app, gRun_app. destruct (gRun_const (@fresh R w tg) (map grec l)) as [A B].
  set (m := gRun (fresh w tg) (map grec l)) in *. exists (@newSample R RNum m (fst (fst c)) (snd (fst c)) (snd c)). split; [|split; [reflexivity|]].
  - cbn [map gRun fold_left gStep grec]. rewrite record_hist, A. reflexivity.
  - rewrite key_new, B. reflexivity.
Qed.
Lemma newSample_speed l a c h s0 : mon l = h -> gm_hist h = s0 ++ [a] -> forall p, key a = keyOf tg p ->
  speed tg p c (sm_vel (@newSample R RNum (mon l) (fst (fst c)) (snd (fst c)) (snd c))).
Proof.
  intros E H p K. rewrite E. unfold newSample. rewrite H, rev_app_distr. cbn [rev app]. cbv zeta. destruct (gRun_const (@fresh R w tg) (map grec l)) as [_ B]. fold (mon l) in B. rewrite E in B. rewrite B. cbn [fresh SetTarget gm_target].
  unfold key, keyOf in K. injection K as K1 K2 _. rewrite rsec. unfold speed, at_time, distOf. rewrite K1, K2.
  set (t1 := fst (fst p)). set (t2 := fst (fst c)). rewrite minus_IZR. change (@nlt R RNum) with Rlt_bool. change (@n0 R RNum) with 0. change (@ndiv R RNum) with Rdiv. change (@nsub R RNum) with Rminus.
  set (D := PatternDistance (snd (fst c)) tg - PatternDistance (snd (fst p)) tg). replace ((IZR t2 - IZR t1) / 1000000000) with (IZR t2 / 1000000000 - IZR t1 / 1000000000) by field.
  set (u1 := IZR t1 / 1000000000). set (u2 := IZR t2 / 1000000000). destruct (Rlt_bool_spec 0 (u2 - u1)) as [L|L].
  - destruct (1 <? _)%nat; cbn [sm_vel]; (split; intros Q; [field; lra|exfalso; lra]).
  - cbn [sm_vel]. split; intros Q; [exfalso; lra|reflexivity].
Qed.
Lemma run_speeds l : exists vs, allSpeeds tg l vs /\ map sm_vel (retained l) = lastn (List.length (retained l)) vs /\
  (List.length (retained l) <= List.length l)%nat /\ (forall l' c, l = l' ++ [c] -> exists h s, retained l = h ++ [s] /\ key s = keyOf tg c).
Proof.
  induction l as [|c l IH] using rev_ind.
  - exists []. split; [split; [reflexivity|]; split; [discriminate|intros [|i] a b v H; discriminate H]|]. split; [reflexivity|]. split; [reflexivity|]. intros [|x l'] c H; discriminate H.
  - destruct IH as (vs & A & B & C & D). destruct (retained_snoc l c) as (s & E & ES & K).
    assert (LV : List.length vs = List.length l) by apply A.
    assert (SV : allSpeeds tg (l ++ [c]) (vs ++ [sm_vel s])).
    { destruct l as [|a l0 _] using rev_ind.
      - destruct vs; [|discriminate LV]. split; [reflexivity|]. split; [intros v Hv; injection Hv as <-; rewrite ES; reflexivity|]. intros i a b v H1 H2. destruct i; discriminate H2.
      - destruct (D l0 a eq_refl) as (h & sa & EH & KA). apply allSpeeds_snoc; [exact A|]. rewrite ES. eapply newSample_speed; [reflexivity|exact EH|exact KA]. }
    exists (vs ++ [sm_vel s]). split; [exact SV|]. cbv zeta in E. pose proof (win_pos w) as W.
    assert (M : map sm_vel (retained l ++ [s]) = lastn (S (List.length (retained l))) (vs ++ [sm_vel s])).
    { rewrite map_app, B, lastn_snoc by lia. cbn [map]. do 2 f_equal. lia. }
    rewrite E. destruct (_ <? _)%nat eqn:Q.
    + split.
      * rewrite lastn_len, app_length. cbn [List.length]. rewrite map_lastn, M. apply Nat.ltb_lt in Q. rewrite app_length in Q. cbn in Q. rewrite Nat.min_l by lia. apply lastn_lastn. lia.
      * split; [rewrite lastn_len, app_length; cbn; rewrite app_length; cbn; lia|]. intros l' c' EQ. apply app_inj_tail in EQ. destruct EQ as [-> ->]. rewrite lastn_snoc by lia. eauto.
    + split; [rewrite app_length; cbn [List.length]; rewrite Nat.add_1_r; exact M|]. split; [rewrite !app_length; cbn; lia|]. intros l' c' EQ. apply app_inj_tail in EQ. destruct EQ as [-> ->]. eauto.
Qed.
End Run.

(** Every retained sample carries the difference quotient of the distances of its call and the one before it. *)
Theorem C96_velocity : forall w tg (l : list (call R)),
  exists vs, allSpeeds tg l vs /\ map sm_vel (retained w tg l) = lastn (List.length (retained w tg l)) vs.
Proof. intros w tg l. destruct (run_speeds w tg l) as (vs & A & B & _). eauto. Qed.

(** ** The rate *)
Definition velocities (m : GMon R) : list R := map sm_vel (lastn (gm_win m) (gm_hist m)).
Definition moving (vs : list R) : nat := List.length (filter (fun v => if Req_EM_T v 0 then false else true) vs).
Lemma nsum_R l : @nsum R RNum l = rsum (fun x => x) l.
Proof.
  unfold nsum. change (@nadd R RNum) with Rplus. change (@n0 R RNum) with 0. assert (G : forall acc, fold_left Rplus l acc = acc + rsum (fun x => x) l).
  { induction l as [|x l IH]; intros acc; cbn; [ring|]. rewrite IH. ring. } rewrite G. ring.
Qed.
Lemma filter_moving vs : filter (fun v => negb (@neqb R RNum v (@n0 R RNum))) vs = filter (fun v => if Req_EM_T v 0 then false else true) vs.
Proof. apply filter_ext. intros v. change (@n0 R RNum) with 0. unfold neqb. cbn. unfold Req_bool. destruct (Rcompare_spec v 0); destruct (Req_EM_T v 0); cbn; try reflexivity; exfalso; lra. Qed.
Lemma sum_moving vs : rsum (fun x => x) (filter (fun v => if Req_EM_T v 0 then false else true) vs) = rsum (fun x => x) vs.
Proof. induction vs as [|v vs IH]; [reflexivity|]. cbn [filter rsum]. destruct (Req_EM_T v 0) as [->|]; cbn [rsum]; rewrite IH; ring. Qed.
(** The rate is the sum of the velocities of the window divided by the number of those that are not zero. *)
Theorem C96_rate : forall m : GMon R, (2 <= List.length (gm_hist m))%nat ->
  @GetConvergenceRate R RNum m * INR (moving (velocities m)) = rsum (fun v => v) (velocities m) /\
  (moving (velocities m) = 0%nat -> @GetConvergenceRate R RNum m = 0).
Proof.
  intros m H. unfold GetConvergenceRate. rewrite (proj2 (Nat.ltb_ge _ _) H). cbv zeta. change (map sm_vel (recent m)) with (velocities m). rewrite filter_moving.
  unfold moving. rewrite <- (sum_moving (velocities m)). set (f := filter _ (velocities m)). destruct f as [|v f]; [cbn; split; [ring|reflexivity]|].
  rewrite nsum_R. change (@ndiv R RNum) with Rdiv. change (@nofZ R RNum) with IZR. rewrite <- INR_IZR_INZ. split; [field; apply not_0_INR; discriminate|discriminate].
Qed.
(** So it is the mean velocity only when none of them is zero; otherwise it is larger in magnitude. *)
Theorem C96_rate_mean : forall m : GMon R, (2 <= List.length (gm_hist m))%nat -> velocities m <> [] ->
  let mean := rsum (fun v => v) (velocities m) / INR (List.length (velocities m)) in
  Rabs mean <= Rabs (@GetConvergenceRate R RNum m) /\
  (mean = @GetConvergenceRate R RNum m <-> mean = 0 \/ moving (velocities m) = List.length (velocities m)).
Proof.
  intros m H NE mean. destruct (C96_rate m H) as [A B]. set (r := GetConvergenceRate m) in *. set (vs := velocities m) in *.
  assert (LM : (moving vs <= List.length vs)%nat) by (unfold moving; generalize vs; intros l; induction l as [|x l IH]; cbn; [lia|destruct (Req_EM_T x 0); cbn; lia]).
  assert (N : 0 < INR (List.length vs)) by (apply lt_0_INR; destruct vs; [contradiction|cbn; lia]). apply le_INR in LM. pose proof (pos_INR (moving vs)) as P.
  assert (E : mean * INR (List.length vs) = r * INR (moving vs)) by (unfold mean; rewrite A; field; lra). split.
  - apply Rmult_le_reg_r with (INR (List.length vs)); [exact N|]. rewrite <- (Rabs_pos_eq (INR (List.length vs))) at 1 by lra. rewrite <- Rabs_mult, E, Rabs_mult, (Rabs_pos_eq (INR (moving vs))) by lra.
    apply Rmult_le_compat_l; [apply Rabs_pos|exact LM].
  - split.
    + intros Q. rewrite Q in E. destruct (Req_dec r 0) as [Z|Z]; [left; congruence|right]. apply INR_eq. apply Rmult_eq_reg_l with r; lra.
    + intros [Z|Z].
      * rewrite Z, Rmult_0_l in E. symmetry in E. apply Rmult_integral in E. destruct E as [E|E]; [congruence|]. rewrite Z. symmetry. apply B. apply INR_eq. exact E.
      * rewrite Z in E. apply Rmult_eq_reg_r with (INR (List.length vs)); lra.
Qed.

(** ** The advice *)
Section Advice.
Context {T : Type} {N : Num T}.
(** The samples of the window whose velocity is at least -0.001. *)
Definition idle (m : GMon T) : Z := Z.of_nat (List.length (filter (fun s => nle (nneg (nlit 1 1000)) (sm_vel s)) (lastn (gm_win m) (gm_hist m)))).
Definition seen (m : GMon T) : Z := Z.of_nat (List.length (lastn (gm_win m) (gm_hist m))).
(** A window of one or two samples never advises a switch and never reports convergence, whatever is recorded. *)
Theorem C96_small_window_refuted : forall w tg (ops : list (GOp T)), (win w < 3)%nat ->
  ShouldSwitchStrategy (gRun (fresh w tg) ops) = false /\ IsConverging (gRun (fresh w tg) ops) = false /\ IsStuck (gRun (fresh w tg) ops) = false.
Proof.
  intros w tg ops W. destruct (gRun_const (fresh w tg) ops) as [A _]. change (gm_win (fresh w tg)) with (win w) in A.
  assert (L : forall m : GMon T, gm_win m = win w -> (List.length (recent m) <? 3)%nat = true) by (intros m Hm; apply Nat.ltb_lt; unfold recent; rewrite lastn_len, Hm; lia).
  split; [unfold ShouldSwitchStrategy; destruct (_ <? _)%nat; [reflexivity|]; now rewrite L|].
  assert (G : IsConverging (gRun (fresh w tg) ops) = false /\ gm_stuck (gRun (fresh w tg) ops) = 0%Z).
  { clear A. induction ops as [|o ops IH] using rev_ind; [split; reflexivity|]. rewrite gRun_app. destruct (gRun_const (fresh w tg) ops) as [A _]. change (gm_win (fresh w tg)) with (win w) in A. set (m := gRun (fresh w tg) ops) in *.
    destruct o; cbn [gRun fold_left gStep]; [|split; reflexivity]. unfold GRecord, updateStatus. destruct (_ <? 3)%nat; [split; [reflexivity|apply IH]|]. rewrite L by exact A. split; [reflexivity|apply IH]. }
  destruct G as [G1 G2]. split; [exact G1|]. unfold IsStuck. now rewrite G2.
Qed.
End Advice.
Definition idleR (m : GMon R) : Z := Z.of_nat (List.length (filter (fun v => if Rle_dec (- (1 / 1000)) v then true else false) (velocities m))).
Lemma idle_R m : @idle R RNum m = idleR m.
Proof.
  unfold idle, idleR, velocities. f_equal. generalize (lastn (gm_win m) (gm_hist m)). intros l. change (@nlit R RNum 1 1000) with (1 / 1000). change (@nneg R RNum) with Ropp. change (@nle R RNum) with Rle_bool.
  induction l as [|s l IH]; [reflexivity|]. cbn [map filter]. destruct (Rle_bool_spec (- (1 / 1000)) (sm_vel s)), (Rle_dec (- (1 / 1000)) (sm_vel s)); cbn [List.length]; try congruence; exfalso; lra.
Qed.
(** Exact arithmetic: a switch is advised exactly when more than 70% of at least three samples are idle. *)
Theorem C96_switch : forall m : GMon R,
  @ShouldSwitchStrategy R RNum m = true <-> (3 <= seen m)%Z /\ (7 * seen m < 10 * idleR m)%Z.
Proof.
  intros m. rewrite <- idle_R. unfold ShouldSwitchStrategy. change (recent m) with (lastn (gm_win m) (gm_hist m)). fold (@seen R m).
  assert (SH : (List.length (lastn (gm_win m) (gm_hist m)) <= List.length (gm_hist m))%nat) by (rewrite lastn_len; lia).
  destruct (Nat.ltb_spec (List.length (gm_hist m)) 3) as [L|L]; [split; [discriminate|unfold seen; lia]|].
  destruct (Nat.ltb_spec (List.length (lastn (gm_win m) (gm_hist m))) 3) as [L'|L']; [split; [discriminate|unfold seen; lia]|].
  cbv zeta. fold (@idle R RNum m). change (@nlt R RNum) with Rlt_bool. change (@nmul R RNum) with Rmult. change (@nofZ R RNum) with IZR. change (@nlit R RNum 7 10) with (7 / 10).
  split.
  - intros Q. split; [unfold seen; lia|]. apply lt_IZR. rewrite !mult_IZR. destruct (Rlt_bool_spec (IZR (seen m) * (7 / 10)) (IZR (@idle R RNum m))) as [Q'|]; [lra|discriminate].
  - intros [_ Q]. apply IZR_lt in Q. rewrite !mult_IZR in Q. apply Rlt_bool_true. lra.
Qed.

(** Floats: the same for windows below 90 ... *)
Definition agree (n k : Z) : bool := Bool.eqb (flt (fmul (fofZ n) (flit 7 10)) (fofZ k)) (7 * n <? 10 * k)%Z.
Lemma agree_89 : forallb (fun n => forallb (fun k => agree (Z.of_nat n) (Z.of_nat k)) (seq 0 90)) (seq 0 90) = true.
Proof.
  assert (G : (let s := flit 7 10 in let fs := map (fun k => (Z.of_nat k, fofZ (Z.of_nat k))) (seq 0 90) in
    forallb (fun n => let t := fmul (fofZ (Z.of_nat n)) s in forallb (fun k => Bool.eqb (flt t (snd k)) (7 * Z.of_nat n <? 10 * fst k)%Z) fs) (seq 0 90)) = true) by (vm_compute; reflexivity).
  cbv zeta in G. rewrite forallb_forall in *. intros n Hn. specialize (G n Hn). cbv beta in G. rewrite forallb_forall in *. intros k Hk.
  exact (G (Z.of_nat k, fofZ (Z.of_nat k)) (in_map (fun k => (Z.of_nat k, fofZ (Z.of_nat k))) _ _ Hk)).
Qed.
Theorem C96_switch_float : forall tr (m : GMon F), (seen m <= 89)%Z ->
  (@ShouldSwitchStrategy F (FNum tr) m = true <-> (3 <= seen m)%Z /\ (7 * seen m < 10 * @idle F (FNum tr) m)%Z).
Proof.
  intros tr m B. unfold ShouldSwitchStrategy. change (recent m) with (lastn (gm_win m) (gm_hist m)). fold (@seen F m).
  assert (SH : (List.length (lastn (gm_win m) (gm_hist m)) <= List.length (gm_hist m))%nat) by (rewrite lastn_len; lia).
  destruct (Nat.ltb_spec (List.length (gm_hist m)) 3) as [L|L]; [split; [discriminate|unfold seen; lia]|].
  destruct (Nat.ltb_spec (List.length (lastn (gm_win m) (gm_hist m))) 3) as [L'|L']; [split; [discriminate|unfold seen; lia]|].
  cbv zeta. fold (@idle F (FNum tr) m). change (@nlt F (FNum tr)) with flt. change (@nmul F (FNum tr)) with fmul. change (@nofZ F (FNum tr)) with fofZ. change (@nlit F (FNum tr) 7 10) with (flit 7 10).
  assert (I : (0 <= @idle F (FNum tr) m <= seen m)%Z).
  { unfold idle, seen. split; [lia|]. apply Nat2Z.inj_le. apply filter_le. }
  assert (A : agree (seen m) (@idle F (FNum tr) m) = true).
  { pose proof agree_89 as G. rewrite forallb_forall in G. assert (S0 : (0 <= seen m)%Z) by (unfold seen; lia). specialize (G (Z.to_nat (seen m)) ltac:(apply in_seq; lia)). cbv beta in G. rewrite forallb_forall in G.
    specialize (G (Z.to_nat (@idle F (FNum tr) m)) ltac:(apply in_seq; lia)). cbv beta in G. rewrite !Z2Nat.id in G by lia. exact G. }
  unfold agree in A. apply Bool.eqb_prop in A. rewrite A, Z.ltb_lt. assert (3 <= seen m)%Z by (unfold seen; lia). tauto.
Qed.
(** ... REFUTED at 90: 63 idle samples of 90 are exactly 70%, and 90 * 0.7 rounds to a little less than 63. *)
Definition goalHere : option (TargetPattern F) := Some (mkTP (fofZ 0) 100000000 (fofZ 1) (fofZ 1) [] (fofZ 0)).
Definition callAt (i : Z) : call F := ((i * 1000000000)%Z, Some (mkTP (fhalfpi 3) 100000000 (fofZ 1) (flit (2 * Z.min i 27) 100) [] (fofZ 0)), fofZ 0).
Definition light {T} {N : Num T} (tg : option (TargetPattern T)) (l : list (call T)) : list (Sample T) :=
  fold_left (fun h c => h ++ [newSample (mkGMon h 0 tg false 0) (fst (fst c)) (snd (fst c)) (snd c)]) l [].
Lemma light_run {T} {N : Num T} w tg (l : list (call T)) : (List.length l <= 2 * win w)%nat -> gm_hist (gRun (fresh w tg) (map grec l)) = light tg l /\ List.length (light tg l) = List.length l.
Proof.
  induction l as [|c l IH] using rev_ind; [split; reflexivity|]. intros L. rewrite app_length in L. cbn in L. destruct (IH ltac:(lia)) as [E EL]. clear IH. unfold light in *. rewrite fold_left_app, map_app, gRun_app.
  destruct (gRun_const (fresh w tg) (map grec l)) as [A B]. set (m := gRun (fresh w tg) (map grec l)) in *. set (h := fold_left _ l []) in *.
  change (gRun m (map grec [c])) with (GRecord m (fst (fst c)) (snd (fst c)) (snd c)). change (fold_left ?f [c] h) with (f h c). cbv beta. rewrite record_hist.
  assert (EN : newSample m (fst (fst c)) (snd (fst c)) (snd c) = newSample (mkGMon h 0 tg false 0) (fst (fst c)) (snd (fst c)) (snd c)) by (unfold newSample; cbn [gm_hist gm_target]; rewrite E, B; reflexivity).
  rewrite EN, E, A. split; [|rewrite !app_length, EL; reflexivity]. rewrite app_length, EL. change (gm_win (fresh w tg)) with (win w). cbn [List.length]. rewrite (proj2 (Nat.ltb_ge _ _)) by lia. reflexivity.
Qed.
Lemma switch_eq tr (m : GMon F) : @ShouldSwitchStrategy F (FNum tr) m = if (List.length (gm_hist m) <? 3)%nat then false else
  if (List.length (lastn (gm_win m) (gm_hist m)) <? 3)%nat then false else flt (fmul (fofZ (seen m)) (flit 7 10)) (fofZ (@idle F (FNum tr) m)).
Proof. reflexivity. Qed.
Theorem C96_switch_refuted : forall tr, let m := @gRun F (FNum tr) (@fresh F 90 goalHere) (map grec (map callAt (map Z.of_nat (seq 0 90)))) in
  seen m = 90%Z /\ @idle F (FNum tr) m = 63%Z /\ @ShouldSwitchStrategy F (FNum tr) m = true.
Proof.
  intros tr. cbv zeta. set (m := @gRun F (FNum tr) _ _). destruct (@light_run F (FNum tr) 90 goalHere (map callAt (map Z.of_nat (seq 0 90)))) as [E EL]; [rewrite !map_length, seq_length; cbn; lia|]. fold m in E.
  rewrite !map_length, seq_length in EL.
  assert (W : gm_win m = 90%nat) by (unfold m; destruct (@gRun_const F (FNum tr) (@fresh F 90 goalHere) (map grec (map callAt (map Z.of_nat (seq 0 90))))) as [A _]; rewrite A; reflexivity).
  assert (R : lastn (gm_win m) (gm_hist m) = @light F (FNum tr) goalHere (map callAt (map Z.of_nat (seq 0 90)))) by (rewrite E; apply lastn_all; rewrite W, EL; lia).
  assert (S : seen m = 90%Z) by (unfold seen; rewrite R, EL; reflexivity).
  assert (I : @idle F (FNum tr) m = 63%Z) by (unfold idle; rewrite R; vm_compute; reflexivity). split; [exact S|]. split; [exact I|].
  rewrite (switch_eq tr m), S, I, R, E, EL. vm_compute. reflexivity.
Qed.
(** "The average convergence rate" leaves the seconds without change out: here the distance falls by less than 0.031 in four seconds,
    and the rate is below -0.029 per second. *)
Definition pauseAt (i : Z) : call F := ((i * 1000000000)%Z, Some (mkTP (fhalfpi 3) 100000000 (fofZ 1) (flit (if (i =? 0)%Z then 5 else 6) 10) [] (fofZ 0)), fofZ 0).
Definition endsOK (m : GMon F) : bool :=
  match hd_error (gm_hist m), hd_error (rev (gm_hist m)) with Some x, Some y => Z.eqb (sm_ts y - sm_ts x) 4000000000 && flt (fsub (sm_dist x) (sm_dist y)) (flit 31 1000) | _, _ => false end.
Lemma ends_ok (m : GMon F) : endsOK m = true -> exists a b, hd_error (gm_hist m) = Some a /\ hd_error (rev (gm_hist m)) = Some b /\ (sm_ts b - sm_ts a = 4000000000)%Z /\ flt (fsub (sm_dist a) (sm_dist b)) (flit 31 1000) = true.
Proof.
  unfold endsOK. destruct (hd_error (gm_hist m)) as [a|]; [|discriminate]. destruct (hd_error (rev (gm_hist m))) as [b|]; [|discriminate]. intros G. apply andb_true_iff in G. destruct G as [G1 G2]. apply Z.eqb_eq in G1. eauto 6.
Qed.
Theorem C96_rate_refuted : forall tr, let m := @gRun F (FNum tr) (@fresh F 10 goalHere) (map grec (map pauseAt [0; 1; 2; 3; 4]%Z)) in
  (exists a b, hd_error (gm_hist m) = Some a /\ hd_error (rev (gm_hist m)) = Some b /\ (sm_ts b - sm_ts a = 4000000000)%Z /\ flt (fsub (sm_dist a) (sm_dist b)) (flit 31 1000) = true) /\
  flt (@GetConvergenceRate F (FNum tr) m) (flit (-29) 1000) = true.
Proof. intros tr. cbv zeta. split; [apply ends_ok|]; vm_compute; reflexivity. Qed.

(** ** The acceleration *)
Lemma retained_two w tg l b a : (2 <= win w)%nat -> (2 <= List.length (retained w tg ((l ++ [b]) ++ [a])))%nat.
Proof.
  intros W. destruct (retained_snoc w tg (l ++ [b]) a) as (s & E & _ & _). rewrite E. cbv zeta. destruct (run_speeds w tg (l ++ [b])) as (_ & _ & _ & _ & D). destruct (D l b eq_refl) as (h & x & EH & _).
  rewrite EH. destruct (_ <? _)%nat; [rewrite lastn_len|]; rewrite !app_length; cbn; lia.
Qed.
(** From the third call on, with a window of at least two samples, the acceleration is the difference quotient of the last
    two velocities; the second call has none. *)
Theorem C96_acceleration : forall w tg (l : list (call R)) a c, (2 <= win w)%nat ->
  exists h sa sc, retained w tg (l ++ [a; c]) = h ++ [sa; sc] /\ key sa = keyOf tg a /\ key sc = keyOf tg c /\
    (l = [] \/ at_time c <= at_time a -> sm_acc sc = 0) /\
    (l <> [] -> at_time a < at_time c -> sm_acc sc * (at_time c - at_time a) = sm_vel sc - sm_vel sa).
Proof.
  intros w tg l a c W. replace (l ++ [a; c]) with ((l ++ [a]) ++ [c]) by (rewrite <- app_assoc; reflexivity).
  destruct (run_speeds w tg (l ++ [a])) as (_ & _ & _ & _ & D). destruct (D l a eq_refl) as (h & sa & EH & KA).
  destruct (retained_snoc w tg (l ++ [a]) c) as (sc & E & ES & KC). cbv zeta in E. rewrite EH in E.
  assert (X : exists h', retained w tg ((l ++ [a]) ++ [c]) = h' ++ [sa; sc]).
  { revert E. destruct (_ <? _)%nat; intros E; rewrite E.
    - rewrite lastn_snoc, lastn_snoc by lia. exists (lastn (win w - 1 - 1) h). rewrite <- app_assoc. reflexivity.
    - exists h. rewrite <- app_assoc. reflexivity. }
  destruct X as (h' & X). exists h', sa, sc. split; [exact X|]. split; [exact KA|]. split; [exact KC|].
  assert (LN : l <> [] -> (1 <? List.length (h ++ [sa]))%nat = true).
  { intros NE. apply Nat.ltb_lt. rewrite <- EH. destruct l as [|b l0 _] using rev_ind; [contradiction|]. pose proof (retained_two w tg l0 b a W). lia. }
  assert (L0 : l = [] -> (1 <? List.length (h ++ [sa]))%nat = false).
  { intros ->. apply Nat.ltb_ge. rewrite <- EH. destruct (run_speeds w tg ([] ++ [a])) as (_ & _ & _ & Q & _). exact Q. }
  rewrite ES. unfold newSample. unfold retained in EH. rewrite EH, rev_app_distr. cbn [rev app]. cbv zeta. unfold key, keyOf in KA. injection KA as K1 _ _. rewrite rsec. unfold at_time. rewrite K1.
  change (@nlt R RNum) with Rlt_bool. change (@n0 R RNum) with 0. change (@ndiv R RNum) with Rdiv. change (@nsub R RNum) with Rminus. rewrite minus_IZR.
  set (t1 := fst (fst a)). set (t2 := fst (fst c)). replace ((IZR t2 - IZR t1) / 1000000000) with (IZR t2 / 1000000000 - IZR t1 / 1000000000) by field.
  set (u1 := IZR t1 / 1000000000). set (u2 := IZR t2 / 1000000000). destruct (Rlt_bool_spec 0 (u2 - u1)) as [L|L].
  - cbn [sm_acc sm_vel]. split.
    + intros [Z|Z]; [rewrite (L0 Z); reflexivity|exfalso; lra].
    + intros NE _. rewrite (LN NE). cbn [sm_vel]. field. lra.
  - cbn [sm_acc sm_vel]. split; [reflexivity|intros _ Q; exfalso; lra].
Qed.

(** ** The spread in Statistics *)
Theorem C96_statistics : forall m : CM R, cm_hist m <> [] ->
  let n := INR (List.length (cm_hist m)) in
  exists mean sd, cs_mean (@CMStatistics R RNum m) = Some mean /\ cs_stddev (@CMStatistics R RNum m) = Some sd /\
    mean * n = rsum (fun x => x) (cm_hist m) /\ 0 <= sd /\ sd * sd * n = rsum (fun x => (x - mean) * (x - mean)) (cm_hist m) /\
    (forall s, cs_pred (@CMStatistics R RNum m) = Some s <-> (0 < @CMPredict R RNum m)%Z /\ s = IZR (@CMPredict R RNum m) / 1000000000) /\
    (forall s, cs_convtime (@CMStatistics R RNum m) = Some s <-> exists t, cm_conv m = Some t /\ s = IZR (t - cm_start m) / 1000000000).
Proof.
  intros m NE n. assert (N : 0 < n) by (apply lt_0_INR; destruct (cm_hist m); [contradiction|cbn; lia]).
  assert (V : @varianceOf R RNum (cm_hist m) = rsum (fun x => (x - @meanOf R RNum (cm_hist m)) * (x - @meanOf R RNum (cm_hist m))) (cm_hist m) / n).
  { unfold varianceOf. set (mu := meanOf (cm_hist m)). change (@ndiv R RNum) with Rdiv. change (@nofZ R RNum) with IZR. rewrite <- INR_IZR_INZ. fold n. f_equal.
    assert (G : forall l acc, fold_left (fun v x : R => nadd v (nmul (nsub x mu) (nsub x mu))) l acc = acc + rsum (fun x => (x - mu) * (x - mu)) l).
    { induction l as [|x l IH]; intros acc; [cbn; ring|]. cbn [fold_left rsum]. rewrite IH. change (@nadd R RNum) with Rplus. change (@nmul R RNum) with Rmult. change (@nsub R RNum) with Rminus. ring. }
    rewrite G. change (@n0 R RNum) with 0. ring. }
  exists (@meanOf R RNum (cm_hist m)), (sqrt (@varianceOf R RNum (cm_hist m))). unfold CMStatistics. cbv zeta. cbn [cs_mean cs_stddev cs_pred cs_convtime].
  assert (ME : (match cm_hist m with [] => false | _ :: _ => true end) = true) by (destruct (cm_hist m); [contradiction|reflexivity]). rewrite ME.
  split; [reflexivity|]. split; [reflexivity|]. split.
  { unfold meanOf. rewrite nsum_R. change (@ndiv R RNum) with Rdiv. change (@nofZ R RNum) with IZR. rewrite <- INR_IZR_INZ. fold n. field. lra. }
  split; [apply sqrt_pos|]. split.
  { rewrite sqrt_sqrt; [rewrite V; field; lra|]. rewrite V. apply Rmult_le_pos; [|left; now apply Rinv_0_lt_compat]. apply rsum_ge0. intros x _. apply Rle_0_sqr. }
  split; intros s.
  - destruct (Z.ltb_spec 0 (@CMPredict R RNum m)) as [L|L]; [rewrite rsec|]; split.
    + intros Q. injection Q as <-. auto.
    + intros [_ ->]. reflexivity.
    + discriminate.
    + intros [Q _]. exfalso. lia.
  - destruct (cm_conv m) as [t|]; [rewrite rsec|]; split.
    + intros Q. injection Q as <-. eauto.
    + intros (t' & Q & ->). injection Q as <-. reflexivity.
    + discriminate.
    + intros (t & Q & _). discriminate Q.
Qed.

(** ** The boost taken from a template *)
Section Template.
Context {T : Type} {N : Num T}.
Definition lacks (k : GapType) (gs : list (PatternGap T)) : Prop := forall g, In g gs -> gap_type g <> k.
Lemma boost_keeps (cur t : TargetPattern T) : forall post c c', lacks GapCoherence post -> fold_left (templateGap cur t) post (Some c) = Some c' -> cp_boost c' = cp_boost c.
Proof.
  assert (NF : forall post, fold_left (templateGap cur t) post None = None) by (induction post; [reflexivity|assumption]).
  induction post as [|g post IH]; intros c c' NT H; [injection H as <-; reflexivity|]. cbn [fold_left] in H. assert (G : gap_type g <> GapCoherence) by (intros E; exact (NT g (or_introl eq_refl) E)). assert (NT' : lacks GapCoherence post) by (intros x Hx; apply NT; now right).
  destruct (templateGap cur t (Some c) g) as [c1|] eqn:E; [|rewrite NF in H; discriminate H]. rewrite (IH c1 c' NT' H). clear IH H NF. unfold templateGap in E.
  destruct (gap_type g); try contradiction; try (injection E as <-; reflexivity). destruct (tp_wave t); [injection E as <-; reflexivity|].
  destruct (morphWaveform _ _ _); [|discriminate E]. injection E as <-. reflexivity.
Qed.
(** With a template, the last coherence gap decides, and the boost is the template's coherence times the severity; the
    coherence the swarm has already does not enter. *)
Theorem C41_template_boost : forall (e : Engine T) cur t pre g post c, findBestTemplate e (Some cur) = Some t -> gap_type g = GapCoherence -> lacks GapCoherence post ->
  CompletePattern e cur (pre ++ g :: post) = Some c -> cp_boost c = Some (nmul (tp_coh t) (gap_severity g)).
Proof.
  intros e cur t pre g post c F G NT H. unfold CompletePattern in H. rewrite F, fold_left_app in H. cbn [fold_left] in H.
  assert (NF : forall l, fold_left (templateGap cur t) l None = None) by (induction l; [reflexivity|assumption]).
  destruct (fold_left (templateGap cur t) pre (Some (emptyCompleted cur))) as [c0|]; cbn [templateGap] in H; [|rewrite NF in H; discriminate H].
  rewrite G in H. rewrite (boost_keeps cur t post _ c NT H). reflexivity.
Qed.
End Template.

(** Witnesses. *)
Definition realTarget : option (TargetPattern R) := Some (mkTP 0 100%Z 1 1 [] 0).
Definition realCall (i : Z) : call R := ((i * 1000000000)%Z, Some (mkTP 0 100%Z 1 (IZR i / 10) [] 0), 0).
Example C96_velocity_example : at_time (realCall 1) < at_time (realCall 2) /\ (2 <= win 10)%nat /\ List.length (retained 10 realTarget [realCall 1; realCall 2]) = 2%nat.
Proof.
  split; [unfold at_time, realCall; cbn [fst snd]; apply Rmult_lt_compat_r; [lra|]; apply IZR_lt; reflexivity|]. split; [cbn; lia|].
  unfold retained. rewrite <- (map_length key), run_exact by (cbn; lia). reflexivity.
Qed.
Definition driftMon : GMon R := mkGMon [mkSample 0%Z 1 0 0 0; mkSample 1%Z 1 0 (-1) 0; mkSample 2%Z 1 0 0 0; mkSample 3%Z 1 0 0 0] 10 None false 0.
Example C96_rate_example : velocities driftMon = [0; -1; 0; 0] /\ moving (velocities driftMon) = 1%nat /\ seen driftMon = 4%Z /\ idleR driftMon = 3%Z.
Proof.
  split; [reflexivity|]. unfold moving, idleR. change (velocities driftMon) with [0; -1; 0; 0]. cbn [filter].
  destruct (Req_EM_T 0 0) as [_|]; [|lra]. destruct (Req_EM_T (-1) 0) as [|_]; [lra|]. destruct (Rle_dec (- (1 / 1000)) 0) as [_|]; [|exfalso; lra]. destruct (Rle_dec (- (1 / 1000)) (-1)) as [|_]; [exfalso; lra|]. repeat split.
Qed.
Definition twoCoh : CM R := mkCM [1 / 2; 1] [] (mkState 0 0%Z 0) 1 0 None 1 0.
Example C96_statistics_example : cm_hist twoCoh <> [].
Proof. discriminate. Qed.
(** A template of lower coherence than the swarm's is chosen, and still asks for a positive boost. *)
Example C41_template_boost_example : forall tr,
  match @findBestTemplate F (FNum tr) (@LoadDefaultTemplates F (FNum tr) (@NewEngine F (FNum tr))) (Some (mkTP (fhalfpi 3) 250000000%Z (fofZ 1) (flit 7 10) [] (fofZ 0))) with
  | Some t => flt (tp_coh t) (flit 7 10) && flt (fofZ 0) (fmul (tp_coh t) (flit 1 10)) | None => false end = true.
Proof. intros tr. vm_compute. reflexivity. Qed.

Print Assumptions C96_velocity.
Print Assumptions C96_rate.
Print Assumptions C96_rate_mean.
Print Assumptions C96_small_window_refuted.
Print Assumptions C96_switch.
Print Assumptions C96_switch_float.
Print Assumptions C96_switch_refuted.
Print Assumptions C96_rate_refuted.
Print Assumptions C96_acceleration.
Print Assumptions C96_statistics.
Print Assumptions C41_template_boost.
