(** C40: the monitor of the goal-directed synchroniser (emerge/convergence). *)
From Coq Require Import ZArith Reals Psatz List Bool Lia.
From Flocq Require Import Core.Core IEEE754.BinarySingleNaN.
From Verif Require Import Num F64 RealNum L_F64 L_F64x L_Ford M_Core M_Monitor M_ConvMonitor S_Monitor L_Regress L_Circle L_Pattern.
Import ListNotations.
Open Scope Z_scope.

(** One RecordSample call: time, measured pattern, measured coherence. *)
Notation call T := (Z * option (TargetPattern T) * T)%type.
Definition grec {T} (c : call T) : GOp T := GRec (fst (fst c)) (snd (fst c)) (snd c).

Section Gen.
Context {T : Type} {N : Num T}.
Definition fresh (w : Z) (tg : option (TargetPattern T)) : GMon T := SetTarget (NewMonitor w) tg.
Definition win (w : Z) : nat := Z.to_nat (if w <=? 0 then 10 else w).
Lemma win_pos w : (1 <= win w)%nat.
Proof. unfold win. destruct (Z.leb_spec w 0); lia. Qed.

Lemma gRun_app (m : GMon T) a b : gRun m (a ++ b) = gRun (gRun m a) b.
Proof. unfold gRun. apply fold_left_app. Qed.
Lemma update_hist (m : GMon T) : gm_hist (updateStatus m) = gm_hist m /\ gm_win (updateStatus m) = gm_win m /\ gm_target (updateStatus m) = gm_target m.
Proof. unfold updateStatus. destruct (_ <? _)%nat; auto. destruct (_ <? _)%nat; auto. Qed.
Lemma gStep_const (m : GMon T) o : gm_win (gStep m o) = gm_win m /\ gm_target (gStep m o) = gm_target m.
Proof. destruct o; cbn [gStep]; auto. unfold GRecord. destruct (update_hist (mkGMon (if (gm_win m * 2 <? List.length (gm_hist m ++ [newSample m now cur coh]))%nat then lastn (gm_win m) (gm_hist m ++ [newSample m now cur coh]) else gm_hist m ++ [newSample m now cur coh]) (gm_win m) (gm_target m) (gm_conv m) (gm_stuck m))) as (_ & A & B). rewrite A, B. auto. Qed.
Lemma gRun_const (m : GMon T) ops : gm_win (gRun m ops) = gm_win m /\ gm_target (gRun m ops) = gm_target m.
Proof.
  revert m. induction ops as [|o ops IH]; intros m; [auto|]. change (gRun m (o :: ops)) with (gRun (gStep m o) ops).
  destruct (IH (gStep m o)) as [-> ->]. apply gStep_const.
Qed.
(** A history that ends with Reset and then records [l] behaves like a fresh monitor recording [l]. *)
Lemma reset_fresh w tg ops : gRun (fresh w tg) (ops ++ [GRes]) = fresh w tg.
Proof.
  rewrite gRun_app. destruct (gRun_const (fresh w tg) ops) as [A B].
  set (m := gRun (fresh w tg) ops) in *. cbn. unfold GReset. rewrite A, B. reflexivity.
Qed.
Lemma record_hist (m : GMon T) now cur coh :
  let h := gm_hist m ++ [newSample m now cur coh] in
  gm_hist (GRecord m now cur coh) = if (gm_win m * 2 <? List.length h)%nat then lastn (gm_win m) h else h.
Proof. unfold GRecord. rewrite (proj1 (update_hist _)). reflexivity. Qed.

Definition key (s : Sample T) : Z * T * T := (sm_ts s, sm_dist s, sm_coh s).
Definition keyOf (tg : option (TargetPattern T)) (c : call T) : Z * T * T :=
  (fst (fst c), PatternDistance (snd (fst c)) tg, snd c).
Lemma key_new (m : GMon T) now cur coh : key (newSample m now cur coh) = (now, PatternDistance cur (gm_target m), coh).
Proof. unfold newSample. destruct (rev (gm_hist m)); [reflexivity|]. destruct (nlt _ _); reflexivity. Qed.

Lemma run_exact w tg l : (List.length l <= 2 * win w)%nat ->
  map key (gm_hist (gRun (fresh w tg) (map grec l))) = map (keyOf tg) l.
Proof.
  induction l as [|c l IH] using rev_ind; [reflexivity|]. rewrite app_length. cbn [List.length]. intros L.
  rewrite map_app, gRun_app. destruct (gRun_const (fresh w tg) (map grec l)) as [A B].
  specialize (IH ltac:(lia)). set (m := gRun (fresh w tg) (map grec l)) in *.
  cbn [map gRun fold_left gStep grec]. rewrite record_hist.
  assert (LH : List.length (gm_hist m) = List.length l) by (rewrite <- (map_length key), IH; apply map_length).
  rewrite app_length, LH. cbn [List.length]. rewrite A. cbn [fresh SetTarget NewMonitor gm_win].
  rewrite (proj2 (Nat.ltb_ge _ _)) by (fold (win w); lia).
  rewrite !map_app, IH. cbn [map]. rewrite key_new, B. reflexivity.
Qed.
Lemma map_lastn {A B} (f : A -> B) k l : map f (lastn k l) = lastn k (map f l).
Proof. unfold lastn. now rewrite map_length, skipn_map. Qed.

(** The history is bounded and holds the most recent samples since the last Reset. *)
Theorem C40_history : forall w tg (ops : list (GOp T)) l, ops = [] \/ (exists p, ops = p ++ [GRes]) ->
  let h := gm_hist (gRun (fresh w tg) (ops ++ map grec l)) in
  exists k, suffix_of k (map (keyOf tg) l) (map key h) /\
    (Nat.min (List.length l) (win w) <= k <= 2 * win w)%nat /\ ((List.length l <= 2 * win w)%nat -> k = List.length l).
Proof.
  intros w tg ops l Hops. cbv zeta.
  assert (E : gRun (fresh w tg) (ops ++ map grec l) = gRun (fresh w tg) (map grec l)).
  { destruct Hops as [->|[p ->]]; [reflexivity|]. rewrite gRun_app, reset_fresh. reflexivity. }
  rewrite E. clear E Hops ops.
  destruct (Nat.le_gt_cases (List.length l) (2 * win w)) as [L|L].
  { exists (List.length l). rewrite run_exact by auto. split; [split; [apply map_length|exists []; reflexivity]|]. split; [lia|auto]. }
  assert (G : exists k, suffix_of k (map (keyOf tg) l) (map key (gm_hist (gRun (fresh w tg) (map grec l)))) /\
    (Nat.min (List.length l) (win w) <= k <= 2 * win w)%nat).
  { clear L. pose proof (win_pos w) as W. induction l as [|c l (k & [LK [p P]] & K1 & K2)] using rev_ind.
    - exists 0%nat. split; [split; [reflexivity|exists []; reflexivity]|]. cbn. lia.
    - rewrite (map_app grec), gRun_app. destruct (gRun_const (fresh w tg) (map grec l)) as [A B].
      set (m := gRun (fresh w tg) (map grec l)) in *.
      cbn [map gRun fold_left gStep grec]. rewrite record_hist, A. cbn [fresh SetTarget NewMonitor gm_win]. fold (win w).
      set (h := gm_hist m ++ [newSample m (fst (fst c)) (snd (fst c)) (snd c)]).
      assert (HK : map key h = map key (gm_hist m) ++ [keyOf tg c]).
      { unfold h. rewrite map_app. cbn [map]. rewrite key_new, B. reflexivity. }
      assert (LH : List.length h = S k) by (rewrite <- (map_length key), HK, app_length, LK; cbn; lia).
      rewrite map_app, app_length. cbn [map List.length].
      destruct (Nat.ltb_spec (win w * 2) (List.length h)) as [Q|Q].
      + exists (win w). rewrite map_lastn. split; [split|].
        * apply lastn_length. rewrite map_length. lia.
        * destruct (lastn_split (win w) (map key h)) as [q Eq]. exists (p ++ q). rewrite <- app_assoc, <- Eq, HK, app_assoc, <- P. reflexivity.
        * lia.
      + exists (S k). split; [split|].
        * rewrite map_length. exact LH.
        * exists p. rewrite HK, app_assoc, <- P. reflexivity.
        * lia. }
  destruct G as (k & G1 & G2). exists k. split; auto. split; auto. lia.
Qed.

(** Checks. *)
Definition flat (m : GMon T) : bool :=
  (3 <=? List.length (gm_hist m))%nat && (3 <=? List.length (recent m))%nat &&
  nlt (nabs (calculateTrend (map sm_dist (recent m)))) (nlit 1 1000).
Lemma inc32_small z : 0 <= z < 2 ^ 31 - 1 -> inc32 z = z + 1.
Proof. intros H. unfold inc32. rewrite Z.mod_small; lia. Qed.
Lemma recent_upd (m : GMon T) : recent (updateStatus m) = recent m.
Proof. unfold recent. destruct (update_hist m) as (-> & -> & _). reflexivity. Qed.
Lemma stuck_step (m : GMon T) : 0 <= gm_stuck m < 2 ^ 31 - 1 ->
  (gm_stuck m = 0 \/ ((3 <= List.length (gm_hist m))%nat /\ (3 <= List.length (recent m))%nat)) ->
  gm_stuck (updateStatus m) = if flat (updateStatus m) then gm_stuck m + 1 else 0.
Proof.
  intros R H. unfold flat. rewrite recent_upd. destruct (update_hist m) as (-> & _ & _). unfold updateStatus.
  destruct (Nat.ltb_spec (List.length (gm_hist m)) 3) as [L|L].
  - rewrite (proj2 (Nat.leb_gt _ _)) by auto. cbn. destruct H; [auto|lia].
  - rewrite (proj2 (Nat.leb_le _ _)) by auto. destruct (Nat.ltb_spec (List.length (recent m)) 3) as [L2|L2].
    + rewrite (proj2 (Nat.leb_gt 3 _)) by auto. cbn. destruct H; [auto|lia].
    + rewrite (proj2 (Nat.leb_le 3 _)) by auto. cbn [andb gm_stuck]. destruct (nlt _ _); auto. apply inc32_small. lia.
Qed.
(** The number of flat checks in a row up to now. *)
Fixpoint flatRun (w : Z) tg (rl : list (call T)) : nat :=
  match rl with
  | [] => O
  | c :: r => if flat (gRun (fresh w tg) (map grec (rev rl))) then S (flatRun w tg r) else O
  end.
Lemma flatRun_le w tg rl : (flatRun w tg rl <= List.length rl)%nat.
Proof. induction rl as [|c r IH]; cbn [flatRun List.length]; [lia|]. destruct (flat _); lia. Qed.
Lemma recent_ge (m : GMon T) : (3 <= List.length (recent m))%nat <-> (3 <= gm_win m)%nat /\ (3 <= List.length (gm_hist m))%nat.
Proof. unfold recent, lastn. rewrite skipn_length. lia. Qed.
Lemma stuck_count w tg l : Z.of_nat (List.length l) < 2 ^ 31 ->
  let m := gRun (fresh w tg) (map grec l) in
  gm_stuck m = Z.of_nat (flatRun w tg (rev l)) /\
  (flatRun w tg (rev l) = O \/ ((3 <= List.length (gm_hist m))%nat /\ (3 <= gm_win m)%nat)).
Proof.
  induction l as [|c l IH] using rev_ind; intros L; [cbn; auto|].
  rewrite app_length in L. cbn [List.length] in L. destruct (IH ltac:(lia)) as [A B]. cbv zeta in A, B. clear IH.
  cbv zeta. rewrite rev_app_distr. cbn [rev app flatRun].
  pose proof (flatRun_le w tg (rev l)) as FL. rewrite rev_length in FL.
  rewrite rev_involutive.
  rewrite map_app, gRun_app. set (m := gRun (fresh w tg) (map grec l)) in *.
  cbn [map gRun fold_left gStep grec].
  assert (GH : (List.length (gm_hist m) >= 3)%nat -> (3 <= gm_win m)%nat -> (3 <= List.length (gm_hist (GRecord m (fst (fst c)) (snd (fst c)) (snd c))))%nat).
  { intros H1 H2. rewrite record_hist. destruct (Nat.ltb_spec (gm_win m * 2) (List.length (gm_hist m ++ [newSample m (fst (fst c)) (snd (fst c)) (snd c)]))) as [Q|Q].
    - rewrite lastn_length; lia.
    - rewrite app_length. cbn [List.length]. lia. }
  unfold GRecord in *. set (m1 := mkGMon _ _ _ _ _) in *.
  assert (S1 : gm_stuck m1 = gm_stuck m) by reflexivity.
  assert (W1 : gm_win m1 = gm_win m) by reflexivity.
  destruct (update_hist m1) as (E1 & E2 & _).
  rewrite stuck_step, S1, A, E1, E2, W1.
  - destruct (flat (updateStatus m1)) eqn:Fl.
    + split; [lia|]. right. unfold flat in Fl. apply andb_true_iff in Fl. destruct Fl as [Fl _]. apply andb_true_iff in Fl. destruct Fl as [_ F2].
      apply Nat.leb_le in F2. rewrite recent_upd in F2. apply recent_ge in F2. rewrite W1 in F2. tauto.
    + auto.
  - rewrite S1, A. lia.
  - rewrite S1, A. destruct B as [->|[B1 B2]]; [auto|]. right.
    rewrite E1 in GH. specialize (GH B1 B2). split; auto.
    apply recent_ge. rewrite W1. auto.
Qed.
(** What "the last six checks" means: the calls whose checks are counted are the last six, and each check looked at a
    full enough history whose recent distances have a trend below 0.001. *)
Theorem C40_stuck : forall w tg (l : list (call T)), Z.of_nat (List.length l) < 2 ^ 31 ->
  let m := gRun (fresh w tg) (map grec l) in
  IsStuck m = true <->
  (6 <= List.length l)%nat /\
  forall p r, l = p ++ r -> (List.length r < 6)%nat ->
    let m' := gRun (fresh w tg) (map grec p) in
    (3 <= List.length (gm_hist m'))%nat /\ (3 <= List.length (recent m'))%nat /\
    nlt (nabs (calculateTrend (map sm_dist (recent m')))) (nlit 1 1000) = true.
Proof.
  intros w tg l L. cbv zeta. destruct (stuck_count w tg l L) as [A _]. cbv zeta in A.
  unfold IsStuck. rewrite A, Z.ltb_lt.
  assert (G : forall n rl, (n <= flatRun w tg rl)%nat <->
     ((n <= List.length rl)%nat /\ forall p r, rev rl = p ++ r -> (List.length r < n)%nat -> flat (gRun (fresh w tg) (map grec p)) = true)).
  { clear. induction n as [|n IH]; intros rl.
    - split; [|lia]. intros _. split; [lia|]. intros; lia.
    - destruct rl as [|c rl]; [cbn [flatRun List.length]; split; [lia|intros [? _]; lia]|].
      cbn [flatRun]. destruct (flat (gRun (fresh w tg) (map grec (rev (c :: rl))))) eqn:Fl.
      + split.
        * intros Q. destruct (proj1 (IH rl) ltac:(lia)) as [Q1 Q2]. split; [cbn [List.length]; lia|].
          intros p r E Lr. destruct r as [|x r] using rev_ind; [rewrite app_nil_r in E; now rewrite <- E|]. clear IHr.
          cbn [rev] in E. rewrite app_assoc in E. apply app_inj_tail in E. destruct E as [E _].
          rewrite app_length in Lr. cbn [List.length] in Lr. apply (Q2 p r E). lia.
        * intros [Q1 Q2]. cbn [List.length] in Q1. enough (n <= flatRun w tg rl)%nat by lia. apply IH. split; [lia|].
          intros p r E Lr. apply (Q2 p (r ++ [c])). { cbn [rev]. now rewrite E, app_assoc. } rewrite app_length. cbn [List.length]. lia.
      + split; [lia|]. intros [_ Q2]. specialize (Q2 (rev (c :: rl)) [] ltac:(now rewrite app_nil_r)). rewrite Q2 in Fl; [discriminate|cbn; lia]. }
  specialize (G 6%nat (rev l)). rewrite rev_involutive, rev_length in G.
  assert (E : 5 < Z.of_nat (flatRun w tg (rev l)) <-> (6 <= flatRun w tg (rev l))%nat) by lia.
  rewrite E, G. apply and_iff_compat_l.
  assert (FE : forall m : GMon T, flat m = true <-> (3 <= List.length (gm_hist m))%nat /\ (3 <= List.length (recent m))%nat /\
    nlt (nabs (calculateTrend (map sm_dist (recent m)))) (nlit 1 1000) = true).
  { intros m. unfold flat. rewrite !andb_true_iff, !Nat.leb_le. tauto. }
  split; intros H p r E1 E2; apply FE; apply (H p r E1 E2).
Qed.

(** A strategy switch is never suggested, and "converging" never reported, on fewer than three samples. *)
Theorem C40_few_samples : forall w tg (ops : list (GOp T)),
  let m := gRun (fresh w tg) ops in
  (List.length (gm_hist m) < 3)%nat -> ShouldSwitchStrategy m = false /\ IsConverging m = false.
Proof.
  intros w tg ops. cbv zeta. intros L. split.
  - unfold ShouldSwitchStrategy. apply Nat.ltb_lt in L. now rewrite L.
  - destruct ops as [|o ops _] using rev_ind; [reflexivity|]. rewrite gRun_app in *. cbn [gRun fold_left] in *.
    destruct o; [|reflexivity]. cbn [gStep] in *. unfold GRecord in *. rewrite (proj1 (update_hist _)) in L.
    unfold IsConverging, updateStatus. apply Nat.ltb_lt in L. rewrite L. reflexivity.
Qed.
(** Reset clears every observation, and only that. *)
Theorem C40_reset : forall w tg (ops : list (GOp T)),
  let m := gRun (fresh w tg) (ops ++ [GRes]) in
  gm_hist m = [] /\ IsConverging m = false /\ IsStuck m = false /\ GetProgress m = n0 /\ GetConvergenceRate m = n0 /\
  ShouldSwitchStrategy m = false /\ (forall more, gRun m more = gRun (fresh w tg) more).
Proof. intros w tg ops. cbv zeta. rewrite reset_fresh. repeat split. Qed.
End Gen.

(** The trend the stuck and converging checks look at is the least-squares slope of the recent distances. *)
Section Reals.
Local Open Scope R_scope.
Theorem C40_trend : forall data : list R, (2 <= List.length data)%nat ->
  least_squares_slope data (calculateTrend data) /\ (forall b, least_squares_slope data b -> b = calculateTrend data).
Proof.
  intros d L. assert (E : calculateTrend d = NUM d / DEN d).
  { unfold calculateTrend. rewrite (proj2 (Nat.ltb_ge _ _) L), regSums_spec. cbn [rs_x rs_y rs_xy rs_x2].
    change (@nofZ R RNum) with IZR. rewrite <- INR_IZR_INZ. fold (len d).
    change (@nsub R RNum) with Rminus. change (@nmul R RNum) with Rmult. change (@ndiv R RNum) with Rdiv. fold (DEN d) (NUM d).
    pose proof (DEN_ge d L) as D. change (@nabs R RNum) with Rabs. rewrite Rabs_pos_eq by lra.
    change (@nlt R RNum) with Rlt_bool. rewrite Rlt_bool_false; [reflexivity|]. cbn. lra. }
  rewrite E. split; [now apply slope_optimal|]. intros b Hb. now apply slope_unique.
Qed.
End Reals.

(** Progress in the machine arithmetic. *)
Section Floats.
Variable tr : Trig.
Local Instance NF : Num F := FNum tr.
Local Open Scope R_scope.
Lemma ford1 : ford (fofZ 1) = 1. Proof. apply ford_fofZ. lia. Qed.
Lemma ford0 : ford (fofZ 0) = 0. Proof. apply ford_fofZ. lia. Qed.
Lemma one_sub_nan x : fisnan x = false -> fisnan (fsub (fofZ 1) x) = false.
Proof.
  intros Hx. destruct (not_nan_cases x Hx) as [Fx|[s ->]].
  - apply fsub_ord; auto.
  - destruct (fofZ_fin 1 ltac:(lia)) as [A _]. destruct (fofZ 1); try discriminate; destruct s; reflexivity.
Qed.
Lemma one_sub_inf s : fsub (fofZ 1) (B754_infinity s) = B754_infinity (negb s).
Proof. destruct (fofZ_fin 1 ltac:(lia)) as [A _]. destruct (fofZ 1); try discriminate; destruct s; reflexivity. Qed.
Lemma one_sub_anti x y : fle x y = true -> fle (fsub (fofZ 1) y) (fsub (fofZ 1) x) = true.
Proof.
  intros H. apply fle_true in H. destruct H as (Nx & Ny & H). apply fle_true.
  split; [now apply one_sub_nan|]. split; [now apply one_sub_nan|].
  pose proof (ford_bounds (fsub (fofZ 1) x)) as B1. pose proof (ford_bounds (fsub (fofZ 1) y)) as B2.
  destruct (fofZ_fin 1 ltac:(lia)) as [A1 _].
  destruct (not_nan_cases x Nx) as [Fx|[s ->]]; destruct (not_nan_cases y Ny) as [Fy|[t ->]].
  - rewrite (proj2 (fsub_ord _ _ A1 Fx)), (proj2 (fsub_ord _ _ A1 Fy)). apply sat_le. apply rnd_le.
    rewrite !ford_fin in H by auto. lra.
  - rewrite one_sub_inf in *. destruct t; cbn [ford negb] in *.
    + rewrite ford_fin in H by auto. pose proof (B2R_lt_BIG x). lra.
    + lra.
  - rewrite one_sub_inf in *. destruct s; cbn [ford negb] in *.
    + lra.
    + rewrite (ford_fin y) in H by auto. pose proof (B2R_lt_BIG y). lra.
  - rewrite !one_sub_inf in *. pose proof BIG_pos. destruct s, t; cbn [ford negb] in *; lra.
Qed.
(** Progress lies in [0, 1] whenever the two distances it compares are finite numbers. *)
Theorem C40_progress_range : forall m : GMon F,
  (forall s, In s (gm_hist m) -> is_finite (sm_dist s) = true) ->
  fle (fofZ 0) (GetProgress m) = true /\ fle (GetProgress m) (fofZ 1) = true.
Proof.
  intros m H. unfold GetProgress. destruct (gm_hist m) as [|s0 r] eqn:Eh; [split; reflexivity|].
  change (@nle F NF) with fle. change (@n0 F NF) with (fofZ 0). change (@n1 F NF) with (fofZ 1).
  pose proof (H s0 (or_introl eq_refl)) as F0.
  destruct (fle (sm_dist s0) (fofZ 0)) eqn:L; [split; reflexivity|].
  apply fle_false in L; [|now destruct (sm_dist s0)|reflexivity]. rewrite ford0, ford_fin in L by auto.
  assert (FL : is_finite (sm_dist (last (s0 :: r) s0)) = true).
  { apply H. clear. destruct (@exists_last _ (s0 :: r)) as (p & x & E); [discriminate|]. rewrite E, last_last. apply in_or_app. cbn; auto. }
  set (d := fdiv (sm_dist (last (s0 :: r) s0)) (sm_dist s0)).
  change (@ndiv F NF) with fdiv. fold d.
  assert (Nd : fisnan d = false).
  { apply fdiv_pos_ord; auto. now destruct (sm_dist (last (s0 :: r) s0)). }
  change (@nsub F NF) with fsub. change (@nmin F NF) with fmin. change (@nmax F NF) with fmax.
  pose proof (one_sub_nan d Nd) as Ns.
  destruct (fmin_cases (fofZ 1) (fsub (fofZ 1) d)) as [N1 E1]; auto.
  destruct (fmax_cases (fofZ 0) (fmin (fofZ 1) (fsub (fofZ 1) d))) as [N2 E2]; auto.
  split; apply fle_true; repeat split; auto; rewrite E2, E1, ?ford0, ?ford1; unfold Rmax, Rmin; repeat destruct Rle_dec; lra.
Qed.
(** One more sample that is not further away never lowers the progress, as long as nothing has been trimmed. *)
Theorem C40_progress_monotone : forall w tg (l : list (call F)) c1 c2,
  (List.length l + 2 <= 2 * win w)%nat ->
  (forall c, In c (l ++ [c1]) -> is_finite (PatternDistance (snd (fst c)) tg) = true) ->
  fle (PatternDistance (snd (fst c2)) tg) (PatternDistance (snd (fst c1)) tg) = true ->
  fle (GetProgress (gRun (fresh w tg) (map grec (l ++ [c1])))) (GetProgress (gRun (fresh w tg) (map grec (l ++ [c1; c2])))) = true.
Proof.
  intros w tg l c1 c2 HL HF HD.
  pose proof (run_exact w tg (l ++ [c1]) ltac:(rewrite app_length; cbn; lia)) as E1.
  pose proof (run_exact w tg (l ++ [c1; c2]) ltac:(rewrite app_length; cbn; lia)) as E2.
  set (m1 := gRun (fresh w tg) (map grec (l ++ [c1]))) in *. set (m2 := gRun (fresh w tg) (map grec (l ++ [c1; c2]))) in *.
  assert (D1 : map sm_dist (gm_hist m1) = map (fun c => PatternDistance (snd (fst c)) tg) (l ++ [c1])).
  { replace (map sm_dist (gm_hist m1)) with (map (fun k => snd (fst k)) (map key (gm_hist m1))) by (rewrite map_map; apply map_ext; reflexivity).
    rewrite E1, map_map. reflexivity. }
  assert (D2 : map sm_dist (gm_hist m2) = map (fun c => PatternDistance (snd (fst c)) tg) (l ++ [c1; c2])).
  { replace (map sm_dist (gm_hist m2)) with (map (fun k => snd (fst k)) (map key (gm_hist m2))) by (rewrite map_map; apply map_ext; reflexivity).
    rewrite E2, map_map. reflexivity. }
  clear E1 E2.
  assert (GP : forall (m : GMon F) d ds dl, map sm_dist (gm_hist m) = d :: ds -> last (d :: ds) d = dl ->
    GetProgress m = if fle d (fofZ 0) then fofZ 1 else fmax (fofZ 0) (fmin (fofZ 1) (fsub (fofZ 1) (fdiv dl d)))).
  { clear. intros m d ds dl E Ed. unfold GetProgress. destruct (gm_hist m) as [|s0 r]; [discriminate|]. cbn [map] in E. injection E as <- <-.
    assert (sm_dist (last (s0 :: r) s0) = dl) as ->; [|reflexivity].
    rewrite <- Ed. clear Ed. change (sm_dist s0 :: map sm_dist r) with (map sm_dist (s0 :: r)).
    generalize (s0 :: r). intros k. induction k as [|x k IH]; [reflexivity|]. destruct k; [reflexivity|]. exact IH. }
  set (pd := fun c : call F => PatternDistance (snd (fst c)) tg) in *.
  assert (Q : exists d ds, map pd (l ++ [c1]) = d :: ds /\ map pd (l ++ [c1; c2]) = (d :: ds) ++ [pd c2]).
  { replace (l ++ [c1; c2]) with ((l ++ [c1]) ++ [c2]) by now rewrite <- app_assoc. rewrite (map_app pd (l ++ [c1]) [c2]).
    destruct (map pd (l ++ [c1])) as [|d ds] eqn:E; [rewrite map_app in E; destruct (map pd l); discriminate|]. eauto. }
  destruct Q as (d & ds & Q1 & Q2). rewrite Q1 in D1. rewrite Q2 in D2.
  assert (LD : last (d :: ds) d = pd c1) by (rewrite <- Q1, map_app; apply last_last).
  rewrite (GP m1 d ds (pd c1) D1 LD).
  cbn [app] in D2. rewrite (GP m2 d (ds ++ [pd c2]) (pd c2) D2) by (change (d :: ds ++ [pd c2]) with ((d :: ds) ++ [pd c2]); apply last_last).
  destruct (fle d (fofZ 0)) eqn:L0; [reflexivity|].
  assert (Fd : is_finite d = true).
  { assert (I : In d (map pd (l ++ [c1]))) by (rewrite Q1; cbn; auto). apply in_map_iff in I. destruct I as (c & <- & I). now apply HF. }
  apply fle_false in L0; [|now destruct d|reflexivity]. rewrite ford0, ford_fin in L0 by auto.
  fold (pd c1) (pd c2) in HD.
  pose proof (one_sub_anti _ _ (fdiv_mono _ _ d HD Fd L0)) as S.
  apply fle_true in S. destruct S as (S1 & S2 & S3).
  destruct (fmin_cases (fofZ 1) (fsub (fofZ 1) (fdiv (pd c1) d))) as [N1 E1]; auto.
  destruct (fmin_cases (fofZ 1) (fsub (fofZ 1) (fdiv (pd c2) d))) as [N2 E2]; auto.
  destruct (fmax_cases (fofZ 0) (fmin (fofZ 1) (fsub (fofZ 1) (fdiv (pd c1) d)))) as [N3 E3]; auto.
  destruct (fmax_cases (fofZ 0) (fmin (fofZ 1) (fsub (fofZ 1) (fdiv (pd c2) d)))) as [N4 E4]; auto.
  apply fle_true. repeat split; auto. rewrite E3, E4, E1, E2, ?ford0, ?ford1. unfold Rmax, Rmin; repeat destruct Rle_dec; lra.
Qed.

(** Sample i (1, 2, ...) measures coherence 1 - 1/i against a target of coherence 1; the phase stays at 3pi/2 against a
    target of 0 (a pair of phases on which the code does not consult the trigonometric functions). *)
Definition exTarget : option (TargetPattern F) := Some (mkTP (fofZ 0) 0%Z (fofZ 1) (fofZ 1) [] (fofZ 0)).
Definition exCall (i : Z) : call F := ((i * 1000000000)%Z, Some (mkTP (nhalfpi 3) 0%Z (fofZ 1) (flit (i - 1) i) [] (fofZ 0)), flit (i - 1) i).
Definition exCalls (n : nat) : list (call F) := map (fun k => exCall (Z.of_nat k)) (seq 1 n).
(** Trimming moves the baseline: progress falls although every sample is closer than the one before. *)
Theorem C40_progress_refuted : exists (w : Z) tg (l : list (call F)) c,
  (forall i c1 c2, nth_error (l ++ [c]) i = Some c1 -> nth_error (l ++ [c]) (S i) = Some c2 ->
     flt (PatternDistance (snd (fst c2)) tg) (PatternDistance (snd (fst c1)) tg) = true) /\
  flt (GetProgress (gRun (fresh w tg) (map grec (l ++ [c])))) (flit 1 10) = true /\
  flt (flit 1 2) (GetProgress (gRun (fresh w tg) (map grec l))) = true.
Proof.
  exists 10%Z, exTarget, (exCalls 20), (exCall 21). split; [|split; vm_compute; reflexivity].
  assert (G : forallb (fun p : call F * call F => flt (PatternDistance (snd (fst (snd p))) exTarget) (PatternDistance (snd (fst (fst p))) exTarget))
    (combine (exCalls 20 ++ [exCall 21]) (tl (exCalls 20 ++ [exCall 21]))) = true) by (vm_compute; reflexivity).
  revert G. generalize (exCalls 20 ++ [exCall 21]). intros l. induction l as [|a l IH]; intros G i c1 c2 H1 H2; [destruct i; discriminate|].
  destruct l as [|b l]; [destruct i as [|[|]]; discriminate|]. cbn [tl combine forallb] in G. apply andb_true_iff in G. destruct G as [G0 G].
  destruct i as [|i]; [cbn in H1, H2; injection H1 as <-; injection H2 as <-; exact G0|]. exact (IH G i c1 c2 H1 H2).
Qed.
(** A first distance that is not a number makes the progress not a number. *)
Theorem C40_progress_nan_refuted : exists (w : Z) tg (l : list (call F)),
  fisnan (GetProgress (gRun (fresh w tg) (map grec l))) = true.
Proof. exists 10%Z, exTarget, [(0%Z, Some (mkTP (nhalfpi 3) 0%Z (fofZ 1) fnan [] (fofZ 0)), fofZ 0)]. vm_compute. reflexivity. Qed.

(** Witnesses. *)
Definition flatCall (i : Z) : call F := ((i * 1000000000)%Z, Some (mkTP (nhalfpi 3) 0%Z (fofZ 1) (flit 1 2) [] (fofZ 0)), flit 1 2).
Example stuck_example : IsStuck (gRun (fresh 10 exTarget) (map grec (map flatCall [1; 2; 3; 4; 5; 6; 7; 8]%Z))) = true /\
  IsStuck (gRun (fresh 10 exTarget) (map grec (map flatCall [1; 2; 3; 4; 5; 6; 7]%Z))) = false.
Proof. split; vm_compute; reflexivity. Qed.
Example progress_example : flt (flit 4 10) (GetProgress (gRun (fresh 10 exTarget) (map grec (exCalls 4)))) = true /\
  IsConverging (gRun (fresh 10 exTarget) (map grec (exCalls 4))) = true /\
  forallb (fun s => is_finite (sm_dist s)) (gm_hist (gRun (fresh 10 exTarget) (map grec (exCalls 4)))) = true.
Proof. repeat split; vm_compute; reflexivity. Qed.
Example switch_example : ShouldSwitchStrategy (gRun (fresh 10 exTarget) (map grec (map flatCall [1; 2; 3]%Z))) = true.
Proof. vm_compute; reflexivity. Qed.
Example trim_example : List.length (gm_hist (gRun (fresh 2 exTarget) (map grec (map flatCall [1; 2; 3; 4; 5]%Z)))) = 2%nat.
Proof. vm_compute; reflexivity. Qed.
End Floats.
Example trend_example : least_squares_slope [1; 3; 5]%R (calculateTrend [1; 3; 5]%R).
Proof. apply C40_trend. cbn. lia. Qed.

Print Assumptions C40_history. Print Assumptions C40_stuck. Print Assumptions C40_few_samples. Print Assumptions C40_reset.
Print Assumptions C40_trend. Print Assumptions C40_progress_range. Print Assumptions C40_progress_monotone.
Print Assumptions C40_progress_refuted. Print Assumptions C40_progress_nan_refuted.
