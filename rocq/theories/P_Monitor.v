(** C36, C37, C38: the convergence monitor and the rolling monitor. *)
From Coq Require Import ZArith Reals Psatz List Bool Lia.
From Flocq Require Import Core.Core IEEE754.BinarySingleNaN.
From Verif Require Import Num F64 RealNum L_F64 L_F64x L_Ford M_Core M_Monitor S_Monitor L_Regress.
Import ListNotations.
Open Scope Z_scope.

(** ** C36 *)
Section C36.
Variable tr : Trig.
Local Instance NF : Num F := FNum tr.
Notation rec_ops l := (map (fun s => CMRec (fst s) (snd s)) l).

Lemma cmRun_app m a b : cmRun m (a ++ b) = cmRun (cmRun m a) b.
Proof. unfold cmRun. apply fold_left_app. Qed.
Lemma cm_const m ops : cm_goal (cmRun m ops) = cm_goal m /\ cm_at (cmRun m ops) = cm_at m.
Proof.
  revert m. induction ops as [|o ops IH]; intros m; [auto|].
  change (cmRun m (o :: ops)) with (cmRun (cmStep m o) ops). destruct (IH (cmStep m o)) as [A B]. rewrite A, B. destruct o; auto.
Qed.
(** Running [ops] is running the samples since the last Reset on a new monitor. *)
Lemma since_new g thr t0 ops r l : since_reset ops t0 r l ->
  cmRun (NewConvergence g thr t0) ops = cmRun (NewConvergence g thr r) (rec_ops l).
Proof.
  intros (pre & -> & [[-> ->]|[p ->]]); [reflexivity|].
  rewrite !cmRun_app. f_equal. cbn. unfold CMReset.
  destruct (cm_const (NewConvergence g thr t0) p) as [-> ->]. reflexivity.
Qed.
(** Every history has this shape. *)
Theorem C36_cover : forall (ops : list (CMOp F)) t0, exists r l, since_reset ops t0 r l.
Proof.
  intros ops t0. induction ops as [|o ops (r & l & pre & -> & H)] using rev_ind.
  - exists t0, [], []. auto.
  - destruct o as [now c|now].
    + exists r, (l ++ [(now, c)]), pre. rewrite map_app, app_assoc. auto.
    + exists now, [], ((pre ++ rec_ops l) ++ [CMRes now]). split; [now rewrite app_nil_r|]. right. eauto.
Qed.

Lemma run_hist g thr r l : cm_hist (cmRun (NewConvergence g thr r) (rec_ops l)) = map snd l /\
  cm_start (cmRun (NewConvergence g thr r) (rec_ops l)) = r.
Proof.
  induction l as [|s l [A B]] using rev_ind; [split; reflexivity|].
  rewrite !map_app, !cmRun_app. cbn. rewrite A, B. auto.
Qed.
Definition last_ge (thr : F) (l : list (Z * F)) : Prop := exists l' s, l = l' ++ [s] /\ fle thr (snd s) = true.
(** [t] is the time of the first sample of the unbroken run at or above [thr] that ends [l]. *)
Definition run_since (thr : F) (l : list (Z * F)) (t : Z) : Prop :=
  exists a c b, l = a ++ (t, c) :: b /\ Forall (fun s => fle thr (snd s) = true) ((t, c) :: b) /\
    (a = [] \/ exists a' s, a = a' ++ [s] /\ flt (snd s) thr = true).

Lemma conv_inv g thr r l : Forall (fun s => fisnan (snd s) = false) l ->
  match cm_conv (cmRun (NewConvergence g thr r) (rec_ops l)) with
  | None => l = [] \/ fisnan thr = true \/ exists l' s, l = l' ++ [s] /\ flt (snd s) thr = true
  | Some t => run_since thr l t
  end.
Proof.
  induction l as [|s l IH] using rev_ind; [cbn; auto|]. intros HN. apply Forall_app in HN. destruct HN as [HN H1].
  specialize (IH HN). inversion H1 as [|x y H1' _ E]; subst.
  rewrite map_app, cmRun_app. cbn [map cmRun fold_left cmStep CMRecord cm_conv].
  destruct (cm_const (NewConvergence g thr r) (rec_ops l)) as [_ ->]. cbn [NewConvergence cm_at].
  destruct (cm_conv (cmRun (NewConvergence g thr r) (rec_ops l))) as [t|].
  - change (nlt (snd s) thr) with (flt (snd s) thr). destruct (flt (snd s) thr) eqn:E; [right; right; eauto|].
    destruct IH as (a & c & b & -> & HF & HA). exists a, c, (b ++ [s]).
    rewrite <- app_assoc. cbn [app]. split; [reflexivity|]. split; auto.
    rewrite app_comm_cons. apply Forall_app. split; auto. constructor; auto.
    apply not_lt_fle; auto. inversion HF; subst. eapply fle_nan_l; eauto.
  - change (nle thr (snd s)) with (fle thr (snd s)). destruct (fle thr (snd s)) eqn:E.
    + exists l, (snd s), []. rewrite <- surjective_pairing. split; auto. split; auto.
      destruct IH as [->|[C|IH]]; auto. apply fle_nan_l in E. congruence.
    + right. destruct (fisnan thr) eqn:NT; auto. right. exists l, s. split; auto. apply not_le_flt; auto.
Qed.

(** The sample order is the recording order, IsConverged looks at the latest sample, ConvergenceTime
    measures from the reset to the start of the current run. *)
Theorem C36_bookkeeping : forall g thr t0 ops r l,
  since_reset ops t0 r l -> Forall (fun s => fisnan (snd s) = false) l ->
  let m := cmRun (NewConvergence g thr t0) ops in
  CMHistory m = map snd l /\
  (CMIsConverged m = true <-> last_ge thr l) /\
  (CMIsConverged m = true -> exists t, run_since thr l t /\ CMConvergenceTime m = t - r) /\
  (CMIsConverged m = false -> CMConvergenceTime m = 0) /\
  CMCurrent m = last (map snd l) (fofZ 0).
Proof.
  intros g thr t0 ops r l H HN m. unfold m. rewrite (since_new g thr _ _ _ _ H). clear m.
  destruct (run_hist g thr r l) as [A B]. pose proof (conv_inv g thr r l HN) as C.
  unfold CMHistory, CMCurrent, CMIsConverged, CMConvergenceTime. rewrite A, B.
  destruct (cm_conv _) as [t|]; repeat split; try discriminate; auto.
  - intros _. destruct C as (a & c & b & -> & HF & _).
    destruct (exists_last (l := (t, c) :: b) ltac:(discriminate)) as (b' & s & E). rewrite E in *.
    exists (a ++ b'), s. rewrite app_assoc. split; auto. apply Forall_app in HF. destruct HF as [_ HF]. now inversion HF.
  - eauto.
  - intros (l' & s & E & HS). exfalso. destruct C as [->|[C|(l2 & s2 & E2 & C)]].
    + destruct l'; discriminate.
    + apply fle_nan_l in HS. congruence.
    + rewrite E in E2. apply app_inj_tail in E2. destruct E2 as [_ <-]. apply fle_not_lt in HS. congruence.
Qed.
(** A NaN sample is neither at nor below the threshold and leaves the status as it was. *)
Theorem C36_nan_refuted : exists g thr ops r l,
  since_reset ops 0 r l /\ CMIsConverged (cmRun (NewConvergence g thr 0) ops) = true /\ ~ last_ge thr l.
Proof.
  exists (mkState (fofZ 0) 1 (fofZ 0)), (flit 5 10), [CMRec 1 (fofZ 1); CMRec 2 fnan], 0, [(1, fofZ 1); (2, fnan)].
  split; [exists []; auto|]. split; [vm_compute; reflexivity|].
  intros (l' & s & E & H). change [(1, fofZ 1); (2, fnan)] with ([(1, fofZ 1)] ++ [(2, fnan)]) in E.
  apply app_inj_tail in E. destruct E as [_ <-]. cbn [snd] in H. rewrite fle_nan_false_r in H. discriminate.
Qed.

(** Minimum and maximum. *)
Lemma f0_nan : fisnan (fofZ 0) = false. Proof. apply fofZ_nan. Qed.
Lemma run_max g thr r l : Forall (fun s => fle (fofZ 0) (snd s) = true /\ fle (snd s) (fofZ 1) = true) l ->
  let m := cmRun (NewConvergence g thr r) (rec_ops l) in
  Forall (fun s => fle (snd s) (cm_max m) = true /\ fle (cm_min m) (snd s) = true) l /\
  fle (fofZ 0) (cm_max m) = true /\ fle (cm_min m) (fofZ 1) = true /\
  ((l = [] /\ cm_max m = fofZ 0 /\ cm_min m = fofZ 1) \/
   (exists x y, In x (map snd l) /\ In y (map snd l) /\ feq (cm_max m) x = true /\ feq (cm_min m) y = true)).
Proof.
  cbv zeta. induction l as [|s l IH] using rev_ind.
  - intros _. cbn. repeat split; auto; vm_compute; reflexivity.
  - intros H. apply Forall_app in H. destruct H as [H H1]. inversion H1 as [|x y [G0 G1] _ E]; subst.
    destruct (IH H) as (A & B & C & D). clear IH.
    rewrite map_app, cmRun_app. cbn [map cmRun fold_left cmStep CMRecord cm_max cm_min].
    fold (cmRun (NewConvergence g thr r) (rec_ops l)). set (m := cmRun (NewConvergence g thr r) (rec_ops l)) in *.
    change (@nlt F NF) with flt.
    pose proof (fle_nan_r _ _ B) as NM. pose proof (fle_nan_l _ _ C) as NI. pose proof (fle_nan_r _ _ G0) as NS.
    set (mx := if flt (cm_max m) (snd s) then snd s else cm_max m).
    set (mn := if flt (snd s) (cm_min m) then snd s else cm_min m).
    assert (M1 : fle (cm_max m) mx = true /\ fle (snd s) mx = true).
    { unfold mx. destruct (flt (cm_max m) (snd s)) eqn:Q; split; try apply fle_refl; auto using flt_le, not_lt_fle. }
    assert (M2 : fle mn (cm_min m) = true /\ fle mn (snd s) = true).
    { unfold mn. destruct (flt (snd s) (cm_min m)) eqn:Q; split; try apply fle_refl; auto using flt_le, not_lt_fle. }
    destruct M1 as [M1 M1']. destruct M2 as [M2 M2'].
    assert (RF : forall z, fisnan z = false -> feq z z = true) by (intros z Hz; apply feq_true; auto).
    split; [|split; [|split]].
    + apply Forall_app. split; [|constructor; auto].
      eapply Forall_impl; [|exact A]. intros z [Z1 Z2]. split; [exact (fle_trans _ _ _ Z1 M1)|exact (fle_trans _ _ _ M2 Z2)].
    + exact (fle_trans _ _ _ B M1).
    + exact (fle_trans _ _ _ M2 C).
    + right. destruct D as [(-> & E1 & E2)|(x & y & I1 & I2 & E1 & E2)].
      * exists (snd s), (snd s). split; [now left|]. split; [now left|]. unfold mx, mn. rewrite E1, E2.
        split.
        -- destruct (flt (fofZ 0) (snd s)) eqn:Q; [now apply RF|]. apply feq_true. apply flt_false in Q; auto.
           apply fle_true in G0. destruct G0 as (? & ? & ?). repeat split; auto. lra.
        -- destruct (flt (snd s) (fofZ 1)) eqn:Q; [now apply RF|]. pose proof (fofZ_nan 1) as N1. apply flt_false in Q; auto.
           apply fle_true in G1. destruct G1 as (? & ? & ?). apply feq_true. repeat split; auto. lra.
      * exists (if flt (cm_max m) (snd s) then snd s else x), (if flt (snd s) (cm_min m) then snd s else y).
        rewrite map_app. unfold mx, mn. split; [|split; [|split]].
        -- destruct (flt _ _); apply in_or_app; [right; now left|now left].
        -- destruct (flt (snd s) _); apply in_or_app; [right; now left|now left].
        -- destruct (flt _ _); auto.
        -- destruct (flt (snd s) _); auto.
Qed.
(** Statistics on coherence values (which lie in [0,1]). *)
Theorem C36_statistics : forall g thr t0 ops r l,
  since_reset ops t0 r l -> Forall (fun s => fle (fofZ 0) (snd s) = true /\ fle (snd s) (fofZ 1) = true) l ->
  let st := CMStatistics (cmRun (NewConvergence g thr t0) ops) in
  cs_samples st = Z.of_nat (List.length l) /\ cs_current st = last (map snd l) (fofZ 0) /\ cs_target st = thr /\
  (cs_converged st = true <-> last_ge thr l) /\
  (forall x, In x (map snd l) -> fle x (cs_max st) = true /\ fle (cs_min st) x = true) /\
  (l <> [] -> exists x y, In x (map snd l) /\ In y (map snd l) /\ feq (cs_max st) x = true /\ feq (cs_min st) y = true) /\
  (cs_mean st = None <-> l = []).
Proof.
  intros g thr t0 ops r l H HU st.
  assert (HN : Forall (fun s : Z * F => fisnan (snd s) = false) l).
  { eapply Forall_impl; [|exact HU]. intros z [Z1 _]. eapply fle_nan_r; eauto. }
  destruct (C36_bookkeeping g thr t0 ops r l H HN) as (A & B & _ & _ & C).
  unfold st in *. clear st. rewrite (since_new g thr _ _ _ _ H) in *.
  destruct (run_max g thr r l HU) as (D & _ & _ & E). cbv zeta in D, E.
  unfold CMStatistics. cbn [cs_samples cs_current cs_target cs_converged cs_max cs_min cs_mean].
  destruct (run_hist g thr r l) as [RH _]. destruct (cm_const (NewConvergence g thr r) (rec_ops l)) as [_ AT].
  rewrite AT. split; [|split; [|split; [|split; [|split; [|split]]]]]; auto.
  - rewrite RH, map_length. reflexivity.
  - intros x Hx. rewrite Forall_forall in D. apply in_map_iff in Hx. destruct Hx as (s & <- & Hs). exact (D s Hs).
  - intros HL. destruct E as [(C1 & _)|E]; [contradiction|exact E].
  - rewrite RH. destruct l; cbn; split; congruence.
Qed.
(** Outside [0,1] the maximum is wrong: it starts at 0. *)
Theorem C36_max_refuted : exists g thr ops r l x, since_reset ops 0 r l /\ l = [(1, x)] /\ is_finite x = true /\
  feq (cs_max (CMStatistics (cmRun (NewConvergence g thr 0) ops))) x = false.
Proof.
  exists (mkState (fofZ 0) 1 (fofZ 0)), (flit 5 10), [CMRec 1 (fofZ (-1))], 0, [(1, fofZ (-1))], (fofZ (-1)).
  split; [exists []; auto|]. split; [reflexivity|]. split; [reflexivity|vm_compute; reflexivity].
Qed.
Example C36_nonvacuous : exists ops r l, since_reset ops 0 r l /\ r = 5 /\ List.length l = 2%nat /\
  Forall (fun s => fle (fofZ 0) (snd s) = true /\ fle (snd s) (fofZ 1) = true) l /\
  last_ge (flit 5 10) l.
Proof.
  exists [CMRec 1 (fofZ 1); CMRes 5; CMRec 6 (flit 2 10); CMRec 7 (flit 8 10)], 5, [(6, flit 2 10); (7, flit 8 10)].
  split; [exists [CMRec 1 (fofZ 1); CMRes 5]; split; auto; right; exists [CMRec 1 (fofZ 1)]; auto|].
  split; auto. split; auto. split.
  - repeat constructor.
  - exists [(6, flit 2 10)], (7, flit 8 10). split; reflexivity.
Qed.
End C36.

(** ** C37 (exact reals) *)
Section C37.
Open Scope R_scope.
Definition hist_mon (l : list R) : CM R := mkCM l [] (mkState 0 1 0) 0 0 None 0 0.
Lemma rate_formula (m : CM R) : (2 <= List.length (cm_hist m))%nat ->
  let w := lastn 10 (cm_hist m) in
  (2 <= List.length w)%nat /\ CMRate m = NUM w / DEN w.
Proof.
  intros H. cbv zeta. unfold CMRate. rewrite (proj2 (Nat.ltb_ge _ _) H).
  set (k := if (List.length (cm_hist m) <? 10)%nat then List.length (cm_hist m) else 10%nat).
  assert (E : lastn 10 (cm_hist m) = lastn k (cm_hist m)).
  { unfold k. destruct (Nat.ltb_spec (List.length (cm_hist m)) 10); auto. rewrite !lastn_all; auto; lia. }
  assert (K : (2 <= k <= List.length (cm_hist m))%nat).
  { unfold k. destruct (Nat.ltb_spec (List.length (cm_hist m)) 10); lia. }
  rewrite E. split; [rewrite lastn_length; lia|]. rewrite regSums_spec. cbn [rs_xy rs_x rs_y rs_x2].
  unfold NUM, DEN, len. rewrite lastn_length by lia. cbn. rewrite <- INR_IZR_INZ. reflexivity.
Qed.
(** The rate is the slope of a best-fitting line through the last ten samples (all if fewer), and the
    only such slope. *)
Theorem C37_least_squares : forall m : CM R, (2 <= List.length (cm_hist m))%nat ->
  least_squares_slope (lastn 10 (cm_hist m)) (CMRate m) /\
  (forall b, least_squares_slope (lastn 10 (cm_hist m)) b -> b = CMRate m).
Proof.
  intros m H. destruct (rate_formula m H) as [L ->]. split; [now apply slope_optimal|]. intros b Hb. now apply slope_unique.
Qed.
Theorem C37_short : forall m : CM R, (List.length (cm_hist m) < 2)%nat -> CMRate m = 0.
Proof. intros m H. unfold CMRate. rewrite (proj2 (Nat.ltb_lt _ _) H). reflexivity. Qed.
Lemma map_add_seq d k : forall i, map (fun j => (d + j)%nat) (seq i k) = seq (d + i) k.
Proof. induction k as [|k IH]; intros i; cbn; auto. f_equal. now rewrite IH, Nat.add_succ_r. Qed.
Theorem C37_linear : forall (m : CM R) a b n, (2 <= n)%nat ->
  cm_hist m = map (fun k => a + b * INR k) (seq 0 n) -> CMRate m = b.
Proof.
  intros m a b n Hn E.
  assert (L : (2 <= List.length (cm_hist m))%nat) by (rewrite E, map_length, seq_length; auto).
  destruct (rate_formula m L) as [LW ->]. set (w := lastn 10 (cm_hist m)) in *.
  set (d := (n - List.length w)%nat). set (k := List.length w).
  assert (D : w = map (fun k => (a + b * INR d) + b * INR k) (seq 0 k)).
  { unfold w, lastn. rewrite E at 2. rewrite skipn_map.
    assert (LW' : (List.length w <= n)%nat).
    { destruct (lastn_split 10 (cm_hist m)) as [p Hp]. apply (f_equal (@List.length R)) in Hp.
      rewrite app_length in Hp. fold w in Hp. rewrite E, map_length, seq_length in Hp. lia. }
    assert (Q : (List.length (cm_hist m) - 10 = d)%nat).
    { unfold d, w, lastn. rewrite skipn_length. rewrite E, map_length, seq_length. lia. }
    rewrite Q. replace (skipn d (seq 0 n)) with (map (fun k => (d + k)%nat) (seq 0 k)).
    - rewrite map_map. apply map_ext. intros j. rewrite plus_INR. ring.
    - assert (ND : n = (d + k)%nat) by (unfold k, d; lia). rewrite ND, seq_app, skipn_app, seq_length.
      rewrite skipn_all2 by (rewrite seq_length; auto). rewrite Nat.sub_diag. cbn [skipn app plus].
      now rewrite map_add_seq, Nat.add_0_r. }
  assert (NUM w = b * DEN w).
  { unfold NUM, DEN. rewrite D. apply (NUM_linear (a + b * INR d) b k 0). }
  pose proof (DEN_ge w LW). rewrite H. field. lra.
Qed.
Lemma increasing_skip l : forall k, increasing l -> increasing (skipn k l).
Proof. induction l as [|y l IH]; intros [|k]; cbn; auto. intros [_ H]. auto. Qed.
Theorem C37_increasing : forall m : CM R, (2 <= List.length (cm_hist m))%nat ->
  increasing (cm_hist m) -> 0 < CMRate m.
Proof.
  intros m H I. destruct (rate_formula m H) as [LW ->]. apply Rdiv_lt_0_compat.
  - apply NUM_from; auto. apply increasing_skip. exact I.
  - pose proof (DEN_ge _ LW). lra.
Qed.
Theorem C37_shift : forall (m m' : CM R) c, cm_hist m' = map (fun y => y + c) (cm_hist m) -> CMRate m' = CMRate m.
Proof.
  intros m m' c E. assert (LE : List.length (cm_hist m') = List.length (cm_hist m)) by (rewrite E; apply map_length).
  destruct (Nat.lt_ge_cases (List.length (cm_hist m)) 2) as [L|L].
  - rewrite !C37_short; auto; lia.
  - destruct (rate_formula m L) as [_ ->]. destruct (rate_formula m') as [_ ->]; [lia|].
    rewrite E. unfold lastn. rewrite map_length, skipn_map, NUM_shift. f_equal.
    apply DEN_len. now rewrite map_length.
Qed.
Definition h11 : CM R := hist_mon (1 :: repeat 0 10).
(** It is not the slope of the whole history once there are more than ten samples. *)
Theorem C37_full_history_refuted : exists m : CM R, ~ least_squares_slope (cm_hist m) (CMRate m).
Proof.
  exists h11. intros H.
  assert (L : (2 <= List.length (cm_hist (h11)))%nat) by (cbn; lia).
  destruct (rate_formula _ L) as [_ E]. rewrite E in H. clear E.
  assert (Z : NUM (lastn 10 (cm_hist (h11))) = 0) by (unfold NUM, len, lastn; cbn; ring).
  rewrite Z in H. unfold Rdiv in H. rewrite Rmult_0_l in H. destruct H as [a H].
  specialize (H (7 / 22) (- (1 / 22))). cbn in H. nra.
Qed.

(** Stability. *)
Lemma fold_sq c l : forall v, fold_left (fun v x => v + (x - c) * (x - c)) l v = v + fold_left (fun v x => v + (x - c) * (x - c)) l 0.
Proof. induction l as [|x l IH]; intros v; cbn; [ring|]. rewrite (IH (v + _)), (IH (0 + _)). ring. Qed.
Lemma sq_sum c l : 0 <= fold_left (fun v x => v + (x - c) * (x - c)) l 0 /\
  (fold_left (fun v x => v + (x - c) * (x - c)) l 0 = 0 <-> forall x, In x l -> x = c).
Proof.
  induction l as [|x l [A B]]; cbn [fold_left In]; [split; [lra|]; split; [intros _ ? []|reflexivity]|].
  rewrite fold_sq. pose proof (Rle_0_sqr (x - c)) as K. unfold Rsqr in K. split; [lra|]. split.
  - intros E. assert (K0 : (x - c) * (x - c) = 0) by lra. assert (E0 : fold_left (fun v x => v + (x - c) * (x - c)) l 0 = 0) by lra.
    apply Rmult_integral in K0. intros y [<-|Hy]; [destruct K0; lra|]. now apply B.
  - intros H. rewrite (proj2 B) by auto. rewrite (H x) by auto. ring.
Qed.
Lemma fold_sum l : forall v, fold_left Rplus l v = v + fold_left Rplus l 0.
Proof. induction l as [|x l IH]; intros v; cbn; [ring|]. rewrite (IH (v + x)), (IH (0 + x)). ring. Qed.
Lemma const_mean l c : l <> [] -> (forall x, In x l -> x = c) -> @meanOf R RNum l = c.
Proof.
  intros NE H. unfold meanOf, nsum. cbn.
  assert (E : fold_left Rplus l 0 = INR (List.length l) * c).
  { clear NE. induction l as [|x l IH]; [cbn; ring|]. cbn [fold_left List.length]. rewrite fold_sum, IH by (intros; apply H; now right).
    rewrite (H x) by now left. rewrite S_INR. ring. }
  rewrite E, <- INR_IZR_INZ. field. apply not_0_INR. destruct l; [congruence|cbn; lia].
Qed.
Lemma var_formula w : @varianceOf R RNum w =
  fold_left (fun v x => v + (x - @meanOf R RNum w) * (x - @meanOf R RNum w)) w 0 / INR (List.length w).
Proof. rewrite INR_IZR_INZ. reflexivity. Qed.
Theorem C37_stability : forall m : CM R,
  0 < CMStability m <= 1 /\
  (CMStability m = 1 <-> forall x y, In x (lastn 20 (cm_hist m)) -> In y (lastn 20 (cm_hist m)) -> x = y).
Proof.
  intros m. unfold CMStability. destruct (Nat.ltb_spec (List.length (cm_hist m)) 2) as [L|L].
  - cbn. split; [lra|]. split; auto. intros _ x y. rewrite lastn_all by lia.
    destruct (cm_hist m) as [|z [|w r]]; cbn in *; try lia; try contradiction. intros [<-|[]] [<-|[]]. reflexivity.
  - set (k := if (List.length (cm_hist m) <? 20)%nat then List.length (cm_hist m) else 20%nat).
    assert (E : lastn 20 (cm_hist m) = lastn k (cm_hist m)).
    { unfold k. destruct (Nat.ltb_spec (List.length (cm_hist m)) 20); auto. rewrite !lastn_all; auto; lia. }
    assert (K : (2 <= k <= List.length (cm_hist m))%nat).
    { unfold k. destruct (Nat.ltb_spec (List.length (cm_hist m)) 20); lia. }
    rewrite E. set (w := lastn k (cm_hist m)).
    assert (LW : List.length w = k) by (apply lastn_length; lia).
    change (@nsqrt R RNum) with sqrt. change (@nexp R RNum) with exp. change (@n1 R RNum) with 1.
    rewrite var_formula, LW. 
    change (nmul (nneg (sqrt ?x)) (nofZ 10)) with (- sqrt x * 10).
    assert (KP : 0 < INR k) by (apply lt_0_INR; lia).
    destruct (sq_sum (@meanOf R RNum w) w) as [P Q].
    set (v := fold_left (fun v x => v + (x - @meanOf R RNum w) * (x - @meanOf R RNum w)) w 0) in *.
    assert (V : 0 <= v / INR k) by (apply Rmult_le_pos; [lra|left; now apply Rinv_0_lt_compat]).
    pose proof (sqrt_pos (v / INR k)) as SP.
    split; [split; [apply exp_pos|]|].
    + rewrite <- exp_0. destruct (Req_dec (sqrt (v / INR k)) 0) as [Z|Z].
      * rewrite Z. apply Req_le. f_equal. ring.
      * left. apply exp_increasing. lra.
    + split.
      * intros X. assert (Z : sqrt (v / INR k) = 0).
        { rewrite <- exp_0 in X. apply exp_inv in X. lra. }
        apply sqrt_eq_0 in Z; auto. assert (v = 0) by (apply Rmult_integral in Z; destruct Z; auto; pose proof (Rinv_0_lt_compat _ KP); lra).
        intros x y Hx Hy. rewrite (proj1 Q H x Hx), (proj1 Q H y Hy). reflexivity.
      * intros X. assert (NE : w <> []) by (intros C; rewrite C in LW; cbn in LW; lia).
        destruct w as [|z w'] eqn:EW; [congruence|]. rewrite <- EW in *.
        assert (MC : @meanOf R RNum w = z) by (apply const_mean; auto; intros x Hx; apply X; auto; rewrite EW; now left).
        assert (v = 0). { apply Q. intros x Hx. rewrite MC. apply X; auto. rewrite EW. now left. }
        rewrite H. unfold Rdiv. rewrite Rmult_0_l, sqrt_0. rewrite <- exp_0. f_equal. ring.
Qed.
Definition h3 : CM R := hist_mon [1; 2; 4].
Example C37_nonvacuous : CMRate h3 = 3 / 2.
Proof.
  assert (L : (2 <= List.length (cm_hist h3))%nat) by (cbn; lia).
  destruct (rate_formula _ L) as [_ ->]. unfold NUM, DEN, len, lastn. cbn. field.
Qed.
Example C37_increasing_nonvacuous : increasing [1; 2; 4].
Proof. cbn. repeat split; intros z H; repeat (destruct H as [<-|H]; [lra|]); contradiction. Qed.
End C37.

(** ** C38 *)
Section C38.
Variable tr : Trig.
Local Instance NF' : Num F := FNum tr.
Lemma skipn_S_tl {A} k (l : list A) : skipn (S k) l = tl (skipn k l).
Proof. revert l. induction k as [|k IH]; intros [|x l]; auto. change (skipn (S (S k)) (x :: l)) with (skipn (S k) l). now rewrite IH. Qed.
Lemma mon_lastn (l : list F) : monRun l = lastn 100 l.
Proof.
  induction l as [|x l IH] using rev_ind; [reflexivity|].
  unfold monRun. rewrite fold_left_app. cbn [fold_left]. fold (monRun l). rewrite IH. unfold MonRecord, lastn.
  rewrite skipn_length, app_length. cbn [List.length].
  destruct (Nat.leb_spec 100 (List.length l - (List.length l - 100))) as [H|H].
  - replace (List.length l + 1 - 100)%nat with (S (List.length l - 100)) by lia.
    rewrite skipn_S_tl, skipn_app. replace (List.length l - 100 - List.length l)%nat with O by lia. cbn [skipn].
    destruct (skipn (List.length l - 100) l) eqn:E; auto.
    apply (f_equal (@List.length F)) in E. rewrite skipn_length in E. cbn in E. lia.
  - rewrite skipn_app. replace (List.length l + 1 - 100)%nat with O by lia. replace (List.length l - 100)%nat with O by lia. reflexivity.
Qed.
Theorem C38_window : forall l : list F,
  suffix_of (Nat.min 100 (List.length l)) l (MonHistory (monRun l)) /\
  MonLatest (monRun l) = last l (fofZ 0).
Proof.
  intros l. unfold MonHistory. rewrite mon_lastn. split.
  - split; [unfold lastn; rewrite skipn_length; lia|apply lastn_split].
  - destruct l as [|y l'] eqn:EL; [reflexivity|]. rewrite <- EL.
    destruct (exists_last (l := l) ltac:(rewrite EL; discriminate)) as (l2 & x & ->).
    assert (L : exists q, lastn 100 (l2 ++ [x]) = q ++ [x]).
    { unfold lastn. rewrite skipn_app, app_length. cbn [List.length].
      replace (List.length l2 + 1 - 100 - List.length l2)%nat with O by lia. cbn [skipn]. eauto. }
    destruct L as [q ->]. unfold MonLatest. rewrite !last_last. destruct q; reflexivity.
Qed.
End C38.
(** The average over exact reals lies between the extremes; in float64 it can leave them. *)
Section C38R.
Open Scope R_scope.
Theorem C38_average : forall l : list R, l <> [] ->
  exists lo hi, In lo (monRun l) /\ In hi (monRun l) /\ lo <= MonAverage (monRun l) <= hi.
Proof.
  intros l NE.
  assert (NM : monRun l <> []).
  { destruct (exists_last NE) as (l' & x & ->). unfold monRun. rewrite fold_left_app. cbn. unfold MonRecord.
    intros C. apply app_eq_nil in C. destruct C; discriminate. }
  generalize (monRun l) NM. clear. intros m NE.
  assert (AV : @MonAverage R RNum m = nsum m / nofZ (Z.of_nat (List.length m))) by (destruct m; [congruence|reflexivity]).
  rewrite AV. clear AV.
  assert (MM : exists lo hi, In lo m /\ In hi m /\ forall x, In x m -> lo <= x <= hi).
  { induction m as [|x m IH]; [congruence|]. destruct m as [|z m].
    - exists x, x. split; [now left|]. split; [now left|]. intros w [<-|[]]. lra.
    - destruct IH as (lo & hi & A & B & C); [discriminate|].
      exists (if Rle_dec x lo then x else lo), (if Rle_dec hi x then x else hi).
      split; [destruct (Rle_dec x lo); [now left|now right]|]. split; [destruct (Rle_dec hi x); [now left|now right]|].
      pose proof (C lo A). intros w [<-|Hw].
      + destruct (Rle_dec x lo), (Rle_dec hi x); lra.
      + specialize (C w Hw). destruct (Rle_dec x lo), (Rle_dec hi x); lra. }
  destruct MM as (lo & hi & A & B & C). exists lo, hi. split; auto. split; auto.
  assert (S : INR (List.length m) * lo <= fold_left Rplus m 0 <= INR (List.length m) * hi).
  { clear A B NE. induction m as [|x m IH]; [cbn; lra|]. cbn [fold_left List.length]. rewrite fold_sum, S_INR.
    destruct IH as [I1 I2]; [intros; apply C; now right|]. specialize (C x (or_introl eq_refl)). lra. }
  unfold nsum. cbn. rewrite <- INR_IZR_INZ.
  assert (P : 0 < INR (List.length m)) by (apply lt_0_INR; destruct m; [congruence|cbn; lia]).
  split; [apply (Rmult_le_reg_r (INR (List.length m)))|apply (Rmult_le_reg_r (INR (List.length m)))]; auto;
    unfold Rdiv; rewrite Rmult_assoc, Rinv_l, Rmult_1_r by lra; lra.
Qed.
End C38R.
Theorem C38_average_float_refuted : forall tr, exists l : list F,
  l <> [] /\ forall x, In x (@monRun F l) -> flt x (@MonAverage F (FNum tr) (@monRun F l)) = true.
Proof.
  intros tr. exists [flit 1 10; flit 1 10; flit 1 10]. split; [discriminate|].
  assert (H : flt (flit 1 10) (@MonAverage F (FNum tr) (@monRun F [flit 1 10; flit 1 10; flit 1 10])) = true) by (vm_compute; reflexivity).
  intros x Hx. change (@monRun F [flit 1 10; flit 1 10; flit 1 10]) with [flit 1 10; flit 1 10; flit 1 10] in Hx.
  repeat (destruct Hx as [<-|Hx]; [exact H|]). contradiction.
Qed.
Example C38_nonvacuous : @monRun F (repeat (fofZ 1) 150) = repeat (fofZ 1) 100.
Proof. rewrite (mon_lastn (repeat (fofZ 1) 150)). reflexivity. Qed.

Print Assumptions C36_cover. Print Assumptions C36_bookkeeping. Print Assumptions C36_nan_refuted.
Print Assumptions C36_statistics. Print Assumptions C36_max_refuted. Print Assumptions C37_least_squares.
Print Assumptions C37_short. Print Assumptions C37_linear. Print Assumptions C37_increasing. Print Assumptions C37_shift.
Print Assumptions C37_full_history_refuted. Print Assumptions C37_stability. Print Assumptions C38_window.
Print Assumptions C38_average. Print Assumptions C38_average_float_refuted.
