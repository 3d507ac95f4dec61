(** Property theorems C28 (resynchronisation decision) and C29 (continuous operation). *)
From Coq Require Import ZArith Reals Psatz Bool List String Lia Sorted.
From Flocq Require Import Core.Core IEEE754.BinarySingleNaN.
From Verif Require Import Num F64 M_Core M_Agent M_AgentConfig M_Limits M_GoalConfig M_Swarm M_Sync M_Continuous
  L_F64 L_F64x L_Ford L_PhaseF S_Swarm S_Sync P_Swarm P_Sync P_Converge.
Import ListNotations.
Open Scope Z_scope.

(** * C28 *)
(** The stuck threshold has no influence at all, on the answer or on the later state, in any number semantics: condition 4
    asks again for a coherence below target*margin, which has already been answered. *)
Definition set_stuck {T} (k : Z) (c : RecoveryConfig T) : RecoveryConfig T :=
  mkRec (rc_minviable c) (rc_margin c) (rc_small c) (rc_large c) k (rc_interval c).
Theorem C28_stuck_threshold_ignored_refuted : forall {T} {N : Num T} (cfg : RecoveryConfig T) k target st cur,
  needsResync (set_stuck k cfg) target st cur = needsResync cfg target st cur.
Proof.
  intros T N cfg k target st cur. unfold needsResync, set_stuck. cbn [rc_minviable rc_margin rc_small rc_large rc_stuck].
  destruct (nlt cur (rc_minviable cfg)); auto. cbv zeta.
  destruct (nlt cur (nmul target (rc_margin cfg))); auto.
  destruct (_ && _)%bool; auto. now rewrite !andb_false_r.
Qed.

Section C28.
Variable tr : Trig.
Local Instance NF : Num F := FNum tr.
Local Notation cfgT := (RecoveryConfig F).

(** The decision of a tick is about the measured coherence, the decayed peak and the previous coherence. *)
Theorem C28_below_minimum : forall (cfg : cfgT) target st cur, flt cur (rc_minviable cfg) = true ->
  fst (needsResync cfg target st cur) = true.
Proof. intros cfg target st cur H. unfold needsResync. change (@nlt F NF) with flt. now rewrite H. Qed.
Theorem C28_below_margin : forall (cfg : cfgT) target st cur, flt cur (fmul target (rc_margin cfg)) = true ->
  fst (needsResync cfg target st cur) = true.
Proof.
  intros cfg target st cur H. unfold needsResync. change (@nlt F NF) with flt. change (@nmul F NF) with fmul.
  destruct (flt cur (rc_minviable cfg)); auto. cbv zeta. now rewrite H.
Qed.

Lemma fmul_le_right p x y : is_finite p = true -> (0 <= B2R p)%R -> is_finite x = true -> is_finite y = true -> fle x y = true ->
  fle (fmul p x) (fmul p y) = true.
Proof.
  intros Fp Hp Fx Fy H. apply fle_true in H. rewrite !ford_fin in H by auto. destruct H as (_ & _ & H).
  destruct (fmul_ord p x Fp Fx) as [N1 E1]. destruct (fmul_ord p y Fp Fy) as [N2 E2].
  apply fle_true. rewrite E1, E2. repeat split; auto. apply sat_le, rnd_le. nra.
Qed.
(** A drop from the peak by more than the large ratio always asks for resynchronisation, provided the small ratio is
    not larger than the large one. *)
Theorem C28_large_drop : forall (cfg : cfgT) target st cur, is_finite (ms_peak st) = true -> (0 <= B2R (ms_peak st))%R ->
  is_finite (rc_small cfg) = true -> is_finite (rc_large cfg) = true -> fle (rc_small cfg) (rc_large cfg) = true ->
  flt (fmul (ms_peak st) (rc_large cfg)) (fsub (ms_peak st) cur) = true ->
  fst (needsResync cfg target st cur) = true.
Proof.
  intros cfg target st cur Fp Hp Fs Fl H D. unfold needsResync. change (@nlt F NF) with flt. change (@nmul F NF) with fmul. change (@nsub F NF) with fsub.
  destruct (flt cur (rc_minviable cfg)); auto. cbv zeta. destruct (flt cur (fmul target (rc_margin cfg))); auto.
  rewrite D. rewrite (fle_flt_trans _ _ _ (fmul_le_right _ _ _ Fp Hp Fs Fl H) D). reflexivity.
Qed.
(** REFUTED without that proviso (RecoveryConfig is not validated). *)
Theorem C28_large_drop_refuted : exists (cfg : cfgT) target st cur,
  flt (fmul (ms_peak st) (rc_large cfg)) (fsub (ms_peak st) cur) = true /\ fst (needsResync cfg target st cur) = false.
Proof.
  exists (mkRec (fofZ 0) (flit 5 10) (flit 9 10) (flit 1 10) 30 100000000), (flit 5 10), (mkMS (flit 6 10) (flit 9 10) 0 false 0), (flit 6 10).
  split; vm_compute; reflexivity.
Qed.

(** Steady: neither below the previous measurement nor below the remembered peak.  At or above the target (and the minimum
    viable coherence) such a measurement never asks for resynchronisation. *)
Definition sane_recovery (cfg : cfgT) : Prop :=
  is_finite (rc_margin cfg) = true /\ (0 <= B2R (rc_margin cfg) <= 1)%R /\
  is_finite (rc_small cfg) = true /\ (0 <= B2R (rc_small cfg))%R.
Definition fin_nonneg (x : F) : Prop := is_finite x = true /\ (0 <= B2R x)%R.

Lemma le_fin x y : is_finite x = true -> is_finite y = true -> fle x y = true <-> (B2R x <= B2R y)%R.
Proof. intros A B. rewrite fle_true, !ford_fin by auto. intuition auto using fin_nan. Qed.
Lemma mul_nonneg_ord p x : is_finite p = true -> (0 <= B2R p)%R -> is_finite x = true -> (0 <= B2R x)%R ->
  fisnan (fmul p x) = false /\ (0 <= ford (fmul p x))%R.
Proof. intros Fp Hp Fx Hx. destruct (fmul_ord p x Fp Fx) as [N1 E1]. rewrite E1. split; auto. apply sat_ge_0, rnd_ge_0. nra. Qed.
Lemma mul_shrink p m : is_finite p = true -> (0 <= B2R p)%R -> is_finite m = true -> (0 <= B2R m <= 1)%R ->
  is_finite (fmul p m) = true /\ (0 <= B2R (fmul p m) <= B2R p)%R.
Proof.
  intros Fp Hp Fm Hm. destruct (fmul_ord p m Fp Fm) as [N1 E1].
  pose proof (B2R_lt_BIG p) as B.
  assert (U : (rnd (B2R p * B2R m) <= B2R p)%R) by (apply rnd_le_fmt; [apply fmt_B2R|nra]).
  assert (L : (0 <= rnd (B2R p * B2R m))%R) by (apply rnd_ge_0; nra).
  rewrite sat_rnd_small in E1 by (rewrite Rabs_pos_eq by auto; lra).
  assert (FM : is_finite (fmul p m) = true) by (apply ford_fin_inv; auto; rewrite E1; lra).
  split; auto. rewrite ford_fin in E1 by auto. lra.
Qed.
Lemma sub_le_self c z : is_finite c = true -> fisnan z = false -> (0 <= ford z)%R -> flt c (fsub c z) = false.
Proof.
  intros Fc Nz Hz. destruct (flt c (fsub c z)) eqn:E; auto. exfalso. apply flt_true in E. destruct E as (_ & NS & E).
  destruct (not_nan_cases z Nz) as [Fz|[s ->]].
  - destruct (fsub_ord c z Fc Fz) as [_ E1]. rewrite E1 in E. rewrite !ford_fin in * by auto.
    assert (rnd (B2R c - B2R z) <= B2R c)%R by (apply rnd_le_fmt; [apply fmt_B2R|lra]).
    pose proof (ford_bounds c) as B. rewrite ford_fin in B by auto. apply sat_le in H. rewrite (sat_id (B2R c)) in H by lra. lra.
  - destruct s; cbn in Hz; [pose proof BIG_pos; lra|]. pose proof (ford_bounds c) as B. rewrite (ford_fin c) in * by auto.
    destruct c; try discriminate Fc; cbn in E; pose proof BIG_pos; cbn in B; lra.
Qed.

Theorem C28_steady : forall (cfg : cfgT) target st cur, sane_recovery cfg -> fin_nonneg target -> fin_nonneg cur ->
  fle target cur = true -> flt cur (rc_minviable cfg) = false ->
  fin_nonneg (ms_peak st) -> fle (ms_peak st) cur = true -> fin_nonneg (ms_last st) -> fle (ms_last st) cur = true ->
  fst (needsResync cfg target st cur) = false.
Proof.
  intros cfg target st cur (Fm & Hm & Fs & Hs) [Ft Ht] [Fc Hc] TC MV [Fp Hp] PC [Fl Hl] LC.
  unfold needsResync. change (@nlt F NF) with flt. change (@nmul F NF) with fmul. change (@nsub F NF) with fsub. rewrite MV. cbv zeta.
  destruct (mul_shrink target (rc_margin cfg) Ft Ht Fm Hm) as [FA HA].
  assert (A : flt cur (fmul target (rc_margin cfg)) = false).
  { apply fle_not_lt, le_fin; auto. apply le_fin in TC; auto. lra. }
  rewrite A.
  assert (D : flt (fmul (ms_peak st) (rc_small cfg)) (fsub (ms_peak st) cur) = false).
  { destruct (mul_nonneg_ord _ _ Fp Hp Fs Hs) as [N1 H1]. apply fle_not_lt. apply fle_true.
    destruct (fsub_ord _ _ Fp Fc) as [N2 E2]. split; auto. split; auto. rewrite E2. apply le_fin in PC; auto.
    apply Rle_trans with 0%R; auto. apply sat_le_0, rnd_le_0. lra. }
  rewrite D. cbn [andb]. rewrite !andb_false_r. cbn [fst].
  destruct (mul_nonneg_ord _ _ Fl Hl Fs Hs) as [N1 H1].
  pose proof (sub_le_self (ms_last st) _ Fl N1 H1) as Q.
  (* cur >= last >= last - last*small *)
  destruct (flt cur (fsub (ms_last st) (fmul (ms_last st) (rc_small cfg)))) eqn:E; auto. exfalso.
  pose proof (fle_flt_trans _ _ _ LC E). congruence.
Qed.

(** A whole run of equal measurements, from the initial state of RunContinuous: no tick asks for resynchronisation. *)
Fixpoint ticks (cfg : cfgT) (target : F) (st : MonState F) (l : list F) : list bool :=
  match l with [] => [] | c :: r => let (b, st') := tickState cfg target st c in b :: ticks cfg target st' r end.
Lemma decay_range : is_finite (@peakDecay F NF) = true /\ (0 <= B2R (@peakDecay F NF) <= 1)%R.
Proof.
  assert (A : fle (fofZ 0) (@peakDecay F NF) = true /\ fle (@peakDecay F NF) (fofZ 1) = true /\ is_finite (@peakDecay F NF) = true) by (split; [|split]; vm_compute; reflexivity).
  destruct A as (A & B & C). apply fle_true in A, B. rewrite ford_fofZ, ford_fin in * by (auto; lia). intuition.
Qed.
Theorem C28_steady_run : forall (cfg : cfgT) target c n t, sane_recovery cfg -> fin_nonneg target -> fin_nonneg c ->
  fle target c = true -> flt c (rc_minviable cfg) = false ->
  ticks cfg target (mkMS c (fofZ 0) 0 true t) (repeat c n) = repeat false n.
Proof.
  intros cfg target c n t SR Ht Hc TC MV.
  assert (G : forall n st, ms_last st = c -> fin_nonneg (ms_peak st) -> fle (ms_peak st) c = true -> ticks cfg target st (repeat c n) = repeat false n).
  { clear n. induction n as [|n IH]; intros st L P PC; cbn [repeat ticks]; auto.
    destruct (tickState cfg target st c) as [b st'] eqn:E. unfold tickState in E. cbv zeta in E.
    set (st1 := mkMS (ms_last st) (newPeak st c) (ms_stable st) (ms_active st) (ms_sync st)) in *.
    assert (P1 : fin_nonneg (newPeak st c) /\ fle (newPeak st c) c = true).
    { unfold newPeak. change (@nlt F NF) with flt. change (@nmul F NF) with fmul. destruct Hc as [Fc Nc].
      destruct (flt (ms_peak st) c); [split; [split; auto|apply fle_refl; auto using fin_nan]|].
      destruct P as [Fp Np]. destruct decay_range as [FD RD]. destruct (mul_shrink _ _ Fp Np FD RD) as [FM RM].
      split; [split; [auto|lra]|]. apply le_fin; auto. apply le_fin in PC; auto. lra. }
    destruct P1 as [P1 P2].
    assert (S : fst (needsResync cfg target st1 c) = false).
    { apply C28_steady; auto; unfold st1; cbn [ms_last ms_peak]; auto; rewrite L; auto. destruct Hc. apply fle_refl; auto using fin_nan. }
    destruct (needsResync cfg target st1 c) as [b1 stable']. cbn [fst] in S. subst b1. injection E as <- <-.
    f_equal. apply IH; cbn [ms_last ms_peak]; auto. }
  apply G; cbn [ms_last ms_peak]; auto.
  - destruct (fofZ_fin 0 ltac:(lia)) as [A B]. split; auto. rewrite B. apply Rle_refl.
  - destruct Hc as [Fc Nc]. destruct (fofZ_fin 0 ltac:(lia)) as [A B]. apply le_fin; [exact A|exact Fc|]. rewrite B. exact Nc.
Qed.

(** The default configuration satisfies the provisos for targets from 0.2 on ... *)
Theorem C28_default_ok : forall target, fle (flit 2 10) target = true ->
  let cfg := DefaultRecoveryConfig target in
  sane_recovery cfg /\ is_finite (rc_large cfg) = true /\ fle (rc_small cfg) (rc_large cfg) = true /\
  fle (rc_minviable cfg) target = true /\ 0 < rc_interval cfg.
Proof.
  intros target H. cbv zeta. unfold DefaultRecoveryConfig. change (@nle F NF) with fle.
  assert (LIT : forall a b : Z, (fle (fofZ 0) (flit a b) && fle (flit a b) (fofZ 1) && is_finite (flit a b))%bool = true ->
    is_finite (flit a b) = true /\ (0 <= B2R (flit a b) <= 1)%R).
  { intros a b E. rewrite !andb_true_iff in E. destruct E as [[A B] C]. apply fle_true in A, B. rewrite ford_fofZ, ford_fin in * by (auto; lia). intuition. }
  change (@nlit F NF) with flit.
  destruct (fle (flit 9 10) target) eqn:E1; [|destruct (fle (flit 7 10) target) eqn:E2; [|destruct (fle (flit 5 10) target) eqn:E3]];
  unfold sane_recovery; cbn [rc_margin rc_small rc_large rc_minviable rc_interval].
  all: repeat match goal with |- context [is_finite (flit ?a ?b)] => destruct (LIT a b ltac:(vm_compute; reflexivity)) as [-> ?] end.
  all: repeat split; try lra; try lia; try (vm_compute; reflexivity); try tauto.
  all: try (eapply fle_trans; [|eassumption]; vm_compute; reflexivity).
  all: match goal with |- (0 <= B2R (flit ?a ?b))%R => destruct (LIT a b ltac:(vm_compute; reflexivity)); lra end.
Qed.
(** ... and REFUTED below: with target 0.1 a coherence that stays at 0.15 asks for resynchronisation at every tick. *)
Theorem C28_steady_default_refuted : forall n t, flt (flit 1 10) (flit 15 100) = true /\
  ticks (DefaultRecoveryConfig (flit 1 10)) (flit 1 10) (mkMS (flit 15 100) (fofZ 0) 0 true t) (repeat (flit 15 100) n) = repeat true n.
Proof.
  intros n t. split; [vm_compute; reflexivity|].
  assert (G : forall n st, ticks (DefaultRecoveryConfig (flit 1 10)) (flit 1 10) st (repeat (flit 15 100) n) = repeat true n).
  { clear n t. induction n as [|n IH]; intros st; cbn [repeat ticks]; auto.
    unfold tickState. cbv zeta. unfold needsResync at 1. change (@nlt F NF) with flt.
    assert (E : flt (flit 15 100) (rc_minviable (@DefaultRecoveryConfig F NF (flit 1 10))) = true) by (vm_compute; reflexivity).
    rewrite E. f_equal. apply IH. }
  apply G.
Qed.

(** Every other threshold influences the decision. *)
Definition baseRec : cfgT := mkRec (flit 2 10) (flit 5 10) (flit 5 100) (flit 5 10) 30 100000000.
Theorem C28_thresholds_matter :
  (exists m target st cur, fst (needsResync baseRec target st cur) <>
     fst (needsResync (mkRec m (rc_margin baseRec) (rc_small baseRec) (rc_large baseRec) 30 100000000) target st cur)) /\
  (exists m target st cur, fst (needsResync baseRec target st cur) <>
     fst (needsResync (mkRec (rc_minviable baseRec) m (rc_small baseRec) (rc_large baseRec) 30 100000000) target st cur)) /\
  (exists m target st cur, fst (needsResync baseRec target st cur) <>
     fst (needsResync (mkRec (rc_minviable baseRec) (rc_margin baseRec) m (rc_large baseRec) 30 100000000) target st cur)) /\
  (exists m target st cur, fst (needsResync baseRec target st cur) <>
     fst (needsResync (mkRec (rc_minviable baseRec) (rc_margin baseRec) (rc_small baseRec) m 30 100000000) target st cur)).
Proof.
  split; [|split; [|split]].
  - exists (flit 7 10), (flit 6 10), (mkMS (flit 6 10) (fofZ 0) 0 false 0), (flit 6 10). vm_compute. discriminate.
  - exists (fofZ 2), (flit 6 10), (mkMS (flit 6 10) (fofZ 0) 0 false 0), (flit 6 10). vm_compute. discriminate.
  - exists (flit 5 10), (flit 6 10), (mkMS (flit 7 10) (fofZ 0) 0 false 0), (flit 6 10). vm_compute. discriminate.
  - exists (flit 1 10), (flit 5 10), (mkMS (flit 6 10) (flit 7 10) 0 false 0), (flit 6 10). vm_compute. discriminate.
Qed.

Example C28_steady_example : sane_recovery (DefaultRecoveryConfig (flit 9 10)) /\ fin_nonneg (flit 9 10) /\ fin_nonneg (flit 95 100) /\
  fle (flit 9 10) (flit 95 100) = true /\ flt (flit 95 100) (rc_minviable (DefaultRecoveryConfig (flit 9 10))) = false.
Proof.
  destruct (C28_default_ok (flit 9 10) ltac:(vm_compute; reflexivity)) as [S _]. split; auto.
  assert (LIT : forall x : F, (fle (fofZ 0) x && is_finite x)%bool = true -> fin_nonneg x).
  { intros x E. apply andb_prop in E. destruct E as [A B]. split; auto. apply fle_true in A. rewrite ford_fofZ, ford_fin in A by (auto; lia). tauto. }
  split; [apply LIT; vm_compute; reflexivity|]. split; [apply LIT; vm_compute; reflexivity|]. split; vm_compute; reflexivity.
Qed.
Example C28_drop_example : exists st : MonState F, fin_nonneg (ms_peak st) /\
  flt (fmul (ms_peak st) (flit 8 100)) (fsub (ms_peak st) (flit 92 100)) = false /\
  flt (fmul (ms_peak st) (flit 8 100)) (fsub (ms_peak st) (flit 91 100)) = true.
Proof.
  exists (mkMS (fofZ 1) (fofZ 1) 0 false 0). cbn [ms_peak]. split; [|split; vm_compute; reflexivity].
  destruct (fofZ_fin 1 ltac:(lia)) as [A B]. split; auto. rewrite B. lra.
Qed.
End C28.

(** * C29 *)
Section C29.
Context {T : Type} {N : Num T}.

Definition instances (s : Cont T) : list Inst := ct_cur s :: ct_old s.
Definition running (s : Cont T) : nat := List.length (filter in_run (instances s)).
Definition ordered (a : Act T) : Prop := match a with ASelTick t1 t2 t3 _ => t1 <= t2 <= t3 | _ => True end.

(** More than 500 ms between the start of one synchronisation and the start of the next. *)
Definition apart (i j : Inst) : Prop := in_start j + 500000000 < in_start i.

Record inv (s : Cont T) (l : list (Act T)) : Prop := {
  inv_old : Forall (fun i => in_run i = false) (ct_old s);
  inv_act : in_run (ct_cur s) = true -> ms_active (ct_mon s) = true;
  inv_chan : forall e, in_chan (ct_cur s) = Full e -> in_run (ct_cur s) = false /\
     (e = EFailed -> In (AEnd 0 EFailed) l) /\ (e = EDeadline -> ct_ctx s = CtxDeadline);
  inv_start : in_start (ct_cur s) <= ms_sync (ct_mon s);
  inv_apart : StronglySorted apart (instances s);
  inv_ctx : ct_ctx s <> CtxLive -> In (ADone (ct_ctx s)) l;
  inv_res : forall e, ct_res s = CReturned e -> (e = EFailed /\ In (AEnd 0 EFailed) l) \/ ctxErr (ct_ctx s) = Some e }.

Lemma tick_fields cfg target (m : MonState T) c : ms_active (snd (tickState cfg target m c)) = ms_active m /\
  ms_sync (snd (tickState cfg target m c)) = ms_sync m.
Proof. unfold tickState. cbv zeta. destruct (needsResync _ _ _ _). split; reflexivity. Qed.

Lemma inv_start_state rec target t0 t1 coh : t0 <= t1 -> inv (contStart rec target t0 t1 coh) [].
Proof.
  intros H. unfold contStart. cbv zeta. constructor; cbn [ct_old ct_cur ct_mon ct_ctx ct_res ms_active ms_sync in_run in_chan in_start instances].
  - constructor. - auto. - discriminate. - auto. - unfold instances. cbn. repeat constructor. - congruence.
  - intros e. destruct (_ <=? 0); discriminate.
Qed.
Lemma inv_step s l a s' : inv s l -> ordered a -> contStep s a = Some s' -> inv s' (l ++ [a]).
Proof.
  intros [I1 I2 I3 I4 I5 I6 I7] O H.
  assert (IL : forall b, In b l -> In b (l ++ [a])) by (intros; apply in_or_app; auto).
  assert (IA : In a (l ++ [a])) by (apply in_or_app; right; now left).
  destruct a as [c|k e| | |t1 t2 t3 coh]; cbn [contStep] in H.
  - destruct (ct_ctx s) eqn:C; try discriminate. 
    assert (H' : c <> CtxLive /\ Some (mkCont (ct_rec s) (ct_target s) (ct_mon s) c (ct_cur s) (ct_old s) (ct_res s)) = Some s')
      by (destruct c; try discriminate; split; auto; discriminate).
    clear H. destruct H' as [NL H]. injection H as <-.
    constructor; cbn [ct_old ct_cur ct_mon ct_ctx ct_res]; auto.
    + intros e E. destruct (I3 e E) as (A & B & D). split; auto. split; [auto|]. intros De. specialize (D De). discriminate.
    + intros e E. destruct (I7 e E) as [[A B]|B]; [left; auto|discriminate].
  - destruct k as [|k].
    + destruct (mayEnd (ct_ctx s) (ct_cur s) e) eqn:ME; [|discriminate]. injection H as <-.
      constructor; cbn [ct_old ct_cur ct_mon ct_ctx ct_res endInst in_run in_chan in_start]; auto.
      * discriminate.
      * intros e' [= <-]. split; auto. split; [intros ->; auto|].
        intros ->. unfold mayEnd in ME. apply andb_prop in ME. destruct ME as [_ ME]. destruct (ct_ctx s); try discriminate; auto.
      * unfold instances in *. cbn [ct_cur ct_old]. inversion I5 as [|? ? S1 S2]; subst. constructor; auto.
      * intros e' E. destruct (I7 e' E) as [[A B]|B]; auto.
    + destruct (nth_error (ct_old s) k) as [i|] eqn:NE; [|discriminate].
      destruct (mayEnd (ct_ctx s) i e) eqn:ME; [|discriminate]. exfalso.
      unfold mayEnd in ME. apply andb_prop in ME. destruct ME as [RI _].
      rewrite Forall_forall in I1. rewrite (I1 i) in RI by eauto using nth_error_In. discriminate.
  - destruct (ct_res s) eqn:CR; try discriminate. destruct (ctxErr (ct_ctx s)) as [e|] eqn:CE; [|discriminate]. injection H as <-.
    constructor; cbn [ct_old ct_cur ct_mon ct_ctx ct_res]; auto.
    + intros e' E. destruct (I3 e' E) as (A & B & D). auto.
    + intros e' [= <-]. auto.
  - destruct (ct_res s) eqn:CR; try discriminate. destruct (in_chan (ct_cur s)) as [|e] eqn:CH; [discriminate|]. injection H as <-.
    destruct (I3 e eq_refl) as (A & B & D).
    constructor; cbn [ct_old ct_cur ct_mon ct_ctx ct_res in_run in_chan in_start ms_active ms_sync]; auto.
    + rewrite A. discriminate.
    + discriminate.
    + unfold instances in *. cbn [ct_cur ct_old]. inversion I5 as [|? ? S1 S2]; subst. constructor; auto.
    + intros e' E. destruct e; try discriminate; injection E as <-; [right; now rewrite (D eq_refl)|left; auto].
  - destruct (ct_res s) eqn:CR; try discriminate. injection H as <-. cbn in O. unfold tickCont.
    destruct (tick_fields (ct_rec s) (ct_target s) (ct_mon s) coh) as [TA TS].
    destruct (tickState (ct_rec s) (ct_target s) (ct_mon s) coh) as [should m]. cbn [snd] in TA, TS.
    destruct (should && negb (ms_active m) && (minResync <? t1 - ms_sync m))%bool eqn:E.
    + rewrite !andb_true_iff, negb_true_iff, Z.ltb_lt in E. destruct E as [[_ NA] TD]. unfold minResync in TD. rewrite TA in NA. rewrite TS in TD.
      assert (NR : in_run (ct_cur s) = false).
      { destruct (in_run (ct_cur s)) eqn:R; auto. specialize (I2 eq_refl). congruence. }
      constructor; cbn [ct_old ct_cur ct_mon ct_ctx ct_res in_run in_chan in_start ms_active ms_sync]; auto.
      * discriminate.
      * lia.
      * unfold instances in *. cbn [ct_cur ct_old]. inversion I5 as [|? ? S1 S2]; subst.
        constructor; [constructor; auto|]. unfold apart in *. cbn [in_start]. constructor; [cbn [in_start]; lia|].
        rewrite Forall_forall in *. intros j Hj. specialize (S2 j Hj). lia.
      * intros e' E. congruence.
    + constructor; cbn [ct_old ct_cur ct_mon ct_ctx ct_res]; auto.
      * intros R. rewrite TA. auto.
      * intros e' E'. destruct (I3 e' E') as (A & B & D). auto.
      * now rewrite TS.
      * intros e' E'. congruence.
Qed.
Lemma inv_run l : forall s l0 s', inv s l0 -> Forall ordered l -> contRun s l = Some s' -> inv s' (l0 ++ l).
Proof.
  induction l as [|a l IH]; intros s l0 s' I O H; cbn [contRun] in H.
  - injection H as <-. now rewrite app_nil_r.
  - destruct (contStep s a) as [s1|] eqn:E; [|discriminate]. inversion O; subst.
    replace (l0 ++ a :: l) with ((l0 ++ [a]) ++ l) by (rewrite <- app_assoc; reflexivity). eapply IH; eauto. eapply inv_step; eauto.
Qed.

(** At most one synchronisation is ever running, whatever the schedule. *)
Theorem C29_at_most_one : forall rec target t0 t1 coh l s, t0 <= t1 -> Forall ordered l ->
  contRun (contStart rec target t0 t1 coh) l = Some s -> (running s <= 1)%nat.
Proof.
  intros rec target t0 t1 coh l s Ht O H. pose proof (inv_run l _ [] s (inv_start_state rec target t0 t1 coh Ht) O H) as [I1 _ _ _ _ _ _].
  unfold running, instances. cbn [filter].
  assert (F : filter in_run (ct_old s) = []).
  { induction I1 as [|i r Hi Hr IH]; auto. cbn [filter]. now rewrite Hi. }
  destruct (in_run (ct_cur s)); cbn [List.length]; rewrite F; cbn; lia.
Qed.
(** Any two synchronisations are started more than 500 ms apart. *)
Theorem C29_restarts_apart : forall rec target t0 t1 coh l s, t0 <= t1 -> Forall ordered l ->
  contRun (contStart rec target t0 t1 coh) l = Some s -> StronglySorted (fun i j => in_start j + 500000000 < in_start i) (instances s).
Proof.
  intros rec target t0 t1 coh l s Ht O H. pose proof (inv_run l _ [] s (inv_start_state rec target t0 t1 coh Ht) O H) as [_ _ _ _ I5 _ _]. exact I5.
Qed.
(** It returns only after the caller's context ended (with its error) or after a synchronisation failed. *)
Theorem C29_exit : forall rec target t0 t1 coh l s e, t0 <= t1 -> Forall ordered l ->
  contRun (contStart rec target t0 t1 coh) l = Some s -> ct_res s = CReturned e ->
  (exists c, In (ADone c) l /\ ctxErr c = Some e) \/ (e = EFailed /\ In (AEnd 0 EFailed) l).
Proof.
  intros rec target t0 t1 coh l s e Ht O H R. pose proof (inv_run l _ [] s (inv_start_state rec target t0 t1 coh Ht) O H) as [_ _ _ _ _ I6 I7].
  destruct (I7 e R) as [[A B]|B]; auto. left. exists (ct_ctx s). split; auto. apply I6. intros C. rewrite C in B. discriminate.
Qed.
(** With which error: context.Canceled, context.DeadlineExceeded, or that of the synchronisation. *)
Theorem C29_exit_error : forall rec target t0 t1 coh l s e, t0 <= t1 -> Forall ordered l ->
  contRun (contStart rec target t0 t1 coh) l = Some s -> ct_res s = CReturned e ->
  (In (ADone CtxCanceled) l /\ e = ECanceled) \/ (In (ADone CtxDeadline) l /\ e = EDeadline) \/ (e = EFailed /\ In (AEnd 0 EFailed) l).
Proof.
  intros rec target t0 t1 coh l s e Ht O H R. destruct (C29_exit rec target t0 t1 coh l s e Ht O H R) as [[c [I E]]|D]; [|auto].
  destruct c; [discriminate| |]; injection E as <-; auto.
Qed.
(** Once the context has ended, the branch that returns its error is enabled. *)
Theorem C29_cancel_exits : forall (s : Cont T) e, ct_res s = CRunning -> ctxErr (ct_ctx s) = Some e ->
  exists s', contStep s ASelCtx = Some s' /\ ct_res s' = CReturned e.
Proof. intros s e R C. cbn [contStep]. rewrite R, C. eexists. split; reflexivity. Qed.
(** No panic for a non-negative check interval (0 means the default). *)
Theorem C29_no_panic : forall rec target t0 t1 coh l s, 0 <= rc_interval rec ->
  contRun (contStart rec target t0 t1 coh) l = Some s -> ct_res s <> CPanicked.
Proof.
  intros rec target t0 t1 coh l s HI.
  assert (S0 : ct_res (contStart rec target t0 t1 coh) <> CPanicked).
  { unfold contStart. cbv zeta. cbn [ct_res]. destruct (Z.eqb_spec (rc_interval rec) 0) as [E|E].
    - unfold DefaultRecoveryConfig. destruct (nle (nlit 9 10) target); [discriminate|]. destruct (nle (nlit 7 10) target); [discriminate|].
      destruct (nle (nlit 5 10) target); discriminate.
    - destruct (Z.leb_spec (rc_interval rec) 0); [lia|discriminate]. }
  revert S0. generalize (contStart rec target t0 t1 coh). induction l as [|a l IH]; intros s0 S0 H; cbn [contRun] in H; [injection H as <-; auto|].
  destruct (contStep s0 a) as [s1|] eqn:E; [|discriminate]. apply (IH s1); auto.
  destruct a as [c|[|k] e| | |t1' t2 t3 c]; cbn [contStep] in E.
  - destruct (ct_ctx s0), c; try discriminate; injection E as <-; auto.
  - destruct (mayEnd _ _ _); [|discriminate]. injection E as <-. auto.
  - destruct (nth_error _ _); [|discriminate]. destruct (mayEnd _ _ _); [|discriminate]. injection E as <-. auto.
  - destruct (ct_res s0), (ctxErr (ct_ctx s0)); try discriminate. injection E as <-. discriminate.
  - destruct (ct_res s0); try discriminate. destruct (in_chan (ct_cur s0)); [discriminate|]. injection E as <-. cbn [ct_res]. destruct e; discriminate.
  - destruct (ct_res s0) eqn:R; try discriminate. injection E as <-. unfold tickCont. destruct (tickState _ _ _ _) as [b m].
    destruct (_ && _)%bool; cbn [ct_res]; rewrite R; discriminate.
Qed.
(** A negative check interval (nothing validates it) makes it panic at once. *)
Theorem C29_negative_interval_refuted : forall rec target t0 t1 (coh : T), rc_interval rec < 0 ->
  ct_res (contStart rec target t0 t1 coh) = CPanicked.
Proof.
  intros rec target t0 t1 coh H. unfold contStart. cbv zeta. cbn [ct_res]. destruct (Z.eqb_spec (rc_interval rec) 0); [lia|].
  now destruct (Z.leb_spec (rc_interval rec) 0); [|lia].
Qed.
(** REFUTED: "never stops by itself": a synchronisation that fails (exhausted budget) ends it although the context
    is alive. *)
Theorem C29_never_stops_refuted : forall rec target t0 t1 coh, 0 <= rc_interval rec ->
  exists s, contRun (contStart rec target t0 t1 coh) [AEnd 0 EFailed; ASelSync] = Some s /\ ct_ctx s = CtxLive /\ ct_res s = CReturned EFailed.
Proof.
  intros rec target t0 t1 coh H.
  pose proof (C29_no_panic rec target t0 t1 coh [] _ H eq_refl) as NP.
  cbn [contRun contStep]. unfold contStart in *. cbv zeta in *. cbn [ct_res ct_ctx ct_cur mayEnd in_run andb endInst in_chan] in *.
  destruct (_ <=? 0); [congruence|]. cbn [ct_res ct_ctx ct_cur mayEnd in_run andb endInst in_chan]. eexists. split; [reflexivity|]. split; reflexivity.
Qed.
End C29.

(** The failure that ends it is reachable in the library: a swarm from NewSwarmFromConfig with coherence 1, for which
    every synchronisation fails at once whatever happens. *)
Theorem C29_failing_swarm_refuted : forall tr, exists s, (exists size goal c dr ro fl il,
    @NewSwarmFromConfig F (FNum tr) size goal c dr ro fl il = NewOK s) /\
  (forall now st evs, @startState F (FNum tr) now s = Some st ->
    exists k s', Run tr (@syncConfig F (FNum tr) s) (s_goal s) evs st = (SFail k, 0, s')) /\
  0 <= rc_interval (s_rec s).
Proof.
  intros tr. destruct (C27_budget_from_config_refuted tr) as (size & goal & c & dr & ro & fl & il & s & E & H).
  exists s. split; [exists size, goal, c, dr, ro, fl, il; exact E|]. split.
  - intros now st evs S. destruct (H now st evs S) as [s' R]. eauto.
  - destruct (C19_from_config tr size goal c dr ro fl il) as [_ CF]. apply (CF s) in E. destruct E as (_ & _ & _ & _ & _ & ->). cbn. lia.
Qed.

(** A schedule with a restart: success, a bad measurement 600 ms later, a second synchronisation. *)
Example C29_restart_example tr : exists s, @contRun F (FNum tr)
  (@contStart F (FNum tr) (@DefaultRecoveryConfig F (FNum tr) (flit 9 10)) (flit 9 10) 0 1 (flit 95 100))
  [AEnd 0 ENil; ASelSync; ASelTick 600000000 600000001 600000002 (flit 1 10)] = Some s /\ List.length (ct_old s) = 1%nat /\ running s = 1%nat.
Proof.
  eexists. split; [cbn [contRun contStep contStart]; reflexivity|].
  assert (Q : (List.length (ct_old (@tickCont F (FNum tr)
     (mkCont (@DefaultRecoveryConfig F (FNum tr) (flit 9 10)) (flit 9 10) (mkMS (flit 95 100) (fofZ 0) 0 false 1) CtxLive (mkInst false Empty false 0) [] CRunning)
     600000000 600000001 600000002 (flit 1 10))) =? 1)%nat = true) by (vm_compute; reflexivity).
  split; vm_compute; reflexivity.
Qed.

Print Assumptions C28_stuck_threshold_ignored_refuted.
Print Assumptions C28_large_drop.
Print Assumptions C28_steady.
Print Assumptions C28_steady_run.
Print Assumptions C28_default_ok.
Print Assumptions C28_thresholds_matter.
Print Assumptions C29_at_most_one.
Print Assumptions C29_restarts_apart.
Print Assumptions C29_exit.
Print Assumptions C29_exit_error.
Print Assumptions C29_no_panic.
Print Assumptions C29_never_stops_refuted.
Print Assumptions C29_failing_swarm_refuted.
