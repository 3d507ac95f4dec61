(** Lemmas about M_Strategy. *)
From Coq Require Import ZArith Reals Psatz Bool List String Sorted.
From Flocq Require Import Core.Core IEEE754.BinarySingleNaN.
From Verif Require Import Num GoBase F64 RealNum S_Circle S_Agent M_Core M_Strategy M_Agent
  L_F64 L_PhaseF L_F64x L_State L_Circle L_Pattern L_Agent.
Import ListNotations.
Open Scope R_scope.

(* ---------------------------------------------------------------- moving along the arc *)
Lemma move_arc cur tgt d r : ~ pd_special tgt cur -> 0 <= r <= 1 -> is_arc tgt cur d ->
  is_arc tgt (@WrapPhase R RNum (cur + RPD tgt cur * r)) ((1 - r) * d) /\
  is_arc cur (@WrapPhase R RNum (cur + RPD tgt cur * r)) (r * d).
Proof.
  intros N Hr A. destruct (RPD_spec tgt cur N) as (T & C & A').
  rewrite (is_arc_unique _ _ _ _ A A'). set (t := RPD tgt cur) in *.
  destruct (RWrap_spec (cur + t * r)) as [_ W].
  split.
  - apply is_arc_cong with tgt (cur + t * r); [apply cong_refl|now apply cong_sym|].
    replace ((1 - r) * Rabs t) with (Rabs (t * (1 - r))).
    + apply is_arc_of_rep; [nra|]. destruct C as [k Ck]. exists (- k)%Z. rewrite opp_IZR. lra.
    + rewrite Rabs_mult, (Rabs_right (1 - r)); lra.
  - apply is_arc_sym. apply is_arc_cong with (cur + t * r) cur; [now apply cong_sym|apply cong_refl|].
    replace (r * Rabs t) with (Rabs (t * r)).
    + apply is_arc_of_rep; [nra|]. exists 0%Z. simpl. ring.
    + rewrite Rabs_mult, (Rabs_right r); lra.
Qed.

Lemma special_wrong_way : RPD 0 (3 * PI / 2) = - (PI / 2).
Proof. apply RPD_special1; [rewrite Rabs_R0; lra|]. rewrite Rminus_diag_eq, Rabs_R0 by auto. lra. Qed.

(** In the window the step goes away from the target. *)
Lemma move_arc_window r : 0 < r <= 1 ->
  is_arc 0 (3 * PI / 2) (PI / 2) /\
  is_arc 0 (@WrapPhase R RNum (3 * PI / 2 + RPD 0 (3 * PI / 2) * r)) ((1 + r) * (PI / 2)).
Proof.
  intros Hr. pose proof PI_RGT_0 as HP. split.
  - replace (PI / 2) with (Rabs (PI / 2)) by (apply Rabs_right; lra).
    apply is_arc_of_rep; [lra|]. exists (-1)%Z. simpl. lra.
  - rewrite special_wrong_way.
    destruct (RWrap_spec (3 * PI / 2 + - (PI / 2) * r)) as [_ W].
    apply is_arc_cong with 0 (3 * PI / 2 + - (PI / 2) * r); [apply cong_refl|now apply cong_sym|].
    replace ((1 + r) * (PI / 2)) with (Rabs ((1 + r) * (PI / 2))) by (apply Rabs_right; nra).
    apply is_arc_of_rep; [nra|]. exists (-1)%Z. simpl. lra.
Qed.

(* ---------------------------------------------------------------- adaptive *)
Lemma adaptive_total {T} {N : Num T} {S} (ss : list S) sel cx :
  exists d s, AdaptivePropose ss (Some sel) cx = Some (d, s) /\
    match ss with
    | [] => d = DMaintain (nlit 5 10) /\ s = None
    | s0 :: _ => exists i, d = DStrategy i /\ (i < List.length ss)%nat /\ s = nth_error ss i /\
        (if ((0 <=? sel cx) && (sel cx <? Z.of_nat (List.length ss)))%Z
         then Z.of_nat i = sel cx else i = 0%nat)
    end.
Proof.
  unfold AdaptivePropose. destruct ss as [|s0 r]; [eauto|].
  set (L := Z.of_nat (List.length (s0 :: r))).
  assert (HL : (0 < L)%Z) by (unfold L; simpl; lia).
  set (i := sel cx).
  assert (G : forall j, (0 <= j < L)%Z -> exists s, nthZ (s0 :: r) j = Some s /\ Some s = nth_error (s0 :: r) (Z.to_nat j) /\ (Z.to_nat j < List.length (s0 :: r))%nat).
  { intros j Hj. unfold nthZ. rewrite (proj2 (Z.ltb_ge _ _)) by lia.
    destruct (nth_error (s0 :: r) (Z.to_nat j)) eqn:E.
    - exists s. split; auto. split; auto. unfold L in Hj. lia.
    - apply nth_error_None in E. unfold L in Hj. lia. }
  destruct ((i <? 0)%Z || (L <=? i)%Z) eqn:B.
  - assert (B' : ((0 <=? i) && (i <? L))%Z = false).
    { apply orb_true_iff in B. rewrite Z.ltb_lt, Z.leb_le in B. apply andb_false_iff.
      rewrite Z.leb_gt, Z.ltb_ge. lia. }
    destruct (G 0%Z ltac:(lia)) as (s & E1 & E2 & E3). rewrite E1.
    eexists _, _. split; [reflexivity|]. exists 0%nat. rewrite B'. simpl. repeat split; auto.
  - apply orb_false_iff in B. rewrite Z.ltb_ge, Z.leb_gt in B.
    assert (B' : ((0 <=? i) && (i <? L))%Z = true).
    { apply andb_true_iff. rewrite Z.leb_le, Z.ltb_lt. lia. }
    destruct (G i ltac:(lia)) as (s & E1 & E2 & E3). rewrite E1.
    eexists _, _. split; [reflexivity|]. exists (Z.to_nat i). rewrite B'. repeat split; auto; lia.
Qed.

Lemma default_selector_range {T} {N : Num T} len (cx : Context T) : (0 < len)%Z ->
  (0 <= defaultSelector len cx < len)%Z.
Proof. intros H. unfold defaultSelector. destruct (_ <? _)%num; [lia|]. destruct (_ <? _)%num; lia. Qed.

(* ---------------------------------------------------------------- pulse *)
(** Times at which a history of Propose calls actually pulsed. *)
Section Pulse.
Context {T : Type} {N : Num T}.
Definition call : Type := Z * (State T * State T * Context T).
Fixpoint pulses (p : Pulse T) (l : list call) : list Z :=
  match l with
  | [] => []
  | (now, (cur, tgt, cx)) :: r =>
    let q := PulsePropose p now cur tgt cx in
    (if String.eqb (ac_type (fst (snd q))) "pulse" then [now] else []) ++ pulses (fst q) r
  end.
Inductive spaced (period : Z) : list Z -> Prop :=
| sp0 : spaced period [] | sp1 x : spaced period [x]
| sp2 x y l : (y - x >= period)%Z -> spaced period (y :: l) -> spaced period (x :: y :: l).
Lemma pulses_spaced l : forall p, spaced (pu_period p) (pu_last p :: pulses p l).
Proof.
  induction l as [|[now [[cur tgt] cx]] l IH]; intros p; cbn [pulses]; [constructor|].
  unfold PulsePropose. destruct (Z.ltb_spec (now - pu_last p) (pu_period p)).
  - apply IH.
  - cbn [fst snd ac_type pulses app]. constructor; [lia|]. apply (IH (mkPulse (pu_period p) (pu_amp p) now)).
Qed.
End Pulse.

(* ---------------------------------------------------------------- Decide (floats) *)
Section Dec.
Context (tr : Trig).
Notation sc := (@score F (FNum tr)).
Notation stp := (@decideStep F (FNum tr)).
Notation Act := (Action F).
Definition fminf : F := fneg fmaxfloat.

Lemma decideStep_F b a : stp b a = if flt (snd b) (sc a) then (a, sc a) else b.
Proof. reflexivity. Qed.

Lemma flt_irrefl x : flt x x = false.
Proof. destruct (flt x x) eqn:E; auto. apply flt_true in E. lra. Qed.
Lemma flt_trans x y z : flt x y = true -> flt y z = true -> flt x z = true.
Proof. rewrite !flt_true. intros (A & B & C) (D & E & G). repeat split; auto; lra. Qed.
Lemma flt_fle x y : flt x y = true -> fle y x = false.
Proof. intros H. apply flt_true in H. destruct H as (A & B & C). destruct (fle y x) eqn:E; auto.
  apply fle_true in E. lra. Qed.
Lemma flt_conn x y z : flt x y = true -> flt z y = false -> fisnan z = false -> flt x z = true.
Proof.
  rewrite !flt_true. intros (A & B & C) D E. apply flt_false in D; auto. repeat split; auto; lra.
Qed.
Lemma flt_fle_trans b x a : flt b x = true -> flt b a = false -> fle x a = false.
Proof.
  rewrite flt_true. intros (A & B & C) H2. destruct (fle x a) eqn:E; auto.
  apply fle_true in E. destruct E as (E1 & E2 & E3). apply flt_false in H2; auto. lra.
Qed.

(** The fold keeps (first maximal so far), or the initial pair. *)
Lemma decide_fold (l : list Act) : forall b : Act * F, fisnan (snd b) = false ->
  let r := fold_left stp l b in
  (r = b /\ forall a, In a l -> flt (snd b) (sc a) = false) \/
  (exists l1 c l2, l = l1 ++ c :: l2 /\ r = (c, sc c) /\ flt (snd b) (sc c) = true /\
     (forall a, In a l1 -> fle (sc c) (sc a) = false) /\
     (forall a, In a l2 -> flt (sc c) (sc a) = false)).
Proof.
  induction l as [|x l IH]; intros b Nb; cbv zeta.
  { left. split; [reflexivity|intros a []]. }
  cbn [fold_left]. rewrite decideStep_F. destruct (flt (snd b) (sc x)) eqn:E.
  - destruct (IH (x, sc x)) as [[R H]|(l1 & c & l2 & R1 & R2 & R3 & R4 & R5)].
    { cbn. apply flt_true in E. tauto. }
    + right. exists [], x, l. cbn [snd] in H. repeat split; auto. intros a [].
    + cbn [snd] in *. right. exists (x :: l1), c, l2. subst l. repeat split; auto.
      * eapply flt_trans; eauto.
      * intros a [<-|Ha]; [now apply flt_fle|auto].
  - destruct (IH b Nb) as [[R H]|(l1 & c & l2 & R1 & R2 & R3 & R4 & R5)].
    + left. split; auto. intros a [<-|Ha]; auto.
    + right. exists (x :: l1), c, l2. subst l. repeat split; auto.
      intros a [<-|Ha]; auto. eapply flt_fle_trans; eauto.
Qed.

Lemma fminf_nan : fisnan fminf = false. Proof. vm_compute. reflexivity. Qed.

Lemma Decide_F s opts : @Decide F (FNum tr) s opts =
  match opts with
  | [] => (@maintain F (FNum tr), st_coh s)
  | a0 :: _ => let best := fold_left stp opts (a0, fminf) in
               (fst best, fmin (fmax (fdiv (snd best) (fofZ 2)) (fofZ 0)) (fofZ 1))
  end.
Proof. reflexivity. Qed.

Lemma fdiv_nonnan x : fisnan x = false -> fisnan (fdiv x (fofZ 2)) = false.
Proof.
  intros H. destruct (not_nan_cases x H) as [A|[s ->]].
  - destruct (fofZ_fin 2 ltac:(lia)) as [B C]. apply fdiv_ord; auto. rewrite C. lra.
  - vm_compute. now destruct s.
Qed.
Lemma clampF_unit y : fisnan y = false -> in_unit (fmin (fmax y (fofZ 0)) (fofZ 1)).
Proof.
  intros N. destruct (fmax_cases y (fofZ 0) N (fofZ_nan 0)) as [A B].
  destruct (fmin_cases _ (fofZ 1) A (fofZ_nan 1)) as [C D].
  rewrite B, f0_ord, f1_ord in D.
  assert (0 <= Rmin (Rmax (ford y) 0) 1 <= 1).
  { split; [apply Rmin_glb; [apply Rmax_r|lra]|apply Rmin_r]. }
  pose proof BIG_ge_1000.
  assert (Fi : is_finite (fmin (fmax y (fofZ 0)) (fofZ 1)) = true) by (apply ford_fin_inv; auto; lra).
  split; auto. rewrite ford_fin in D by auto. rewrite D. lra.
Qed.

Lemma best_nonnan (a0 : Act) l : fisnan (snd (fold_left stp l (a0, fminf))) = false.
Proof.
  destruct (decide_fold l (a0, fminf) fminf_nan) as [[R _]|(l1 & c & l2 & _ & R & E & _)]; rewrite R.
  - apply fminf_nan.
  - cbn. apply flt_true in E. tauto.
Qed.

Lemma decide_confidence s (opts : list Act) : opts <> [] -> in_unit (snd (@Decide F (FNum tr) s opts)).
Proof.
  intros H. rewrite Decide_F. destruct opts as [|a0 r]; [easy|]. cbv zeta. cbn [snd].
  apply clampF_unit, fdiv_nonnan, best_nonnan.
Qed.

Lemma decide_best s (opts : list Act) : opts <> [] ->
  let c := fst (@Decide F (FNum tr) s opts) in
  (hd_error opts = Some c /\ forall a, In a opts -> flt fminf (sc a) = false) \/
  (exists l1 l2, opts = l1 ++ c :: l2 /\ flt fminf (sc c) = true /\
     (forall a, In a l1 -> fle (sc c) (sc a) = false) /\
     (forall a, In a l2 -> flt (sc c) (sc a) = false)).
Proof.
  intros H. cbv zeta. rewrite Decide_F. destruct opts as [|a0 r]; [easy|]. cbv zeta. cbn [fst].
  destruct (decide_fold (a0 :: r) (a0, fminf) fminf_nan) as [[R E]|(l1 & c & l2 & R1 & R & E & E1 & E2)]; rewrite R.
  - left. split; auto.
  - right. exists l1, l2. cbn [fst]. auto.
Qed.
End Dec.

(* ---------------------------------------------------------------- Blend (reals) *)
Lemma Rclamp w : 0 <= w <= 1 -> (if Rlt_bool w 0 then 0 else if Rlt_bool 1 w then 1 else w) = w.
Proof.
  intros H. rewrite Rlt_bool_false by lra. now rewrite Rlt_bool_false by lra.
Qed.
Definition Rclampw (w : R) : R := Rmax 0 (Rmin 1 w).
Lemma Rclampw_eq w : (if Rlt_bool w 0 then 0 else if Rlt_bool 1 w then 1 else w) = Rclampw w.
Proof.
  unfold Rclampw. destruct (Rlt_bool_spec w 0).
  - rewrite Rmin_right, Rmax_left; lra.
  - destruct (Rlt_bool_spec 1 w).
    + rewrite Rmin_left, Rmax_right; lra.
    + rewrite Rmin_right, Rmax_right; lra.
Qed.
Lemma Blend_unfold l g w : @Blend R RNum l g w =
  mkState (@WrapPhase R RNum (st_phase l + RPD (st_phase g) (st_phase l) * Rclampw w)) (st_freq l)
    (st_coh l * (1 - Rclampw w) + st_coh g * Rclampw w).
Proof. rewrite <- Rclampw_eq. reflexivity. Qed.
Lemma Rclampw_range w : 0 <= Rclampw w <= 1.
Proof. unfold Rclampw. split; [apply Rmax_l|apply Rmax_lub; [lra|apply Rmin_l]]. Qed.
Lemma Rclampw_id w : 0 <= w <= 1 -> Rclampw w = w.
Proof. intros H. unfold Rclampw. rewrite Rmin_right, Rmax_right; lra. Qed.
