(** Float-level facts about State normalisation (emerge/core/state.go). *)
From Coq Require Import ZArith Reals Psatz Bool List.
From Flocq Require Import Core.Core IEEE754.BinarySingleNaN.
From Verif Require Import Num F64 L_F64 L_PhaseF M_Core.
Import ListNotations.
Open Scope R_scope.

Definition P56 : R := bpow radix2 56.

Lemma P56_val : P56 = IZR (2 ^ 56). Proof. reflexivity. Qed.
Lemma fmt_P56 : fmt P56.
Proof. apply generic_format_bpow. unfold SpecFloat.fexp, SpecFloat.emin. lia. Qed.

(** Below 2^56 in magnitude, rounding errs by at most 4. *)
Lemma rnd_err56 v : Rabs v < P56 -> Rabs (rnd v - v) <= 4.
Proof.
  intros Hv. unfold rnd.
  destruct (Req_dec v 0) as [->|Nz].
  { rewrite round_0 by auto with typeclass_instances. rewrite Rminus_0_r, Rabs_R0. lra. }
  eapply Rle_trans; [apply error_le_half_ulp; auto with typeclass_instances|].
  rewrite ulp_neq_0 by auto. unfold cexp.
  assert (M : (mag radix2 v <= 56)%Z) by (apply mag_le_bpow; auto).
  apply Rle_trans with (/ 2 * bpow radix2 3); [|simpl; lra].
  apply Rmult_le_compat_l; [lra|]. apply bpow_le. unfold SpecFloat.fexp, SpecFloat.emin. lia.
Qed.

(** Above 2^56 the subtraction of 2π is absorbed. *)
Lemma rnd_absorb x : fmt x -> P56 < x -> rnd (x - r2pi) = x.
Proof.
  intros Fx Hx. pose proof r2pi_bounds as Hp.
  assert (HP : 0 < P56) by apply bpow_gt_0.
  destruct (Req_dec (rnd (x - r2pi)) x) as [E|NE]; auto. exfalso.
  assert (L1 : rnd (x - r2pi) <= x) by (apply rnd_le_fmt; [auto|lra]).
  assert (L2 : rnd (x - r2pi) <= pred radix2 fexp64 x).
  { apply pred_ge_gt; auto with typeclass_instances; [apply fmt_rnd|lra]. }
  assert (L3 : P56 <= pred radix2 fexp64 x).
  { apply pred_ge_gt; auto with typeclass_instances. apply fmt_P56. }
  assert (U : 16 <= ulp radix2 fexp64 (pred radix2 fexp64 x)).
  { apply Rle_trans with (ulp radix2 fexp64 P56).
    - unfold P56. rewrite ulp_bpow. unfold SpecFloat.fexp, SpecFloat.emin. simpl. lra.
    - apply ulp_le_pos; auto with typeclass_instances; lra. }
  pose proof (pred_plus_ulp radix2 fexp64 x ltac:(lra) Fx) as E1.
  destruct (round_N_pt radix2 fexp64 (fun z => negb (Z.even z)) (x - r2pi)) as [_ Near].
  specialize (Near x Fx). fold (rnd (x - r2pi)) in Near.
  rewrite (Rabs_right (x - (x - r2pi))) in Near by lra.
  rewrite Rabs_left1 in Near by lra. lra.
Qed.

Section S.
Context (tr : Trig).
Notation nup := (@normUp F (FNum tr)).
Notation ndown := (@normDown F (FNum tr)).
Notation norm := (@normalize F (FNum tr)).
Notation nav := (@NormalizeAndValidate F (FNum tr)).
Notation valid := (@Validate F (FNum tr)).

Lemma f0_ord : ford (fofZ 0) = 0. Proof. reflexivity. Qed.
Lemma f1_ord : ford (fofZ 1) = 1. Proof. rewrite ford_fofZ by lia. reflexivity. Qed.

Lemma neg_test x : is_finite x = true -> flt x (fofZ 0) = true -> B2R x < 0.
Proof. intros H E. apply flt_true in E. rewrite f0_ord, ford_fin in E by auto. lra. Qed.
Lemma neg_test_false x : is_finite x = true -> flt x (fofZ 0) = false -> 0 <= B2R x.
Proof.
  intros H E. apply flt_false in E; auto using fin_nan. rewrite f0_ord, ford_fin in E by auto. lra.
Qed.
Lemma big_test x : is_finite x = true -> fle f2pi x = true -> r2pi <= B2R x.
Proof.
  intros H E. apply fle_true in E. rewrite !ford_fin in E by auto using f2pi_fin.
  rewrite f2pi_val in E. lra.
Qed.
Lemma big_test_false x : is_finite x = true -> fle f2pi x = false -> B2R x < r2pi.
Proof.
  intros H E. apply fle_false in E; auto using fin_nan, f2pi_fin.
  rewrite !ford_fin in E by auto using f2pi_fin. rewrite f2pi_val in E. lra.
Qed.
Lemma big_test_conv x : is_finite x = true -> r2pi <= B2R x -> fle f2pi x = true.
Proof.
  intros H E. apply fle_true. rewrite !ford_fin by auto using f2pi_fin.
  rewrite f2pi_val. auto using fin_nan, f2pi_fin.
Qed.
Lemma neg_test_conv x : is_finite x = true -> B2R x < 0 -> flt x (fofZ 0) = true.
Proof. intros H E. apply flt_true. rewrite f0_ord, ford_fin by auto. auto using fin_nan. Qed.

Lemma P56_lt_1023 : P56 + 10 <= bpow radix2 1023.
Proof.
  apply Rle_trans with (bpow radix2 57); [unfold P56; simpl; lra|apply bpow_le; lia].
Qed.

Lemma step_down x : is_finite x = true -> r2pi <= B2R x ->
  is_finite (fsub x f2pi) = true /\ 0 <= B2R (fsub x f2pi) /\
  B2R (fsub x f2pi) = rnd (B2R x - r2pi).
Proof.
  intros H E. pose proof r2pi_bounds as Hp.
  destruct (fsub_ord x f2pi H f2pi_fin) as [N O]. rewrite f2pi_val in O.
  assert (B : 0 <= rnd (B2R x - r2pi) <= B2R x).
  { split; [apply rnd_ge_0; lra|apply rnd_le_fmt; [apply fmt_B2R|lra]]. }
  pose proof (B2R_lt_BIG x). pose proof BIG_pos.
  rewrite sat_id in O by lra.
  assert (Fi : is_finite (fsub x f2pi) = true) by (apply ford_fin_inv; auto; lra).
  rewrite ford_fin in O by auto. repeat split; auto; lra.
Qed.
Lemma step_up x : is_finite x = true -> B2R x < 0 ->
  is_finite (fadd x f2pi) = true /\ B2R (fadd x f2pi) <= r2pi /\
  B2R (fadd x f2pi) = rnd (B2R x + r2pi).
Proof.
  intros H E. pose proof r2pi_bounds as Hp.
  destruct (fadd_ord x f2pi H f2pi_fin) as [N O]. rewrite f2pi_val in O.
  assert (Fp : fmt r2pi) by (rewrite <- f2pi_val; apply fmt_B2R).
  assert (B : B2R x <= rnd (B2R x + r2pi) <= r2pi).
  { split; [apply rnd_ge_fmt; [apply fmt_B2R|lra]|apply rnd_le_fmt; [auto|lra]]. }
  pose proof (B2R_lt_BIG x). pose proof BIG_pos.
  assert (r2pi < BIG) by (apply Rlt_le_trans with (bpow radix2 10); [simpl; lra|apply bpow_le; lia]).
  rewrite sat_id in O by lra.
  assert (Fi : is_finite (fadd x f2pi) = true) by (apply ford_fin_inv; auto; lra).
  rewrite ford_fin in O by auto. repeat split; auto; lra.
Qed.

Lemma ndown_unfold k x : ndown k x =
  (if fle f2pi x then match k with O => None | S k' => ndown k' (fsub x f2pi) end else Some x).
Proof. destruct k; reflexivity. Qed.
Lemma nup_unfold k x : nup k x =
  (if flt x (fofZ 0) then match k with O => None | S k' => nup k' (fadd x f2pi) end else Some x).
Proof. destruct k; reflexivity. Qed.

(** Results of the loops, when they finish. *)
Lemma ndown_result k x y : is_finite x = true -> 0 <= B2R x -> ndown k x = Some y ->
  is_finite y = true /\ 0 <= B2R y < r2pi.
Proof.
  revert x; induction k as [|k IH]; intros x H H0 E; rewrite ndown_unfold in E;
  destruct (fle f2pi x) eqn:C; try discriminate.
  - injection E as <-. apply big_test_false in C; auto.
  - destruct (step_down x H (big_test x H C)) as (A & B & _). eapply IH; eauto.
  - injection E as <-. apply big_test_false in C; auto.
Qed.
Lemma nup_result k x y : is_finite x = true -> nup k x = Some y ->
  is_finite y = true /\ 0 <= B2R y.
Proof.
  revert x; induction k as [|k IH]; intros x H E; rewrite nup_unfold in E;
  destruct (flt x (fofZ 0)) eqn:C; try discriminate.
  - injection E as <-. apply neg_test_false in C; auto.
  - destruct (step_up x H (neg_test x H C)) as (A & _). eapply IH; eauto.
  - injection E as <-. apply neg_test_false in C; auto.
Qed.
(** Termination up to 2^56. *)
Lemma ndown_term k x : is_finite x = true -> 0 <= B2R x <= P56 -> B2R x <= 2 * INR k ->
  exists y, ndown k x = Some y.
Proof.
  pose proof r2pi_bounds as Hp.
  revert x; induction k as [|k IH]; intros x H H0 E; rewrite ndown_unfold;
  destruct (fle f2pi x) eqn:C; eauto.
  - apply big_test in C; auto. simpl in E. lra.
  - apply big_test in C; auto. destruct (step_down x H C) as (A & B & D).
    assert (Er : Rabs (rnd (B2R x - r2pi) - (B2R x - r2pi)) <= 4).
    { apply rnd_err56. apply Rabs_def1; lra. }
    apply Rabs_le_inv in Er. rewrite S_INR in E.
    apply IH; auto; rewrite D; [split; [rewrite <- D; auto|]|]; lra.
Qed.
Lemma nup_term k x : is_finite x = true -> - P56 <= B2R x -> - B2R x <= 2 * INR k ->
  exists y, nup k x = Some y /\ (B2R x <= P56 -> B2R y <= P56).
Proof.
  pose proof r2pi_bounds as Hp.
  assert (HP : 16 <= P56) by (rewrite P56_val; apply IZR_le; lia).
  revert x; induction k as [|k IH]; intros x H H0 E; rewrite nup_unfold;
  destruct (flt x (fofZ 0)) eqn:C; eauto.
  - apply neg_test in C; auto. simpl in E. lra.
  - apply neg_test in C; auto. destruct (step_up x H C) as (A & B & D).
    assert (Er : Rabs (rnd (B2R x + r2pi) - (B2R x + r2pi)) <= 4).
    { apply rnd_err56. apply Rabs_def1; lra. }
    apply Rabs_le_inv in Er. rewrite S_INR in E.
    destruct (IH (fadd x f2pi)) as (y & Y1 & Y2); auto; try (rewrite D; lra).
    exists y. split; auto. intros _. apply Y2. lra.
Qed.
(** Divergence beyond 2^56. *)
Lemma ndown_div k x : is_finite x = true -> P56 < B2R x -> ndown k x = None.
Proof.
  pose proof r2pi_bounds as Hp.
  assert (HP : 16 <= P56) by (rewrite P56_val; apply IZR_le; lia).
  intros H0 H1. revert x H0 H1; induction k as [|k IH]; intros x H E; rewrite ndown_unfold;
  rewrite (big_test_conv x H ltac:(lra)); auto.
  destruct (step_down x H ltac:(lra)) as (A & B & D).
  apply IH; auto. rewrite D, rnd_absorb; auto using fmt_B2R.
Qed.
Lemma nup_div k x : is_finite x = true -> B2R x < - P56 -> nup k x = None.
Proof.
  pose proof r2pi_bounds as Hp.
  assert (HP : 16 <= P56) by (rewrite P56_val; apply IZR_le; lia).
  intros H0 H1. revert x H0 H1; induction k as [|k IH]; intros x H E; rewrite nup_unfold;
  rewrite (neg_test_conv x H ltac:(lra)); auto.
  destruct (step_up x H ltac:(lra)) as (A & B & D).
  apply IH; auto. rewrite D.
  replace (B2R x + r2pi) with (- (- B2R x - r2pi)) by ring.
  rewrite rnd_opp, rnd_absorb; [lra| |lra]. apply fmt_opp, fmt_B2R.
Qed.

Lemma fin_cases (x : F) : negb (fisnan x) && negb (fisinf x) = is_finite x.
Proof. destruct x; reflexivity. Qed.

Definition norm_coh (c : F) : F :=
  if fisnan c then c else if flt c (fofZ 0) then fofZ 0 else if flt (fofZ 1) c then fofZ 1 else c.

Lemma norm_unfold k s : norm k s =
  match (if is_finite (st_phase s) then
           match nup k (st_phase s) with Some x => ndown k x | None => None end
         else Some (st_phase s)) with
  | None => None
  | Some p => Some (mkState p (if (st_freq s <=? 0)%Z then defaultFreq else st_freq s) (norm_coh (st_coh s)))
  end.
Proof. unfold normalize. simpl nisnan. simpl nisinf. rewrite fin_cases. reflexivity. Qed.

Lemma nav_none k s : nav k s = None <-> norm k s = None.
Proof.
  unfold NormalizeAndValidate. split; intros H.
  - destruct (norm k s); auto. destruct (valid s); discriminate.
  - now rewrite H.
Qed.

Lemma INR_above (x : R) : exists k, x < INR k.
Proof.
  exists (Z.to_nat (up x)). destruct (archimed x) as [H _].
  destruct (Z_le_gt_dec 0 (up x)) as [L|L].
  - rewrite INR_IZR_INZ, Z2Nat.id; auto.
  - apply Rlt_le_trans with (IZR (up x)); auto. apply Rle_trans with 0; [apply IZR_le; lia|apply pos_INR].
Qed.

Lemma nav_terminates s :
  (exists k, nav k s <> None) <->
  (is_finite (st_phase s) = false \/ Rabs (B2R (st_phase s)) <= P56).
Proof.
  split.
  - intros [k H]. destruct (is_finite (st_phase s)) eqn:Fi; [|auto]. right.
    apply Rnot_lt_le. intros L. apply H. apply nav_none. rewrite norm_unfold, Fi.
    destruct (Rle_or_lt 0 (B2R (st_phase s))) as [Hp|Hn].
    + rewrite Rabs_right in L by lra. rewrite nup_unfold.
      destruct (flt (st_phase s) (fofZ 0)) eqn:C.
      * apply neg_test in C; auto. lra.
      * rewrite ndown_div; auto.
    + rewrite Rabs_left in L by lra. rewrite nup_div; auto. lra.
  - intros H. destruct (INR_above P56) as [K HK]. exists K. rewrite nav_none, norm_unfold.
    destruct (is_finite (st_phase s)) eqn:Fi; [|discriminate].
    destruct H as [H|H]; [discriminate|]. apply Rabs_le_inv in H.
    assert (HP : 0 < P56) by apply bpow_gt_0.
    destruct (nup_term K (st_phase s)) as (y & Y1 & Y2); auto; try lra.
    rewrite Y1. destruct (nup_result _ _ _ Fi Y1) as [F1 F2].
    assert (Y3 : B2R y <= P56) by (apply Y2; lra).
    destruct (ndown_term K y) as (z & Z1); auto; try lra.
    rewrite Z1. discriminate.
Qed.

Definition phase_ok (x : F) : Prop := is_finite x = true /\ 0 <= B2R x < r2pi.
Definition unit_ok (x : F) : Prop := is_finite x = true /\ 0 <= B2R x <= 1.

Lemma validateErrors_F (s : State F) : @validateErrors F (FNum tr) s =
  (if (st_freq s <=? 0)%Z then [FldFrequency] else []) ++
  (if fisnan (st_coh s) then [FldCoherence]
   else if flt (st_coh s) (fofZ 0) || flt (fofZ 1) (st_coh s) then [FldCoherence] else []) ++
  (if fisnan (st_phase s) then [FldPhase] else []) ++
  (if fisinf (st_phase s) then [FldPhase] else []).
Proof. reflexivity. Qed.

Lemma valid_iff s : valid s = true <->
  (0 < st_freq s)%Z /\ unit_ok (st_coh s) /\ is_finite (st_phase s) = true.
Proof.
  unfold Validate. rewrite validateErrors_F. unfold unit_ok. split.
  - destruct (st_freq s <=? 0)%Z eqn:Ef; [intros HH; discriminate HH|].
    destruct (fisnan (st_coh s)) eqn:Ec; [cbn [app]; intros HH; discriminate HH|].
    destruct (flt (st_coh s) (fofZ 0) || flt (fofZ 1) (st_coh s)) eqn:Eb; [cbn [app]; intros HH; discriminate HH|].
    destruct (fisnan (st_phase s)) eqn:Ep; [cbn [app]; intros HH; discriminate HH|].
    destruct (fisinf (st_phase s)) eqn:Ei; [cbn [app]; intros HH; discriminate HH|]. intros _.
    apply orb_false_elim in Eb. destruct Eb as [E1 E2].
    apply flt_false in E1; auto using fofZ_nan. apply flt_false in E2; auto using fofZ_nan.
    rewrite f0_ord in E1. rewrite f1_ord in E2.
    assert (Hb : 2 <= BIG).
    { apply Rle_trans with (bpow radix2 1); [simpl; lra|apply bpow_le; lia]. }
    assert (Fc : is_finite (st_coh s) = true) by (apply ford_fin_inv; auto; lra).
    rewrite ford_fin in E1, E2 by auto. repeat split; auto; try lia.
    destruct (st_phase s); auto; discriminate.
  - intros (H1 & (H2 & H3) & H4).
    rewrite (proj2 (Z.leb_gt _ _)) by lia. rewrite (fin_nan _ H2), (fin_nan _ H4).
    assert (fisinf (st_phase s) = false) as -> by (destruct (st_phase s); auto; discriminate).
    assert (flt (st_coh s) (fofZ 0) = false) as ->.
    { rewrite flt_ord, Rlt_bool_false; auto using fin_nan, fofZ_nan. rewrite f0_ord, ford_fin; auto; lra. }
    assert (flt (fofZ 1) (st_coh s) = false) as ->.
    { rewrite flt_ord, Rlt_bool_false; auto using fin_nan, fofZ_nan. rewrite f1_ord, ford_fin; auto; lra. }
    reflexivity.
Qed.

Lemma norm_coh_ok c : fisnan c = false -> unit_ok (norm_coh c).
Proof.
  intros N. unfold norm_coh. rewrite N.
  destruct (flt c (fofZ 0)) eqn:E1.
  { destruct (fofZ_fin 0 ltac:(lia)) as [A B]. split; [exact A|rewrite B; lra]. }
  destruct (flt (fofZ 1) c) eqn:E2.
  { destruct (fofZ_fin 1 ltac:(lia)) as [A B]. split; [exact A|rewrite B; lra]. }
  apply flt_false in E1; auto using fofZ_nan. apply flt_false in E2; auto using fofZ_nan.
  rewrite f0_ord in E1. rewrite f1_ord in E2.
  assert (Hb : 2 <= BIG).
  { apply Rle_trans with (bpow radix2 1); [simpl; lra|apply bpow_le; lia]. }
  assert (Fc : is_finite c = true) by (apply ford_fin_inv; auto; lra).
  rewrite ford_fin in E1, E2 by auto. split; auto; lra.
Qed.
Lemma norm_coh_id c : unit_ok c -> norm_coh c = c.
Proof.
  intros [A B]. unfold norm_coh. rewrite (fin_nan _ A).
  assert (flt c (fofZ 0) = false) as ->.
  { rewrite flt_ord, Rlt_bool_false; auto using fin_nan, fofZ_nan. rewrite f0_ord, ford_fin; auto; lra. }
  assert (flt (fofZ 1) c = false) as ->.
  { rewrite flt_ord, Rlt_bool_false; auto using fin_nan, fofZ_nan. rewrite f1_ord, ford_fin; auto; lra. }
  reflexivity.
Qed.

Lemma norm_phase k s s' : norm k s = Some s' ->
  (is_finite (st_phase s) = true -> phase_ok (st_phase s')) /\
  (is_finite (st_phase s) = false -> st_phase s' = st_phase s) /\
  (0 < st_freq s')%Z /\ st_coh s' = norm_coh (st_coh s).
Proof.
  rewrite norm_unfold. intros H.
  destruct (is_finite (st_phase s)) eqn:Fi.
  - destruct (nup k (st_phase s)) as [x|] eqn:U; [|discriminate].
    destruct (ndown k x) as [y|] eqn:D; [|discriminate]. injection H as <-. cbn [st_phase st_freq st_coh].
    destruct (nup_result _ _ _ Fi U) as [F1 F2].
    pose proof (ndown_result _ _ _ F1 F2 D).
    repeat split; intros; try discriminate; try (unfold phase_ok; tauto).
    destruct (st_freq s <=? 0)%Z eqn:E; [unfold defaultFreq; lia|lia].
  - injection H as <-. cbn [st_phase st_freq st_coh].
    repeat split; intros; try discriminate; auto.
    destruct (st_freq s <=? 0)%Z eqn:E; [unfold defaultFreq; lia|lia].
Qed.

Lemma nav_ok k s s' : nav k s = Some (s', true) ->
  phase_ok (st_phase s') /\ unit_ok (st_coh s') /\ (0 < st_freq s')%Z /\ valid s' = true.
Proof.
  unfold NormalizeAndValidate. destruct (norm k s) as [s1|] eqn:E; [|discriminate].
  pose proof (norm_phase _ _ _ E) as (P1 & P2 & P3 & P4).
  assert (G : is_finite (st_phase s) = true -> fisnan (st_coh s) = false ->
     phase_ok (st_phase s1) /\ unit_ok (st_coh s1) /\ (0 < st_freq s1)%Z /\ valid s1 = true).
  { intros A B. pose proof (P1 A) as P. pose proof (norm_coh_ok _ B) as Q. rewrite <- P4 in Q.
    repeat split; try apply P; try apply Q; auto. apply valid_iff. repeat split; auto; try apply Q. apply P. }
  destruct (valid s) eqn:V.
  - intros H. injection H as <-. apply valid_iff in V. apply G; [tauto|]. apply fin_nan. apply V.
  - intros H. injection H as <- V'. pose proof V' as V2. apply valid_iff in V2. destruct V2 as (V3 & V4 & V5).
    apply G.
    + destruct (is_finite (st_phase s)) eqn:Fi; auto. rewrite P2 in V5 by auto. congruence.
    + destruct (fisnan (st_coh s)) eqn:Nn; auto.
      rewrite P4 in V4. unfold norm_coh in V4. rewrite Nn in V4. destruct V4 as [V4 _].
      rewrite (fin_nan _ V4) in Nn. discriminate.
Qed.

(** The error verdict, when the call returns: exactly for a NaN/Inf phase or a NaN coherence. *)
Lemma nav_error_iff k s s' ok : nav k s = Some (s', ok) ->
  (ok = false <-> is_finite (st_phase s) = false \/ fisnan (st_coh s) = true).
Proof.
  unfold NormalizeAndValidate. destruct (norm k s) as [s1|] eqn:E; [|discriminate].
  pose proof (norm_phase _ _ _ E) as (P1 & P2 & P3 & P4).
  destruct (valid s) eqn:V.
  - intros H. injection H as <- <-. split; [discriminate|].
    apply valid_iff in V. destruct V as (V1 & [V2 _] & V3). intros [A|A]; [congruence|].
    rewrite (fin_nan _ V2) in A. discriminate.
  - intros H. injection H as <- <-. split.
    + intros V'. destruct (is_finite (st_phase s)) eqn:Fi; auto.
      destruct (fisnan (st_coh s)) eqn:Nn; auto. exfalso.
      assert (valid s1 = true); [|congruence]. apply valid_iff.
      pose proof (norm_coh_ok _ Nn) as Q. rewrite <- P4 in Q. repeat split; auto; try apply Q.
      now apply P1.
    + intros H. destruct (valid s1) eqn:V'; auto. apply valid_iff in V'.
      destruct V' as (V1 & [V2 _] & V3). destruct H as [H|H].
      * rewrite P2 in V3 by auto. congruence.
      * rewrite P4 in V2. unfold norm_coh in V2. rewrite H in V2. rewrite (fin_nan _ V2) in H. discriminate.
Qed.

(** In-range states are untouched. *)
Lemma nav_id k s : phase_ok (st_phase s) -> unit_ok (st_coh s) -> (0 < st_freq s)%Z ->
  nav k s = Some (s, true).
Proof.
  intros [A B] C D. unfold NormalizeAndValidate. rewrite norm_unfold, A.
  rewrite nup_unfold.
  destruct (flt (st_phase s) (fofZ 0)) eqn:E1; [apply neg_test in E1; auto; lra|].
  rewrite ndown_unfold.
  destruct (fle f2pi (st_phase s)) eqn:E2; [apply big_test in E2; auto; lra|].
  assert (V : valid s = true) by (apply valid_iff; auto). rewrite V.
  rewrite norm_coh_id by auto. rewrite (proj2 (Z.leb_gt _ _)) by lia.
  destruct s; reflexivity.
Qed.
End S.
