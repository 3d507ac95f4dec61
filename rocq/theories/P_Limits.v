(** Property theorems C24 (coherence limits).  All statements are about float64 values and Go's
    own comparisons: [fle x y = true] is [x <= y], so NaN never satisfies it. *)
From Coq Require Import ZArith Reals Psatz Bool List String Lia.
From Flocq Require Import Core.Core IEEE754.BinarySingleNaN.
From Verif Require Import Num F64 M_Limits L_F64 L_F64x L_Ford.
Import ListNotations.
Open Scope Z_scope.

Section L.
Variable tr : Trig.
Local Notation lim := (@GetCoherenceLimits F (FNum tr)).

(** Case split over the table rows. *)
Ltac rows n :=
  unfold GetCoherenceLimits;
  repeat match goal with
  | |- context [if ?b then _ else _] =>
      match b with context [n] => let E := fresh "E" in destruct b eqn:E end
  end;
  repeat match goal with
  | H : (_ <=? _)%Z = true |- _ => apply Z.leb_le in H
  | H : (_ <=? _)%Z = false |- _ => apply Z.leb_gt in H
  | H : (_ <? _)%Z = true |- _ => apply Z.ltb_lt in H
  | H : (_ <? _)%Z = false |- _ => apply Z.ltb_ge in H
  | H : (_ =? _)%Z = true |- _ => apply Z.eqb_eq in H
  | H : (_ =? _)%Z = false |- _ => apply Z.eqb_neq in H
  end.

Lemma lim_fin n : is_finite (lim_theo (lim n)) = true /\ is_finite (lim_prac (lim n)) = true /\
  is_finite (lim_rec (lim n)) = true.
Proof. rows n; cbn [lim_theo lim_prac lim_rec]; repeat split; vm_compute; reflexivity. Qed.
Lemma prac_nan n : fisnan (lim_prac (lim n)) = false.
Proof. apply fin_nan, lim_fin. Qed.
Lemma theo_nan n : fisnan (lim_theo (lim n)) = false.
Proof. apply fin_nan, lim_fin. Qed.

(** 0 < recommended <= practical <= theoretical <= 1 for every positive size. *)
Theorem C24_limits_ordered : forall n, 0 < n ->
  flt (fofZ 0) (lim_rec (lim n)) = true /\
  fle (lim_rec (lim n)) (lim_prac (lim n)) = true /\
  fle (lim_prac (lim n)) (lim_theo (lim n)) = true /\
  fle (lim_theo (lim n)) (fofZ 1) = true.
Proof.
  intros n Hn. rows n; try lia; cbn [lim_theo lim_prac lim_rec];
    repeat split; vm_compute; reflexivity.
Qed.

(** From 2 agents on no limit decreases with size. *)
Theorem C24_limits_monotone : forall m n, 2 <= m <= n ->
  fle (lim_theo (lim m)) (lim_theo (lim n)) = true /\
  fle (lim_prac (lim m)) (lim_prac (lim n)) = true /\
  fle (lim_rec (lim m)) (lim_rec (lim n)) = true.
Proof.
  intros m n H. rows m; try lia; rows n; try lia; cbn [lim_theo lim_prac lim_rec];
    repeat split; vm_compute; reflexivity.
Qed.

(** One agent can do better than two: monotonicity does not extend to size 1; sizes <= 0 have
    limit 0. *)
Theorem C24_limits_edges :
  flt (lim_rec (lim 2)) (lim_rec (lim 1)) = true /\
  (forall n, n <= 0 -> feq (lim_theo (lim n)) (fofZ 0) = true).
Proof.
  split; [vm_compute; reflexivity|]. intros n Hn. unfold GetCoherenceLimits.
  rewrite (proj2 (Z.leb_le n 0)) by lia. reflexivity.
Qed.

Local Notation vct n t := (fst (@ValidateCoherenceTarget F (FNum tr) n t)).
Local Notation warn n t := (snd (@ValidateCoherenceTarget F (FNum tr) n t)).

Lemma vct_cases n t : vct n t = if flt (lim_theo (lim n)) t then lim_theo (lim n) else t.
Proof.
  unfold ValidateCoherenceTarget. cbn [nlt FNum].
  destruct (flt (lim_theo (lim n)) t); auto. destruct (flt (lim_prac (lim n)) t); auto.
  destruct (flt (lim_rec (lim n)) t); auto.
Qed.

(** ValidateCoherenceTarget: never raises the target, never exceeds the theoretical limit,
    leaves an attainable target alone (every size, every non-NaN target). *)
Theorem C24_validate_target : forall n t, fisnan t = false ->
  fle (vct n t) t = true /\ fle (vct n t) (lim_theo (lim n)) = true /\
  (fle t (lim_theo (lim n)) = true -> vct n t = t).
Proof.
  intros n t Ht. rewrite vct_cases. destruct (flt (lim_theo (lim n)) t) eqn:E; split; [|split| |split].
  - now apply flt_le.
  - apply fle_refl, theo_nan.
  - intros H. apply fle_not_lt in H. congruence.
  - now apply fle_refl.
  - apply not_lt_fle; auto. apply theo_nan.
  - reflexivity.
Qed.

(** It is idempotent for every target, NaN and infinities included. *)
Theorem C24_validate_idempotent : forall n t, vct n (vct n t) = vct n t.
Proof.
  intros n t. rewrite !vct_cases. destruct (flt (lim_theo (lim n)) t) eqn:E; [|now rewrite E].
  now rewrite flt_irr.
Qed.

(** For positive sizes, no warning exactly when the target is at most the recommended limit,
    and the strongest warning exactly when the target was changed. *)
Theorem C24_validate_warning : forall n t, 0 < n -> fisnan t = false ->
  (warn n t = ""%string <-> fle t (lim_rec (lim n)) = true) /\
  (warn n t = "Target coherence exceeds theoretical maximum for this swarm size"%string <->
     flt (lim_theo (lim n)) t = true) /\
  (warn n t = "Target coherence may not be achievable in reasonable time"%string <->
     flt (lim_prac (lim n)) t = true /\ fle t (lim_theo (lim n)) = true).
Proof.
  intros n t Hn Ht. destruct (C24_limits_ordered n Hn) as (_ & A & B & _).
  pose proof (lim_fin n) as (F1 & F2 & F3). apply fin_nan in F1, F2, F3.
  unfold ValidateCoherenceTarget. cbn [nlt FNum].
  destruct (flt (lim_theo (lim n)) t) eqn:E1; [|destruct (flt (lim_prac (lim n)) t) eqn:E2;
    [|destruct (flt (lim_rec (lim n)) t) eqn:E3]]; cbn [snd].
  - split; [|split]; split; try discriminate; auto.
    + intros H. exfalso. apply fle_not_lt in H. apply flt_true in E1. apply fle_true in A, B.
      apply flt_false in H; auto. lra.
    + intros [_ H]. apply fle_not_lt in H. congruence.
  - split; [|split]; split; try discriminate; auto.
    + intros H. exfalso. apply fle_not_lt in H. apply flt_true in E2. apply fle_true in A.
      apply flt_false in H; auto. lra.
    + intros _. split; auto. apply not_lt_fle; auto.
  - split; [|split]; split; try discriminate; auto.
    + intros H. apply fle_not_lt in H. congruence.
    + intros [H _]. discriminate.
  - split; [|split]; split; try discriminate; auto.
    + intros _. apply not_lt_fle; auto.
    + intros [H _]. discriminate.
Qed.

(** NaN is passed through without any warning. *)
Theorem C24_validate_nan_refuted : exists t, forall n, vct n t = t /\ warn n t = ""%string /\
  fle (vct n t) (lim_theo (lim n)) = false.
Proof.
  exists fnan. intros n. rewrite vct_cases. unfold ValidateCoherenceTarget. cbn [nlt FNum].
  rewrite !flt_nan_false_r. auto.
Qed.

Local Notation minsize := (@GetMinimumSwarmSize F (FNum tr)).

Ltac minrows t :=
  unfold GetMinimumSwarmSize; cbn [nle nlit FNum];
  repeat match goal with |- context [if fle ?c t then _ else _] =>
    let E := fresh "E" in destruct (fle c t) eqn:E end.

Lemma prac_at : lim_prac (lim 100) = flit 99 100 /\ lim_prac (lim 50) = flit 98 100 /\
  lim_prac (lim 20) = flit 97 100 /\ lim_prac (lim 10) = flit 95 100 /\
  lim_prac (lim 5) = flit 92 100 /\ lim_prac (lim 2) = flit 85 100.
Proof. repeat split. Qed.
Lemma flt_pow a b x : flt a b = true -> fle b x = true -> fle x a = true -> False.
Proof. intros A B C. apply flt_true in A. apply fle_true in B, C. lra. Qed.

(** A swarm of GetMinimumSwarmSize(t) agents can practically reach t exactly when t <= 0.98 or
    t = 0.99: the claim fails for t in (0.98, 0.99) (answer 50, practical limit 0.98) and
    above 0.99 (answer 100, practical limit 0.99). *)
Theorem C24_minimum_size_iff : forall t, fisnan t = false ->
  (fle t (lim_prac (lim (minsize t))) = true <->
   fle t (flit 98 100) = true \/ feq t (flit 99 100) = true).
Proof.
  intros t Ht. destruct prac_at as (P1 & P2 & P3 & P4 & P5 & P6).
  assert (nn : forall a, fisnan (flit a 100) = false -> fle (flit a 100) t = false -> flt t (flit a 100) = true).
  { intros a Ha H. now apply not_le_flt. }
  minrows t; rewrite ?P1, ?P2, ?P3, ?P4, ?P5, ?P6.
  - split.
    + intros H. right. apply feq_true. apply fle_true in H, E. repeat split; try tauto. lra.
    + intros [H|H].
      * exfalso. eapply (flt_pow (flit 98 100) (flit 99 100)); eauto; vm_compute; reflexivity.
      * apply feq_true in H. apply fle_true. repeat split; try tauto. lra.
  - split; [tauto|]. intros [H|H]; auto. exfalso. apply feq_true in H.
    apply nn in E; [|reflexivity]. apply flt_true in E. lra.
  - apply nn in E0; [|reflexivity]. split; intros _.
    + left. apply flt_le, (flt_fle_trans _ _ _ E0). vm_compute; reflexivity.
    + now apply flt_le.
  - apply nn in E1; [|reflexivity]. split; intros _.
    + left. apply flt_le, (flt_fle_trans _ _ _ E1). vm_compute; reflexivity.
    + now apply flt_le.
  - apply nn in E2; [|reflexivity]. split; intros _.
    + left. apply flt_le, (flt_fle_trans _ _ _ E2). vm_compute; reflexivity.
    + apply flt_le, (flt_fle_trans _ _ _ E2). vm_compute; reflexivity.
  - apply nn in E3; [|reflexivity]. split; intros _.
    + left. apply flt_le, (flt_fle_trans _ _ _ E3). vm_compute; reflexivity.
    + now apply flt_le.
Qed.

Theorem C24_minimum_size_refuted : exists t,
  flt t (flit 99 100) = true /\ flt (lim_prac (lim (minsize t))) t = true.
Proof. exists (flit 985 1000). split; vm_compute; reflexivity. Qed.

(** The minimum size is between 2 and 100 and monotone in the target. *)
Theorem C24_minimum_size_monotone : forall t u, fle t u = true -> 2 <= minsize t <= minsize u.
Proof.
  intros t u H. minrows t; minrows u; try lia; exfalso;
    match goal with A : fle ?c t = true, B : fle ?c u = false |- _ =>
      rewrite (fle_trans _ _ _ A H) in B; discriminate B end.
Qed.

Local Notation tf := (GetConvergenceTimeFactor tr).

Lemma tf_unfold n t : tf n t =
  if flt (lim_prac (lim n)) t then finf
  else if fle (lim_prac (lim n)) (fofZ 0) then fofZ 1
  else if flt (fdiv t (lim_prac (lim n))) (flit 8 10) then fofZ 1
  else if flt (fdiv t (lim_prac (lim n))) (flit 9 10) then fofZ 2
  else if flt (fdiv t (lim_prac (lim n))) (flit 95 100) then fofZ 4
  else fofZ 8.
Proof. reflexivity. Qed.

(** The time factor is at least 1 for every size and every float, and monotone in the target. *)
Theorem C24_time_factor_ge_1 : forall n t, fle (fofZ 1) (tf n t) = true.
Proof.
  intros n t. rewrite tf_unfold.
  repeat match goal with |- context [if ?b then _ else _] => destruct b end; vm_compute; reflexivity.
Qed.

Theorem C24_time_factor_monotone : forall n t u, fle t u = true -> fle (tf n t) (tf n u) = true.
Proof.
  intros n t u H. rewrite (tf_unfold n u).
  destruct (flt (lim_prac (lim n)) u) eqn:E.
  { rewrite tf_unfold. repeat match goal with |- context [if ?b then _ else _] => destruct b end; vm_compute; reflexivity. }
  rewrite (tf_unfold n t). destruct (flt (lim_prac (lim n)) t) eqn:E'.
  { rewrite (flt_fle_trans _ _ _ E' H) in E. discriminate. }
  destruct (fle (lim_prac (lim n)) (fofZ 0)) eqn:Z0; [vm_compute; reflexivity|].
  pose proof (lim_fin n) as (_ & Fp & _).
  assert (Pp : (0 < B2R (lim_prac (lim n)))%R).
  { apply not_le_flt in Z0; [|reflexivity|now apply fin_nan]. apply flt_true in Z0.
    rewrite (ford_fin (lim_prac _)) in Z0 by auto. rewrite ford_fofZ in Z0 by lia. tauto. }
  pose proof (fdiv_mono t u _ H Fp Pp) as D.
  set (a := fdiv t _) in *. set (b := fdiv u _) in *.
  destruct (flt b (flit 8 10)) eqn:B1; [rewrite (fle_flt_trans _ _ _ D B1); vm_compute; reflexivity|].
  destruct (flt b (flit 9 10)) eqn:B2; [rewrite (fle_flt_trans _ _ _ D B2); destruct (flt a (flit 8 10)); vm_compute; reflexivity|].
  destruct (flt b (flit 95 100)) eqn:B3; [rewrite (fle_flt_trans _ _ _ D B3); destruct (flt a (flit 8 10)), (flt a (flit 9 10)); vm_compute; reflexivity|].
  destruct (flt a (flit 8 10)), (flt a (flit 9 10)), (flt a (flit 95 100)); vm_compute; reflexivity.
Qed.

(** It is infinite exactly when the target exceeds the practical limit. *)
Theorem C24_time_factor_infinite : forall n t, tf n t = finf <-> flt (lim_prac (lim n)) t = true.
Proof.
  intros n t. rewrite tf_unfold. destruct (flt (lim_prac (lim n)) t); [tauto|].
  split; [|discriminate]. intros H. exfalso.
  assert (B : fisinf finf = true) by reflexivity. rewrite <- H in B.
  revert B. clear. repeat match goal with |- context [if ?b then _ else _] => destruct b end; vm_compute; discriminate.
Qed.
End L.

Print Assumptions C24_minimum_size_iff.
Print Assumptions C24_time_factor_monotone.

(** Non-trivial instances of the hypotheses. *)
Example C24_ex_sizes : 0 < 7 /\ 2 <= 7 <= 300. Proof. lia. Qed.
Example C24_ex_targets : forall tr : Trig, fisnan (flit 93 100) = false /\ fle (flit 93 100) (flit 96 100) = true /\
  @GetMinimumSwarmSize F (FNum tr) (flit 93 100) = 10 /\
  GetConvergenceTimeFactor tr 30 (flit 93 100) = fofZ 8.
Proof.
  intros tr. split; [reflexivity|split; [vm_compute; reflexivity|split; [vm_compute; reflexivity|]]].
  unfold GetConvergenceTimeFactor. cbv zeta.
  replace (@nlt F (FNum tr) _ (flit 93 100)) with false by (vm_compute; reflexivity).
  replace (@nle F (FNum tr) _ _) with false by (vm_compute; reflexivity).
  replace (@nlt F (FNum tr) (@ndiv F _ _ _) (@nlit F _ 8 10)) with false by (vm_compute; reflexivity).
  replace (@nlt F (FNum tr) (@ndiv F _ _ _) (@nlit F _ 9 10)) with false by (vm_compute; reflexivity).
  replace (@nlt F (FNum tr) (@ndiv F _ _ _) (@nlit F _ 95 100)) with false by (vm_compute; reflexivity).
  reflexivity.
Qed.
