(** Order lemmas for Go's float comparisons (used by the table-like parts of the model). *)
From Coq Require Import ZArith Reals Psatz Bool List.
From Flocq Require Import Core.Core IEEE754.BinarySingleNaN.
From Verif Require Import Num F64 L_F64 L_F64x.
Open Scope R_scope.

Lemma fle_trans x y z : fle x y = true -> fle y z = true -> fle x z = true.
Proof. rewrite !fle_true. intros (A & B & C) (D & E & H). repeat split; auto. lra. Qed.
Lemma flt_fle_trans x y z : flt x y = true -> fle y z = true -> flt x z = true.
Proof. rewrite !fle_true, !flt_true. intros (A & B & C) (D & E & H). repeat split; auto. lra. Qed.
Lemma fle_flt_trans x y z : fle x y = true -> flt y z = true -> flt x z = true.
Proof. rewrite !fle_true, !flt_true. intros (A & B & C) (D & E & H). repeat split; auto. lra. Qed.
Lemma flt_le x y : flt x y = true -> fle x y = true.
Proof. rewrite fle_true, flt_true. intros (A & B & C). repeat split; auto. lra. Qed.
Lemma fle_refl x : fisnan x = false -> fle x x = true.
Proof. rewrite fle_true. repeat split; auto. lra. Qed.
Lemma flt_irr x : flt x x = false.
Proof. destruct (flt x x) eqn:E; auto. apply flt_true in E. exfalso; lra. Qed.
Lemma fle_not_lt x y : fle x y = true -> flt y x = false.
Proof. intros H. destruct (flt y x) eqn:E; auto. apply flt_true in E. apply fle_true in H. exfalso; lra. Qed.
Lemma flt_not_le x y : flt x y = true -> fle y x = false.
Proof. intros H. destruct (fle y x) eqn:E; auto. apply fle_true in E. apply flt_true in H. exfalso; lra. Qed.
Lemma not_lt_fle x y : fisnan x = false -> fisnan y = false -> flt y x = false -> fle x y = true.
Proof. intros A B H. apply fle_true. repeat split; auto. apply flt_false in H; auto. Qed.
Lemma not_le_flt x y : fisnan x = false -> fisnan y = false -> fle y x = false -> flt x y = true.
Proof. intros A B H. apply flt_true. repeat split; auto. apply fle_false in H; auto. Qed.
Lemma fle_mono_false x y c : fle x y = true -> flt y c = true -> flt x c = true.
Proof. apply fle_flt_trans. Qed.

(** Division by a fixed positive finite float is monotone. *)
Lemma fdiv_inf s y : is_finite y = true -> 0 < B2R y -> fdiv (B754_infinity s) y = B754_infinity s.
Proof.
  destruct y as [sy|sy| |sy m e H]; intros Fi P; try discriminate; simpl in P; [lra|].
  destruct sy.
  - exfalso. apply Rlt_not_le in P. apply P. apply Rlt_le, F2R_lt_0. simpl. lia.
  - destruct s; reflexivity.
Qed.
Lemma fdiv_pos_ord x y : fisnan x = false -> is_finite y = true -> 0 < B2R y ->
  fisnan (fdiv x y) = false.
Proof.
  intros Nx Fy Py. destruct (not_nan_cases x Nx) as [Fx|[s ->]].
  - now destruct (fdiv_ord x y Fx Fy ltac:(lra)).
  - rewrite fdiv_inf; auto.
Qed.
Lemma fdiv_mono x x' y : fle x x' = true -> is_finite y = true -> 0 < B2R y ->
  fle (fdiv x y) (fdiv x' y) = true.
Proof.
  intros H Fy Py. apply fle_true in H. destruct H as (Nx & Nx' & H).
  apply fle_true. split; [now apply fdiv_pos_ord|split; [now apply fdiv_pos_ord|]].
  destruct (not_nan_cases x Nx) as [Fx|[s ->]]; destruct (not_nan_cases x' Nx') as [Fx'|[s' ->]].
  - destruct (fdiv_ord x y Fx Fy ltac:(lra)) as [_ ->]. destruct (fdiv_ord x' y Fx' Fy ltac:(lra)) as [_ ->].
    apply sat_le, rnd_le. rewrite !ford_fin in H by auto. unfold Rdiv. apply Rmult_le_compat_r; auto.
    left. now apply Rinv_0_lt_compat.
  - rewrite fdiv_inf by auto. destruct s'.
    + pose proof (B2R_lt_BIG x). rewrite ford_fin in H by auto. simpl in H. lra.
    + simpl. apply ford_bounds.
  - rewrite fdiv_inf by auto. destruct s.
    + simpl. apply ford_bounds.
    + pose proof (B2R_lt_BIG x'). rewrite (ford_fin x') in H by auto. simpl in H. lra.
  - rewrite !fdiv_inf by auto. exact H.
Qed.

(** Multiplication by a positive finite float is monotone on the non-negative floats. *)
Lemma fmul_inf_pos y : is_finite y = true -> 0 < B2R y -> fmul (B754_infinity false) y = B754_infinity false.
Proof.
  destruct y as [sy|sy| |sy m e H]; intros Fi P; try discriminate; simpl in P; [lra|].
  destruct sy; [|reflexivity].
  exfalso. apply Rlt_not_le in P. apply P. apply Rlt_le, F2R_lt_0. simpl. lia.
Qed.
Lemma fmul_nonneg x y : fle (fofZ 0) x = true -> is_finite y = true -> 0 < B2R y ->
  fisnan (fmul x y) = false /\ 0 <= ford (fmul x y).
Proof.
  intros H Fy Py. apply fle_true in H. destruct H as (_ & Nx & H). rewrite ford_fofZ in H by lia.
  destruct (not_nan_cases x Nx) as [Fx|[s ->]].
  - destruct (fmul_ord x y Fx Fy) as [A ->]. split; auto. apply sat_ge_0, rnd_ge_0.
    rewrite ford_fin in H by auto. apply Rmult_le_pos; lra.
  - destruct s; [cbn [ford] in H; pose proof BIG_pos; lra|]. rewrite fmul_inf_pos by auto. split; [reflexivity|].
    cbn [ford]. left. apply BIG_pos.
Qed.
Lemma fmul_mono x x' y y' : fle (fofZ 0) x = true -> fle x x' = true ->
  is_finite y = true -> is_finite y' = true -> 0 < B2R y <= B2R y' ->
  fle (fmul x y) (fmul x' y') = true.
Proof.
  intros H0 H Fy Fy' [Py Pyy].
  assert (H0' : fle (fofZ 0) x' = true) by (eapply fle_trans; eauto).
  apply fle_true. split; [now apply fmul_nonneg|]. split; [apply fmul_nonneg; auto; lra|].
  apply fle_true in H0, H. destruct H0 as (_ & Nx & H0). destruct H as (_ & Nx' & H). rewrite ford_fofZ in H0 by lia.
  destruct (not_nan_cases x' Nx') as [Fx'|[s' ->]].
  - destruct (not_nan_cases x Nx) as [Fx|[s ->]].
    + destruct (fmul_ord x y Fx Fy) as [_ ->]. destruct (fmul_ord x' y' Fx' Fy') as [_ ->].
      apply sat_le, rnd_le. rewrite !ford_fin in * by auto. apply Rmult_le_compat; lra.
    + exfalso. pose proof (B2R_lt_BIG x'). rewrite (ford_fin x') in H by auto.
      destruct s; cbn [ford] in *; pose proof BIG_pos; lra.
  - destruct s'; [cbn [ford] in H; pose proof BIG_pos; lra|]. rewrite fmul_inf_pos by (auto; lra). apply ford_bounds.
Qed.
Lemma fmul_le_same x y : fle (fofZ 0) x = true -> is_finite y = true -> 0 < B2R y <= 1 ->
  fle (fmul x y) x = true.
Proof.
  intros H Fy Py. pose proof (fmul_nonneg x y H Fy ltac:(lra)) as [Nm _].
  apply fle_true in H. destruct H as (_ & Nx & H). rewrite ford_fofZ in H by lia.
  apply fle_true. split; auto. split; auto.
  destruct (not_nan_cases x Nx) as [Fx|[s ->]].
  - destruct (fmul_ord x y Fx Fy) as [_ ->]. rewrite ford_fin in * by auto.
    rewrite <- (sat_id (B2R x)) at 2 by (pose proof (B2R_lt_BIG x); lra).
    apply sat_le. apply rnd_le_fmt; [apply fmt_B2R|]. rewrite <- (Rmult_1_r (B2R x)) at 2. apply Rmult_le_compat_l; lra.
  - destruct s; [cbn [ford] in H; pose proof BIG_pos; lra|]. rewrite fmul_inf_pos by (auto; lra). lra.
Qed.
