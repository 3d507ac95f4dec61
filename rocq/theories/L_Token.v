(** Lemmas about M_Resource. *)
From Coq Require Import ZArith Reals Psatz Bool List.
From Flocq Require Import Core.Core IEEE754.BinarySingleNaN.
From Verif Require Import Num F64 RealNum L_F64 L_PhaseF L_F64x L_State M_Resource.
Import ListNotations.
Open Scope R_scope.

Section FT.
Context (tr : Trig).
Notation TM := (TokenManager F).
Notation req := (@Request F (FNum tr)).
Notation rel := (@Release F (FNum tr)).
Notation new := (@NewTokenManager F (FNum tr)).
Notation step := (@tokStep F (FNum tr)).
Notation run := (@tokRun F (FNum tr)).

Definition op_arg (o : TokOp F) : F := match o with TReq a => a | TRel a => a end.
Definition tm_ok (t : TM) : Prop :=
  is_finite (tm_max t) = true /\ is_finite (tm_tokens t) = true /\ 0 <= B2R (tm_tokens t) <= B2R (tm_max t).

Lemma f0_fin : is_finite (fofZ 0) = true /\ B2R (fofZ 0) = 0.
Proof. apply (fofZ_fin 0). lia. Qed.

Lemma new_unfold m : new m = let c := if flt m (fofZ 0) then fofZ 0 else m in mkTM c c.
Proof. reflexivity. Qed.
Lemma req_unfold t a : req t a =
  if fle a (fofZ 0) then (t, fofZ 0)
  else if fle (tm_tokens t) (fofZ 0) then (t, fofZ 0)
  else (mkTM (fsub (tm_tokens t) (fmin a (tm_tokens t))) (tm_max t), fmin a (tm_tokens t)).
Proof. reflexivity. Qed.
Lemma rel_unfold t a : rel t a =
  if fle a (fofZ 0) then t else mkTM (fmin (fadd (tm_tokens t) a) (tm_max t)) (tm_max t).
Proof. reflexivity. Qed.

Lemma new_ok m : is_finite m = true -> tm_ok (new m) /\ ford (tm_max (new m)) = Rmax 0 (B2R m) /\
  tm_tokens (new m) = tm_max (new m).
Proof.
  intros Hm. rewrite new_unfold. cbv zeta. unfold tm_ok. cbn [tm_max tm_tokens].
  destruct f0_fin as [A B]. destruct (flt m (fofZ 0)) eqn:E.
  - apply neg_test in E; auto. rewrite (ford_fin (fofZ 0)) by exact A. rewrite B.
    rewrite Rmax_left by lra. repeat split; auto; lra.
  - apply neg_test_false in E; auto. rewrite (ford_fin m) by exact Hm. rewrite Rmax_right by lra.
    repeat split; auto; lra.
Qed.

(** a positive (non-NaN) argument: the test [a <= 0] *)
Lemma pos_test a : fisnan a = false -> fle a (fofZ 0) = false -> 0 < ford a.
Proof. intros N E. apply fle_false in E; auto using fofZ_nan. Qed.
Lemma nonpos_test a : fle a (fofZ 0) = true -> ford a <= 0.
Proof. intros E. apply fle_true in E. rewrite f0_ord in E. tauto. Qed.

Lemma req_ok t a : tm_ok t -> fisnan a = false ->
  let t' := fst (req t a) in let g := snd (req t a) in
  tm_ok t' /\ tm_max t' = tm_max t /\ is_finite g = true /\
  (ford a <= 0 -> B2R g = 0 /\ t' = t) /\
  (0 < ford a -> B2R g = Rmin (ford a) (B2R (tm_tokens t))) /\
  B2R (tm_tokens t') = rnd (B2R (tm_tokens t) - B2R g).
Proof.
  intros (M & K & Rg) N. cbv zeta. rewrite req_unfold. destruct f0_fin as [A0 B0].
  assert (R0 : rnd (B2R (tm_tokens t) - B2R (fofZ 0)) = B2R (tm_tokens t)).
  { rewrite B0, Rminus_0_r. apply rnd_fmt, fmt_B2R. }
  destruct (fle a (fofZ 0)) eqn:E1.
  { apply nonpos_test in E1. cbn [fst snd]. unfold tm_ok. repeat split; auto; try lra. }
  apply pos_test in E1; auto.
  destruct (fle (tm_tokens t) (fofZ 0)) eqn:E2.
  { apply nonpos_test in E2. cbn [fst snd]. unfold tm_ok. rewrite ford_fin in E2 by auto.
    repeat split; auto; try lra. intros _. rewrite B0. rewrite Rmin_right; lra. }
  apply pos_test in E2; auto using fin_nan. rewrite ford_fin in E2 by auto.
  destruct (fmin_cases a (tm_tokens t) N (fin_nan _ K)) as [G1 G2]. rewrite (ford_fin (tm_tokens t)) in G2 by auto.
  assert (Hg : 0 < Rmin (ford a) (B2R (tm_tokens t)) <= B2R (tm_tokens t)).
  { split; [apply Rmin_glb_lt; auto|apply Rmin_r]. }
  pose proof (B2R_lt_BIG (tm_tokens t)) as BB.
  assert (Fg : is_finite (fmin a (tm_tokens t)) = true) by (apply ford_fin_inv; auto; lra).
  set (g := fmin a (tm_tokens t)) in *. cbn [fst snd tm_tokens tm_max]. rewrite ford_fin in G2 by auto.
  destruct (fsub_ord (tm_tokens t) g K Fg) as [S1 S2].
  assert (S3 : 0 <= rnd (B2R (tm_tokens t) - B2R g) <= B2R (tm_tokens t)).
  { split; [apply rnd_ge_0; lra|apply rnd_le_fmt; [apply fmt_B2R|lra]]. }
  rewrite sat_id in S2 by lra.
  assert (Fs : is_finite (fsub (tm_tokens t) g) = true) by (apply ford_fin_inv; auto; lra).
  rewrite ford_fin in S2 by auto.
  unfold tm_ok. cbn [tm_tokens tm_max]. rewrite S2. repeat split; auto; try lra.
Qed.

Lemma fadd_fin_inf y s : is_finite y = true -> fadd y (B754_infinity s) = B754_infinity s.
Proof. destruct y; intros; try discriminate; reflexivity. Qed.

Lemma rel_ok t a : tm_ok t -> fisnan a = false ->
  let t' := rel t a in
  tm_ok t' /\ tm_max t' = tm_max t /\ (ford a <= 0 -> t' = t) /\
  (0 < ford a -> B2R (tm_tokens t') = Rmin (sat (rnd (B2R (tm_tokens t) + ford a))) (B2R (tm_max t))).
Proof.
  intros (M & K & Rg) N. cbv zeta. rewrite rel_unfold.
  destruct (fle a (fofZ 0)) eqn:E1.
  { apply nonpos_test in E1. unfold tm_ok. repeat split; auto; try lra. }
  apply pos_test in E1; auto. cbn [tm_tokens tm_max].
  assert (Q : fisnan (fadd (tm_tokens t) a) = false /\
              ford (fadd (tm_tokens t) a) = sat (rnd (B2R (tm_tokens t) + ford a))).
  { destruct (not_nan_cases a N) as [Fa|[s ->]].
    - rewrite (ford_fin a) by auto. now apply fadd_ord.
    - rewrite fadd_fin_inf by auto. split; auto. destruct s; simpl in E1 |- *; [pose proof BIG_pos; lra|].
      symmetry. apply sat_hi. apply rnd_ge_fmt; [|lra].
      apply generic_format_bpow. unfold SpecFloat.fexp, SpecFloat.emin. lia. }
  destruct Q as [Q1 Q2].
  destruct (fmin_cases (fadd (tm_tokens t) a) (tm_max t) Q1 (fin_nan _ M)) as [G1 G2].
  rewrite Q2, (ford_fin (tm_max t)) in G2 by auto.
  assert (P : 0 <= sat (rnd (B2R (tm_tokens t) + ford a))) by (apply sat_ge_0, rnd_ge_0; lra).
  pose proof (B2R_lt_BIG (tm_max t)) as BB.
  assert (P2 : 0 <= Rmin (sat (rnd (B2R (tm_tokens t) + ford a))) (B2R (tm_max t)) <= B2R (tm_max t)).
  { split; [apply Rmin_glb; lra|apply Rmin_r]. }
  assert (Fg : is_finite (fmin (fadd (tm_tokens t) a) (tm_max t)) = true) by (apply ford_fin_inv; auto; lra).
  rewrite ford_fin in G2 by auto.
  unfold tm_ok. cbn [tm_tokens tm_max]. rewrite G2. repeat split; auto; try lra.
Qed.

Lemma step_ok t o : tm_ok t -> fisnan (op_arg o) = false -> tm_ok (step t o) /\ tm_max (step t o) = tm_max t.
Proof.
  intros H N. destruct o as [a|a]; cbn [tokStep op_arg] in *.
  - destruct (req_ok t a H N) as (A & B & _). split; auto.
  - destruct (rel_ok t a H N) as (A & B & _). split; auto.
Qed.
Lemma run_ok l : forall t, tm_ok t -> (forall o, In o l -> fisnan (op_arg o) = false) ->
  tm_ok (run t l) /\ tm_max (run t l) = tm_max t.
Proof.
  induction l as [|o l IH]; intros t H Hl; [split; auto; reflexivity|].
  destruct (step_ok t o H (Hl o (or_introl eq_refl))) as [A B].
  change (run t (o :: l)) with (run (step t o) l).
  destruct (IH (step t o) A) as [C D]; [intros; apply Hl; now right|]. split; auto. congruence.
Qed.
End FT.

(** Exact-real conservation. *)
Section RT.
Notation TM := (TokenManager R).
Notation req := (@Request R RNum).
Notation rel := (@Release R RNum).
Lemma Rreq_cases t a : 0 <= tm_tokens t <= tm_max t ->
  snd (req t a) = Rmax 0 (Rmin a (tm_tokens t)) /\
  tm_tokens (fst (req t a)) = tm_tokens t - snd (req t a) /\ tm_max (fst (req t a)) = tm_max t.
Proof.
  intros H. unfold Request. cbn [nle nmin nsub RNum n0 nofZ].
  change (@n0 R RNum) with 0.
  destruct (Rle_bool_spec a 0); cbn [fst snd tm_tokens tm_max].
  { repeat split; try ring. rewrite Rmax_left; auto. pose proof (Rmin_l a (tm_tokens t)). lra. }
  destruct (Rle_bool_spec (tm_tokens t) 0); cbn [fst snd tm_tokens tm_max].
  { repeat split; try ring. rewrite Rmax_left; auto. pose proof (Rmin_r a (tm_tokens t)). lra. }
  repeat split. rewrite Rmax_right; auto. apply Rmin_glb; lra.
Qed.
Lemma Rrel_cases t a : 0 <= tm_tokens t <= tm_max t ->
  tm_tokens (rel t a) = Rmin (tm_tokens t + Rmax 0 a) (tm_max t) /\ tm_max (rel t a) = tm_max t.
Proof.
  intros H. unfold Release. cbn [nle nmin nadd RNum]. change (@n0 R RNum) with 0.
  destruct (Rle_bool_spec a 0); cbn [tm_tokens tm_max].
  - split; auto. rewrite Rmax_left by auto. rewrite Rplus_0_r, Rmin_left; lra.
  - split; auto. rewrite (Rmax_right 0 a) by lra. reflexivity.
Qed.
(** Bookkeeping of a history: what was granted, what was offered back, and whether some
    release had to be capped at the maximum. *)
Fixpoint granted (t : TM) (l : list (TokOp R)) : R :=
  match l with
  | [] => 0
  | TReq a :: r => snd (req t a) + granted (fst (req t a)) r
  | TRel a :: r => granted (rel t a) r
  end.
Fixpoint returned (l : list (TokOp R)) : R :=
  match l with
  | [] => 0
  | TReq _ :: r => returned r
  | TRel a :: r => Rmax 0 a + returned r
  end.
Fixpoint capped (t : TM) (l : list (TokOp R)) : Prop :=
  match l with
  | [] => False
  | TReq a :: r => capped (fst (req t a)) r
  | TRel a :: r => tm_max t < tm_tokens t + a \/ capped (rel t a) r
  end.
Notation run := (@tokRun R RNum).
Lemma Rconserve l : forall t, 0 <= tm_tokens t <= tm_max t -> 
  let t' := run t l in
  (0 <= tm_tokens t' <= tm_max t' /\ tm_max t' = tm_max t) /\
  tm_tokens t - tm_tokens t' >= granted t l - returned l /\
  (~ capped t l -> tm_tokens t - tm_tokens t' = granted t l - returned l).
Proof.
  induction l as [|[a|a] l IH]; intros t H; cbv zeta; [simpl; lra| |].
  - destruct (Rreq_cases t a H) as (A & B & C).
    assert (H' : 0 <= tm_tokens (fst (req t a)) <= tm_max (fst (req t a))).
    { rewrite B, C, A. pose proof (Rmin_r a (tm_tokens t)).
      pose proof (Rmax_l 0 (Rmin a (tm_tokens t))).
      assert (Rmax 0 (Rmin a (tm_tokens t)) <= tm_tokens t) by (apply Rmax_lub; lra). lra. }
    destruct (IH _ H') as ((I1 & I2) & I3 & I4). cbn [granted returned capped].
    change (run t (TReq a :: l)) with (run (fst (req t a)) l). repeat split; try lra.
    intros NC. specialize (I4 NC). lra.
  - destruct (Rrel_cases t a H) as (A & B).
    pose proof (Rmax_l 0 a) as M.
    assert (H' : 0 <= tm_tokens (rel t a) <= tm_max (rel t a)).
    { rewrite A, B. split; [apply Rmin_glb; lra|apply Rmin_r]. }
    destruct (IH _ H') as ((I1 & I2) & I3 & I4). cbn [granted returned capped].
    change (run t (TRel a :: l)) with (run (rel t a) l).
    pose proof (Rmin_l (tm_tokens t + Rmax 0 a) (tm_max t)).
    repeat split; try lra.
    intros NC. assert (N1 : ~ capped (rel t a) l) by tauto.
    assert (N2 : tm_tokens t + a <= tm_max t) by (apply Rnot_lt_le; tauto).
    specialize (I4 N1). rewrite A in I4. rewrite Rmin_left in I4; [lra|].
    destruct (Rle_or_lt a 0); [rewrite Rmax_left|rewrite Rmax_right]; lra.
Qed.
End RT.
