(** Float accuracy of running sums whose terms are bounded by given weights. *)
From Coq Require Import ZArith Reals Psatz Bool List Lia.
From Flocq Require Import Core.Core IEEE754.BinarySingleNaN.
From Verif Require Import Num F64 RealNum S_Acc L_F64 L_F64x L_Acc.
Import ListNotations.
Open Scope R_scope.

Definition total {A} (g : A -> R) (l : list A) : R := fold_right (fun x s => g x + s) 0 l.
Lemma total_nonneg {A} (g : A -> R) l : (forall x, In x l -> 0 <= g x) -> 0 <= total g l.
Proof. induction l as [|x l IH]; intros H; cbn [total fold_right]; [lra|]. pose proof (H x (or_introl eq_refl)). assert (0 <= total g l) by (apply IH; intros; apply H; now right). unfold total in *. lra. Qed.
Lemma total_le {A} (g h : A -> R) l : (forall x, In x l -> Rabs (g x) <= h x) -> Rabs (total g l) <= total h l.
Proof.
  induction l as [|x l IH]; intros H; cbn [total fold_right]; [rewrite Rabs_R0; lra|].
  eapply Rle_trans; [apply Rabs_triang|]. apply Rplus_le_compat; [apply H; now left|apply IH; intros; apply H; now right].
Qed.
(** A running sum: each term is within [e w] of the exact one, up to underflow; [M] bounds everything. *)
Lemma wsum_acc {A} (f : A -> F) (w g : A -> R) e M l : 0 <= e -> 0 <= M <= 2 ^ 400 ->
  (forall x, In x l -> is_finite (f x) = true /\ 0 <= w x /\ Rabs (g x) <= w x /\ Rabs (B2R (f x) - g x) <= e * w x + tiny) ->
  forall a S V E, is_finite a = true -> Rabs (B2R a - S) <= E -> Rabs S <= V ->
  V + E + (1 + e) * total w l + IZR (Z.of_nat (length l)) * (u53 * M + 2 * tiny) <= M ->
  let z := fold_left (fun s x => fadd s (f x)) l a in
  is_finite z = true /\ Rabs (B2R z - (S + total g l)) <= E + e * total w l + IZR (Z.of_nat (length l)) * (u53 * M + 2 * tiny).
Proof.
  intros He HM. pose proof tiny_pos as TP. assert (U0 : 0 < u53) by (unfold u53; lra).
  induction l as [|x l IH]; intros H a S V E Fa HE HS HB; cbn [fold_left total fold_right length].
  - split; [exact Fa|]. replace (S + 0) with S by ring. simpl. lra.
  - destruct (H x (or_introl eq_refl)) as (Fx & Pw & Bx & Ex).
    cbn [total fold_right length] in HB. fold (total w l) in HB. fold (total w l). fold (total g l).
    rewrite Nat2Z.inj_succ, succ_IZR in HB. rewrite Nat2Z.inj_succ, succ_IZR.
    assert (Hl : forall y, In y l -> is_finite (f y) = true /\ 0 <= w y /\ Rabs (g y) <= w y /\ Rabs (B2R (f y) - g y) <= e * w y + tiny) by (intros; apply H; now right).
    assert (TW : 0 <= total w l) by (apply total_nonneg; intros y Hy; apply Hl; exact Hy).
    assert (P0 : 0 <= IZR (Z.of_nat (length l))) by (apply (IZR_le 0); lia).
    set (n := IZR (Z.of_nat (length l))) in *. assert (P1 : 0 <= u53 * M + 2 * tiny) by nra. assert (P2 : 0 <= n * (u53 * M + 2 * tiny)) by now apply Rmult_le_pos.
    assert (EW : 0 <= e * w x) by now apply Rmult_le_pos. assert (ET : 0 <= e * total w l) by now apply Rmult_le_pos.
    assert (BS : Rabs (B2R a + B2R (f x)) <= M).
    { replace (B2R a + B2R (f x)) with ((B2R a - S) + S + ((B2R (f x) - g x) + g x)) by ring.
      eapply Rle_trans; [apply Rabs_triang|]. pose proof (Rabs_triang (B2R a - S) S). pose proof (Rabs_triang (B2R (f x) - g x) (g x)). nra. }
    destruct (fadd_fin a (f x) Fa Fx) as [F1 V1].
    { pose proof big1023. assert (2 ^ 400 <= 2 ^ 500) by (apply Rle_pow; [lra|lia]). lra. }
    pose proof (rnd_abs (B2R a + B2R (f x))) as RA. rewrite <- V1 in RA.
    assert (RB : Rabs (B2R (fadd a (f x)) - (B2R a + B2R (f x))) <= u53 * M + tiny) by (assert (u53 * Rabs (B2R a + B2R (f x)) <= u53 * M) by (apply Rmult_le_compat_l; lra); lra).
    destruct (IH Hl (fadd a (f x)) (S + g x) (V + w x) (E + e * w x + (u53 * M + 2 * tiny)) F1) as [A1 A2].
    + replace (B2R (fadd a (f x)) - (S + g x)) with ((B2R (fadd a (f x)) - (B2R a + B2R (f x))) + ((B2R a - S) + (B2R (f x) - g x))) by ring.
      eapply Rle_trans; [apply Rabs_triang|]. pose proof (Rabs_triang (B2R a - S) (B2R (f x) - g x)). lra.
    + eapply Rle_trans; [apply Rabs_triang|]. lra.
    + nra.
    + split; [exact A1|]. replace (S + (g x + total g l)) with (S + g x + total g l) by ring. eapply Rle_trans; [exact A2|]. nra.
Qed.
