(** Further float facts: nearest property, absorption near the overflow threshold,
    float-to-int conversion, concrete constants. *)
From Coq Require Import ZArith Reals Psatz Bool List.
From Flocq Require Import Core.Core IEEE754.BinarySingleNaN.
From Verif Require Import Num F64 L_F64 L_PhaseF.
Open Scope R_scope.

Lemma rnd_near v y : fmt y -> Rabs (rnd v - v) <= Rabs (y - v).
Proof.
  intros Fy. destruct (round_N_pt radix2 fexp64 (fun z => negb (Z.even z)) v) as [_ Near].
  exact (Near y Fy).
Qed.

Lemma fmt_below_BIG x : fmt x -> x < BIG -> x <= BIG - bpow radix2 971.
Proof.
  intros Fx Hx.
  assert (H : x <= pred radix2 fexp64 BIG).
  { apply pred_ge_gt; auto with typeclass_instances.
    apply generic_format_bpow. unfold SpecFloat.fexp, SpecFloat.emin. lia. }
  unfold BIG in H. rewrite pred_bpow in H. exact H.
Qed.

(** Adding a small number to a finite float never overflows. *)
Lemma rnd_add_small x d : fmt x -> - BIG < x < BIG -> Rabs d <= 100 -> - BIG < rnd (x + d) < BIG.
Proof.
  intros Fx [Lo Hi] Hd.
  assert (P : 1000 <= bpow radix2 971).
  { apply Rle_trans with (bpow radix2 10); [simpl; lra|apply bpow_le; lia]. }
  pose proof (fmt_below_BIG x Fx Hi) as H1.
  pose proof (fmt_below_BIG (- x) (fmt_opp _ Fx) ltac:(lra)) as H2.
  pose proof (rnd_near (x + d) x Fx) as N.
  replace (x - (x + d)) with (- d) in N by ring. rewrite Rabs_Ropp in N.
  apply Rabs_le_inv in Hd.
  assert (Rabs (rnd (x + d) - (x + d)) <= 100) as M.
  { eapply Rle_trans; [exact N|]. apply Rabs_le. lra. }
  apply Rabs_le_inv in M. lra.
Qed.

Lemma fadd_small_fin x y : is_finite x = true -> is_finite y = true -> Rabs (B2R x) <= 100 ->
  is_finite (fadd x y) = true /\ B2R (fadd x y) = rnd (B2R x + B2R y).
Proof.
  intros Hx Hy Hb. destruct (fadd_ord x y Hx Hy) as [A B].
  pose proof (rnd_add_small (B2R y) (B2R x) (fmt_B2R y) (B2R_lt_BIG y) Hb) as R.
  rewrite Rplus_comm in R. rewrite sat_id in B by lra.
  assert (Fi : is_finite (fadd x y) = true) by (apply ford_fin_inv; auto; lra).
  split; auto. rewrite ford_fin in B; auto.
Qed.

(** Infinity arithmetic. *)
Lemma fsub_inf_fin s y : is_finite y = true -> fsub (B754_infinity s) y = B754_infinity s.
Proof. destruct y; try discriminate; reflexivity. Qed.
Lemma not_nan_cases (x : F) : fisnan x = false -> is_finite x = true \/ exists s, x = B754_infinity s.
Proof. destruct x; intros; try discriminate; eauto. Qed.

Lemma B2R_le_ford x y : is_finite x = true -> is_finite y = true -> ford x <= ford y -> B2R x <= B2R y.
Proof. intros. rewrite !ford_fin in *; auto. Qed.

(** ftrunc is truncation of the real value when that fits int64. *)
Lemma ftrunc_spec x : is_finite x = true -> (- 2 ^ 63 <= Ztrunc (B2R x) < 2 ^ 63)%Z ->
  ftrunc x = Ztrunc (B2R x).
Proof.
  destruct x as [s|s| |s m e H]; intros Fi Hr; try discriminate.
  { simpl. now rewrite Ztrunc_IZR. }
  assert (E : Ztrunc (B2R (B754_finite s m e H : F)) =
              cond_Zopp s (match e with
               | Z0 => Z.pos m
               | Zpos p => Z.pos m * 2 ^ Z.pos p
               | Zneg p => Z.pos m / 2 ^ Z.pos p
               end)%Z).
  { assert (G : forall a : R, 0 <= a -> Ztrunc (if s then - a else a) = cond_Zopp s (Zfloor a)).
    { intros a Ha. destruct s; simpl; [rewrite Ztrunc_opp|]; now rewrite Ztrunc_floor. }
    assert (V : B2R (B754_finite s m e H : F) = if s then - F2R (Float radix2 (Z.pos m) e)
                                               else F2R (Float radix2 (Z.pos m) e)).
    { rewrite B2R_finite_F2R. destruct s; simpl; auto. now rewrite <- F2R_Zopp. }
    rewrite V, G by (apply F2R_ge_0; simpl; lia). f_equal.
    unfold F2R. cbn [Fnum Fexp]. destruct e as [|p|p].
    - simpl bpow. now rewrite Rmult_1_r, Zfloor_IZR.
    - change (bpow radix2 (Z.pos p)) with (bpow radix2 (Z.pos p)).
      rewrite <- IZR_Zpower by lia. rewrite <- mult_IZR, Zfloor_IZR. reflexivity.
    - change (Z.neg p) with (- Z.pos p)%Z. rewrite bpow_opp, <- IZR_Zpower by lia.
      fold (Rdiv (IZR (Z.pos m)) (IZR (radix2 ^ Z.pos p))).
      rewrite Zfloor_div; [reflexivity|]. apply Z.neq_sym, Z.lt_neq. apply (Zpower_gt_0 radix2). lia. }
  rewrite E in *. unfold ftrunc. rewrite (proj2 (Z.ltb_ge _ _)), (proj2 (Z.ltb_ge _ _)) by lia. reflexivity.
Qed.

(** Value of a concrete closed float. *)
Ltac fval H := apply B2R_of_B2SF in H; destruct H as [? H].

Lemma fpi_val : is_finite (fhalfpi 2) = true /\ B2R (fhalfpi 2) = r2pi / 2.
Proof.
  assert (H : B2SF (fhalfpi 2) = SpecFloat.S754_finite false 7074237752028440 (-51)) by (vm_compute; reflexivity).
  apply B2R_of_B2SF in H. destruct H as [A B]. split; auto. rewrite B.
  unfold r2pi, F2R. cbn [Fnum Fexp cond_Zopp].
  change (bpow radix2 (-51)) with (/ IZR (2 ^ 51)). change (bpow radix2 (-50)) with (/ IZR (2 ^ 50)). lra.
Qed.

Lemma BIG_ge_1000 : 1000 <= BIG.
Proof. apply Rle_trans with (bpow radix2 10); [simpl; lra|apply bpow_le; lia]. Qed.
