(** Library of facts about the binary64 instance. *)
From Coq Require Import ZArith Reals Psatz Bool List.
From Flocq Require Import Core.Core IEEE754.BinarySingleNaN.
From Verif Require Import Num F64.
Open Scope R_scope.

Notation fexp64 := (SpecFloat.fexp 53 1024).
#[global] Instance Vfexp : Valid_exp fexp64 := fexp_correct 53 1024 _.
#[global] Instance Mfexp : Monotone_exp fexp64 := fexp_monotone 53 1024.
Definition rnd (x : R) : R := round radix2 fexp64 ZnearestE x.
Definition fmt (x : R) : Prop := generic_format radix2 fexp64 x.

Definition BIG : R := bpow radix2 1024.
Definition sat (r : R) : R := Rmax (- BIG) (Rmin BIG r).

Lemma BIG_pos : 0 < BIG. Proof. apply bpow_gt_0. Qed.

(** Order embedding of the non-NaN floats. *)
Definition ford (x : F) : R :=
  match x with
  | B754_infinity true => - BIG
  | B754_infinity false => BIG
  | _ => B2R x
  end.

Lemma ford_fin x : is_finite x = true -> ford x = B2R x.
Proof. destruct x as [s|[|]| |s m e H]; easy. Qed.

Lemma B2R_lt_BIG (x : F) : - BIG < B2R x < BIG.
Proof.
  pose proof (abs_B2R_lt_emax 53 1024 x) as H. fold BIG in H.
  apply Rabs_def2 in H. lra.
Qed.

Lemma ford_bounds x : - BIG <= ford x <= BIG.
Proof.
  pose proof BIG_pos. pose proof (B2R_lt_BIG x).
  destruct x as [s|[|]| |s m e H']; simpl in *; lra.
Qed.

Lemma fin_nan x : is_finite x = true -> fisnan x = false.
Proof. destruct x; easy. Qed.

Lemma flt_ord x y : fisnan x = false -> fisnan y = false ->
  flt x y = Rlt_bool (ford x) (ford y).
Proof.
  intros Hx Hy. unfold flt.
  destruct (is_finite x) eqn:Fx.
  - destruct (is_finite y) eqn:Fy.
    + rewrite !ford_fin by assumption. now apply Bltb_correct.
    + rewrite (ford_fin x) by assumption. pose proof (B2R_lt_BIG x).
      destruct y as [s|[|]| |s m e H']; try easy; simpl ford.
      * rewrite Rlt_bool_false by lra. destruct x as [s|[|]| |[|] m e H']; easy.
      * rewrite Rlt_bool_true by lra. destruct x as [s|[|]| |[|] m e H']; easy.
  - pose proof BIG_pos. pose proof (B2R_lt_BIG y) as By.
    destruct x as [s|[|]| |s m e H']; try easy;
    destruct y as [s'|[|]| |s' m' e' H']; try easy;
    cbn [ford]; cbn [B2R] in *;
    first [rewrite Rlt_bool_false by lra; reflexivity | rewrite Rlt_bool_true by lra; reflexivity].
Qed.

Lemma fle_ord x y : fisnan x = false -> fisnan y = false ->
  fle x y = Rle_bool (ford x) (ford y).
Proof.
  intros Hx Hy. unfold fle.
  destruct (is_finite x) eqn:Fx.
  - destruct (is_finite y) eqn:Fy.
    + rewrite !ford_fin by assumption. now apply Bleb_correct.
    + rewrite (ford_fin x) by assumption. pose proof (B2R_lt_BIG x).
      destruct y as [s|[|]| |s m e H']; try easy; simpl ford.
      * rewrite Rle_bool_false by lra. destruct x as [s|[|]| |[|] m e H']; easy.
      * rewrite Rle_bool_true by lra. destruct x as [s|[|]| |[|] m e H']; easy.
  - pose proof BIG_pos. pose proof (B2R_lt_BIG y) as By.
    destruct x as [s|[|]| |s m e H']; try easy;
    destruct y as [s'|[|]| |s' m' e' H']; try easy;
    cbn [ford]; cbn [B2R] in *;
    first [rewrite Rle_bool_false by lra; reflexivity | rewrite Rle_bool_true by lra; reflexivity].
Qed.

Lemma feq_ord x y : fisnan x = false -> fisnan y = false ->
  feq x y = Req_bool (ford x) (ford y).
Proof.
  intros Hx Hy. unfold feq.
  destruct (is_finite x) eqn:Fx.
  - destruct (is_finite y) eqn:Fy.
    + rewrite !ford_fin by assumption. now apply Beqb_correct.
    + rewrite (ford_fin x) by assumption. pose proof (B2R_lt_BIG x).
      destruct y as [s|[|]| |s m e H']; try easy; simpl ford;
      rewrite Req_bool_false by lra; destruct x as [sx|[|]| |[|] mx ex Hx']; easy.
  - pose proof BIG_pos. pose proof (B2R_lt_BIG y) as By.
    destruct x as [s|[|]| |s m e H']; try easy;
    destruct y as [s'|[|]| |s' m' e' H']; try easy;
    cbn [ford]; cbn [B2R] in *;
    first [rewrite Req_bool_false by lra; reflexivity | rewrite Req_bool_true by lra; reflexivity].
Qed.

Lemma flt_nan_l x y : flt x y = true -> fisnan x = false.
Proof. destruct x; easy. Qed.
Lemma flt_nan_r x y : flt x y = true -> fisnan y = false.
Proof. destruct y; destruct x as [sx|[|]| |[|] mx ex Hx']; easy. Qed.
Lemma fle_nan_l x y : fle x y = true -> fisnan x = false.
Proof. destruct x; easy. Qed.
Lemma fle_nan_r x y : fle x y = true -> fisnan y = false.
Proof. destruct y; destruct x as [sx|[|]| |[|] mx ex Hx']; easy. Qed.
Lemma flt_nan_false_l y : flt fnan y = false. Proof. reflexivity. Qed.
Lemma flt_nan_false_r x : flt x fnan = false.
Proof. destruct x as [s|[|]| |[|] m e H']; easy. Qed.
Lemma fle_nan_false_l y : fle fnan y = false. Proof. reflexivity. Qed.
Lemma fle_nan_false_r x : fle x fnan = false.
Proof. destruct x as [s|[|]| |[|] m e H']; easy. Qed.
Lemma fisnan_true x : fisnan x = true -> x = fnan.
Proof. destruct x; easy. Qed.

(** Propositional views. *)
Lemma flt_true x y : flt x y = true <-> fisnan x = false /\ fisnan y = false /\ ford x < ford y.
Proof.
  split.
  - intros H. pose proof (flt_nan_l _ _ H) as A. pose proof (flt_nan_r _ _ H) as B.
    rewrite flt_ord in H by assumption. repeat split; auto.
    revert H; case Rlt_bool_spec; easy.
  - intros (A & B & C). rewrite flt_ord by assumption. now apply Rlt_bool_true.
Qed.
Lemma fle_true x y : fle x y = true <-> fisnan x = false /\ fisnan y = false /\ ford x <= ford y.
Proof.
  split.
  - intros H. pose proof (fle_nan_l _ _ H) as A. pose proof (fle_nan_r _ _ H) as B.
    rewrite fle_ord in H by assumption. repeat split; auto.
    revert H; case Rle_bool_spec; easy.
  - intros (A & B & C). rewrite fle_ord by assumption. now apply Rle_bool_true.
Qed.
Lemma flt_false x y : fisnan x = false -> fisnan y = false ->
  flt x y = false -> ford y <= ford x.
Proof.
  intros A B H. rewrite flt_ord in H by assumption.
  revert H; case Rlt_bool_spec; easy.
Qed.
Lemma fle_false x y : fisnan x = false -> fisnan y = false ->
  fle x y = false -> ford y < ford x.
Proof.
  intros A B H. rewrite fle_ord in H by assumption.
  revert H; case Rle_bool_spec; easy.
Qed.

Lemma feq_true x y : feq x y = true <-> fisnan x = false /\ fisnan y = false /\ ford x = ford y.
Proof.
  split.
  - intros H.
    assert (fisnan x = false) as A by (destruct x; easy).
    assert (fisnan y = false) as B by (destruct y; destruct x as [sx|[|]| |[|] mx ex Hx']; easy).
    rewrite feq_ord in H by assumption. repeat split; auto.
    revert H; case Req_bool_spec; easy.
  - intros (A & B & C). rewrite feq_ord by assumption. now apply Req_bool_true.
Qed.

(** Rounding facts. *)
Lemma rnd_le x y : x <= y -> rnd x <= rnd y.
Proof. apply round_le; auto with typeclass_instances. Qed.
Lemma rnd_fmt x : fmt x -> rnd x = x.
Proof. apply round_generic; auto with typeclass_instances. Qed.
Lemma fmt_rnd x : fmt (rnd x).
Proof. apply generic_format_round; auto with typeclass_instances. Qed.
Lemma fmt_B2R (x : F) : fmt (B2R x).
Proof. apply generic_format_B2R. Qed.
Lemma fmt_0 : fmt 0.
Proof. apply generic_format_0. Qed.
Lemma rnd_0 : rnd 0 = 0.
Proof. apply rnd_fmt, fmt_0. Qed.
Lemma fmt_opp x : fmt x -> fmt (- x).
Proof. apply generic_format_opp. Qed.
Lemma rnd_ge_0 x : 0 <= x -> 0 <= rnd x.
Proof. intros H. rewrite <- rnd_0. now apply rnd_le. Qed.
Lemma rnd_le_0 x : x <= 0 -> rnd x <= 0.
Proof. intros H. rewrite <- rnd_0. now apply rnd_le. Qed.
Lemma rnd_le_fmt x y : fmt y -> x <= y -> rnd x <= y.
Proof. intros Hy H. rewrite <- (rnd_fmt y Hy). now apply rnd_le. Qed.
Lemma rnd_ge_fmt x y : fmt x -> x <= y -> x <= rnd y.
Proof. intros Hy H. rewrite <- (rnd_fmt x Hy). now apply rnd_le. Qed.
Lemma rnd_opp x : rnd (- x) = - rnd x.
Proof. apply round_NE_opp. Qed.

Lemma fmt_F2R (m e : Z) : (Z.abs m <= 2 ^ 53)%Z -> (-1074 <= e)%Z ->
  fmt (F2R (Float radix2 m e)).
Proof.
  intros Hm He.
  assert (Hfmt : forall m, (Z.abs m < 2 ^ 53)%Z -> fmt (F2R (Float radix2 m e))).
  { intros m' Hm'. change (generic_format radix2 (FLT_exp (-1074) 53) (F2R (Float radix2 m' e))).
    apply generic_format_FLT. exists (Float radix2 m' e); simpl; auto. }
  destruct (Z.eq_dec (Z.abs m) (2 ^ 53)) as [E|E].
  - assert (G : fmt (F2R (Float radix2 (2 ^ 53) e))).
    { replace (F2R (Float radix2 (2 ^ 53) e)) with (bpow radix2 (53 + e)).
      - apply generic_format_bpow. unfold SpecFloat.fexp, SpecFloat.emin. lia.
      - unfold F2R; simpl Fnum; simpl Fexp. rewrite bpow_plus. f_equal. }
    destruct (Z.abs_spec m) as [[_ Hs]|[_ Hs]].
    + replace m with (2 ^ 53)%Z by lia. exact G.
    + replace m with (- (2 ^ 53))%Z by lia. rewrite F2R_Zopp. now apply fmt_opp.
  - apply Hfmt. lia.
Qed.
Lemma fmt_IZR z : (Z.abs z <= 2 ^ 53)%Z -> fmt (IZR z).
Proof.
  intros H. replace (IZR z) with (F2R (Float radix2 z 0)) by (unfold F2R; simpl; ring).
  apply fmt_F2R; lia.
Qed.

Lemma sat_id r : - BIG <= r <= BIG -> sat r = r.
Proof. intros H. unfold sat. rewrite Rmin_right by lra. apply Rmax_right; lra. Qed.
Lemma sat_le x y : x <= y -> sat x <= sat y.
Proof. intros H. unfold sat. apply Rle_max_compat_l. now apply Rle_min_compat_l. Qed.
Lemma sat_hi r : BIG <= r -> sat r = BIG.
Proof. intros H. pose proof BIG_pos. unfold sat. rewrite Rmin_left by lra. apply Rmax_right; lra. Qed.
Lemma sat_lo r : r <= - BIG -> sat r = - BIG.
Proof. intros H. pose proof BIG_pos. unfold sat. rewrite Rmin_right by lra. apply Rmax_left; lra. Qed.
Lemma sat_ge_0 r : 0 <= r -> 0 <= sat r.
Proof. intros H. rewrite <- (sat_id 0) by (pose proof BIG_pos; lra). now apply sat_le. Qed.
Lemma sat_le_0 r : r <= 0 -> sat r <= 0.
Proof. intros H. rewrite <- (sat_id 0) by (pose proof BIG_pos; lra). now apply sat_le. Qed.

(** Bsign versus the real value. *)
Lemma Bsign_false_ge (x : F) : is_finite x = true -> Bsign x = false -> 0 <= B2R x.
Proof.
  destruct x as [s|s| |s m e H]; simpl; intros; try lra; try easy.
  subst. apply F2R_ge_0. simpl; lia.
Qed.
Lemma Bsign_true_le (x : F) : is_finite x = true -> Bsign x = true -> B2R x <= 0.
Proof.
  destruct x as [s|s| |s m e H]; simpl; intros; try lra; try easy.
  subst. apply F2R_le_0. simpl; lia.
Qed.

Lemma B2SF_inf (x : F) s : B2SF x = SpecFloat.S754_infinity s -> x = B754_infinity s.
Proof. destruct x; simpl; intros; congruence. Qed.

Lemma ovf_NE s : binary_overflow 53 1024 mode_NE s = SpecFloat.S754_infinity s.
Proof. reflexivity. Qed.

Ltac two_way H :=
  match type of H with
  | context [Rlt_bool (Rabs ?a) ?b] => destruct (Rlt_bool_spec (Rabs a) b) as [Hlt|Hge]
  end.

Lemma sat_rnd_small a : Rabs (rnd a) < BIG -> sat (rnd a) = rnd a.
Proof. intros H. apply sat_id. apply Rabs_def2 in H. lra. Qed.
Lemma sat_rnd_big_pos a : BIG <= Rabs (rnd a) -> 0 <= a -> sat (rnd a) = BIG.
Proof. intros H Ha. apply sat_hi. rewrite Rabs_right in H; auto. apply Rle_ge, rnd_ge_0; auto. Qed.
Lemma sat_rnd_big_neg a : BIG <= Rabs (rnd a) -> a <= 0 -> sat (rnd a) = - BIG.
Proof. intros H Ha. apply sat_lo. rewrite Rabs_left1 in H by (apply rnd_le_0; auto). lra. Qed.

(** Saturating rounding semantics of the four operations on finite arguments. *)
Lemma fadd_ord x y : is_finite x = true -> is_finite y = true ->
  fisnan (fadd x y) = false /\ ford (fadd x y) = sat (rnd (B2R x + B2R y)).
Proof.
  intros Hx Hy. unfold fadd.
  pose proof (Bplus_correct 53 1024 _ _ mode_NE x y Hx Hy) as H.
  change (round_mode mode_NE) with ZnearestE in H. fold (rnd (B2R x + B2R y)) in H. fold BIG in H.
  two_way H.
  - destruct H as (H1 & H2 & _). split; [now apply fin_nan|].
    rewrite ford_fin by assumption. rewrite H1. symmetry. now apply sat_rnd_small.
  - destruct H as (H1 & H2). rewrite ovf_NE in H1. apply B2SF_inf in H1. rewrite H1.
    split; [reflexivity|].
    destruct (Bsign x) eqn:Sx; simpl; symmetry.
    + apply sat_rnd_big_neg; auto.
      pose proof (Bsign_true_le x Hx Sx). pose proof (Bsign_true_le y Hy (eq_sym H2)). lra.
    + apply sat_rnd_big_pos; auto.
      pose proof (Bsign_false_ge x Hx Sx). pose proof (Bsign_false_ge y Hy (eq_sym H2)). lra.
Qed.
Lemma fsub_ord x y : is_finite x = true -> is_finite y = true ->
  fisnan (fsub x y) = false /\ ford (fsub x y) = sat (rnd (B2R x - B2R y)).
Proof.
  intros Hx Hy. unfold fsub.
  pose proof (Bminus_correct 53 1024 _ _ mode_NE x y Hx Hy) as H.
  change (round_mode mode_NE) with ZnearestE in H. fold (rnd (B2R x - B2R y)) in H. fold BIG in H.
  two_way H.
  - destruct H as (H1 & H2 & _). split; [now apply fin_nan|].
    rewrite ford_fin by assumption. rewrite H1. symmetry. now apply sat_rnd_small.
  - destruct H as (H1 & H2). rewrite ovf_NE in H1. apply B2SF_inf in H1. rewrite H1.
    split; [reflexivity|].
    destruct (Bsign x) eqn:Sx; simpl; symmetry.
    + apply sat_rnd_big_neg; auto.
      pose proof (Bsign_true_le x Hx Sx).
      assert (Bsign y = false) as Sy by (destruct (Bsign y); easy).
      pose proof (Bsign_false_ge y Hy Sy). lra.
    + apply sat_rnd_big_pos; auto.
      pose proof (Bsign_false_ge x Hx Sx).
      assert (Bsign y = true) as Sy by (destruct (Bsign y); easy).
      pose proof (Bsign_true_le y Hy Sy). lra.
Qed.

Lemma prod_sign (x y : F) : is_finite x = true -> is_finite y = true ->
  if xorb (Bsign x) (Bsign y) then B2R x * B2R y <= 0 else 0 <= B2R x * B2R y.
Proof.
  intros Hx Hy.
  destruct (Bsign x) eqn:Sx; destruct (Bsign y) eqn:Sy; simpl.
  - pose proof (Bsign_true_le _ Hx Sx). pose proof (Bsign_true_le _ Hy Sy). nra.
  - pose proof (Bsign_true_le _ Hx Sx). pose proof (Bsign_false_ge _ Hy Sy). nra.
  - pose proof (Bsign_false_ge _ Hx Sx). pose proof (Bsign_true_le _ Hy Sy). nra.
  - pose proof (Bsign_false_ge _ Hx Sx). pose proof (Bsign_false_ge _ Hy Sy). nra.
Qed.

Lemma fmul_ord x y : is_finite x = true -> is_finite y = true ->
  fisnan (fmul x y) = false /\ ford (fmul x y) = sat (rnd (B2R x * B2R y)).
Proof.
  intros Hx Hy. unfold fmul.
  pose proof (Bmult_correct 53 1024 _ _ mode_NE x y) as H.
  change (round_mode mode_NE) with ZnearestE in H. fold (rnd (B2R x * B2R y)) in H. fold BIG in H.
  two_way H.
  - destruct H as (H1 & H2 & _). rewrite Hx, Hy in H2. simpl in H2. split; [now apply fin_nan|].
    rewrite ford_fin by assumption. rewrite H1. symmetry. now apply sat_rnd_small.
  - rewrite ovf_NE in H. apply B2SF_inf in H. rewrite H.
    split; [reflexivity|].
    pose proof (prod_sign x y Hx Hy) as Hp.
    destruct (xorb (Bsign x) (Bsign y)); simpl; symmetry.
    + now apply sat_rnd_big_neg.
    + now apply sat_rnd_big_pos.
Qed.

Lemma fdiv_ord x y : is_finite x = true -> is_finite y = true -> B2R y <> 0 ->
  fisnan (fdiv x y) = false /\ ford (fdiv x y) = sat (rnd (B2R x / B2R y)).
Proof.
  intros Hx Hy Hy0. unfold fdiv.
  pose proof (Bdiv_correct 53 1024 _ _ mode_NE x y Hy0) as H.
  change (round_mode mode_NE) with ZnearestE in H. fold (rnd (B2R x / B2R y)) in H. fold BIG in H.
  two_way H.
  - destruct H as (H1 & H2 & _). rewrite Hx in H2. split; [now apply fin_nan|].
    rewrite ford_fin by assumption. rewrite H1. symmetry. now apply sat_rnd_small.
  - rewrite ovf_NE in H. apply B2SF_inf in H. rewrite H.
    split; [reflexivity|].
    pose proof (prod_sign x y Hx Hy) as Hp.
    assert (Hq : B2R x / B2R y = B2R x * B2R y * / (B2R y * B2R y)) by (field; auto).
    assert (0 < / (B2R y * B2R y)) by (apply Rinv_0_lt_compat; nra).
    destruct (xorb (Bsign x) (Bsign y)); simpl; symmetry.
    + apply sat_rnd_big_neg; auto. rewrite Hq. nra.
    + apply sat_rnd_big_pos; auto. rewrite Hq. nra.
Qed.

(** Finite results: when the exact value is bounded by a representable number. *)
Lemma ford_fin_inv x : fisnan x = false -> - BIG < ford x < BIG -> is_finite x = true.
Proof. destruct x as [s|[|]| |s m e H]; simpl; intros; try easy; lra. Qed.

Lemma fmt_lt_BIG_max : fmt (bpow radix2 1023).
Proof. apply generic_format_bpow. unfold SpecFloat.fexp, SpecFloat.emin. lia. Qed.

Lemma op_fin z r : fisnan z = false -> ford z = sat (rnd r) -> Rabs r <= bpow radix2 1023 ->
  is_finite z = true /\ B2R z = rnd r.
Proof.
  intros Hn Ho Hb.
  assert (B : bpow radix2 1023 < BIG) by (apply bpow_lt; lia).
  assert (Hr : - bpow radix2 1023 <= rnd r <= bpow radix2 1023).
  { apply Rabs_le_inv in Hb. split.
    - apply rnd_ge_fmt; [apply fmt_opp, fmt_lt_BIG_max|lra].
    - apply rnd_le_fmt; [apply fmt_lt_BIG_max|lra]. }
  rewrite sat_id in Ho by lra.
  assert (Hf : is_finite z = true) by (apply ford_fin_inv; [auto|lra]).
  split; [auto|]. rewrite <- (ford_fin z Hf). exact Ho.
Qed.

Lemma fadd_fin x y : is_finite x = true -> is_finite y = true ->
  Rabs (B2R x + B2R y) <= bpow radix2 1023 ->
  is_finite (fadd x y) = true /\ B2R (fadd x y) = rnd (B2R x + B2R y).
Proof. intros Hx Hy Hb. destruct (fadd_ord x y Hx Hy). eapply op_fin; eauto. Qed.
Lemma fsub_fin x y : is_finite x = true -> is_finite y = true ->
  Rabs (B2R x - B2R y) <= bpow radix2 1023 ->
  is_finite (fsub x y) = true /\ B2R (fsub x y) = rnd (B2R x - B2R y).
Proof. intros Hx Hy Hb. destruct (fsub_ord x y Hx Hy). eapply op_fin; eauto. Qed.
Lemma fmul_fin x y : is_finite x = true -> is_finite y = true ->
  Rabs (B2R x * B2R y) <= bpow radix2 1023 ->
  is_finite (fmul x y) = true /\ B2R (fmul x y) = rnd (B2R x * B2R y).
Proof. intros Hx Hy Hb. destruct (fmul_ord x y Hx Hy). eapply op_fin; eauto. Qed.
Lemma fdiv_fin x y : is_finite x = true -> is_finite y = true -> B2R y <> 0 ->
  Rabs (B2R x / B2R y) <= bpow radix2 1023 ->
  is_finite (fdiv x y) = true /\ B2R (fdiv x y) = rnd (B2R x / B2R y).
Proof. intros Hx Hy H0 Hb. destruct (fdiv_ord x y Hx Hy H0). eapply op_fin; eauto. Qed.

(** Integers. *)
Lemma bpow1023_ge (z : Z) : (0 <= z <= 1023)%Z -> IZR (2 ^ z) <= bpow radix2 1023.
Proof. intros Hz. rewrite (IZR_Zpower radix2) by lia. apply bpow_le. lia. Qed.

Lemma fofZ_fin z : (Z.abs z <= 2 ^ 53)%Z -> is_finite (fofZ z) = true /\ B2R (fofZ z) = IZR z.
Proof.
  intros Hz. unfold fofZ.
  pose proof (binary_normalize_correct 53 1024 _ _ mode_NE z 0 false) as H. cbv zeta in H.
  assert (E : F2R (Float radix2 z 0) = IZR z) by (unfold F2R; simpl; ring).
  rewrite E in H. change (round_mode mode_NE) with ZnearestE in H. fold (rnd (IZR z)) in H.
  rewrite (rnd_fmt (IZR z)) in H by now apply fmt_IZR.
  rewrite Rlt_bool_true in H.
  - tauto.
  - rewrite <- abs_IZR. eapply Rle_lt_trans; [apply IZR_le, Hz|].
    rewrite (IZR_Zpower radix2) by lia. apply bpow_lt. lia.
Qed.

Lemma fofZ_nan z : fisnan (fofZ z) = false.
Proof. apply is_nan_binary_normalize. Qed.

Lemma ford_fofZ z : (Z.abs z <= 2 ^ 53)%Z -> ford (fofZ z) = IZR z.
Proof. intros H. destruct (fofZ_fin z H) as [A B]. rewrite ford_fin; auto. Qed.

Lemma flit_fin n d : (Z.abs n <= 2 ^ 53)%Z -> (0 < d <= 2 ^ 53)%Z ->
  is_finite (flit n d) = true /\ B2R (flit n d) = rnd (IZR n / IZR d).
Proof.
  intros Hn Hd.
  destruct (fofZ_fin n Hn) as [An Bn]. destruct (fofZ_fin d ltac:(lia)) as [Ad Bd].
  assert (Hd0 : 1 <= IZR d) by (apply IZR_le; lia).
  rewrite <- Bn, <- Bd. apply fdiv_fin; auto.
  - rewrite Bd. lra.
  - rewrite Bn, Bd. unfold Rdiv. rewrite Rabs_mult.
    assert (Rabs (/ IZR d) <= 1).
    { rewrite Rabs_right. rewrite <- Rinv_1. apply Rinv_le_contravar; lra.
      left. apply Rinv_0_lt_compat. lra. }
    assert (Rabs (IZR n) <= bpow radix2 1023).
    { rewrite <- abs_IZR. apply Rle_trans with (IZR (2 ^ 53)); [now apply IZR_le|].
      apply bpow1023_ge. lia. }
    pose proof (Rabs_pos (IZR n)). pose proof (Rabs_pos (/ IZR d)). nra.
Qed.

(** Min, Max. *)
Lemma fmax_cases x y : fisnan x = false -> fisnan y = false ->
  fisnan (fmax x y) = false /\ ford (fmax x y) = Rmax (ford x) (ford y).
Proof.
  intros Hx Hy. pose proof BIG_pos as HB.
  pose proof (ford_bounds x) as Bx. pose proof (ford_bounds y) as By.
  assert (G : fisnan (if flt y x then x else y) = false /\
              ford (if flt y x then x else y) = Rmax (ford x) (ford y)).
  { destruct (flt y x) eqn:E.
    - apply flt_true in E. split; auto. rewrite Rmax_left; lra.
    - apply flt_false in E; auto. split; auto. rewrite Rmax_right; lra. }
  destruct x as [sx|[|]| |sx mx ex Hx'] eqn:Ex; try easy;
  destruct y as [sy|[|]| |sy my ey Hy'] eqn:Ey; try easy;
  try (exact G); unfold fmax, finf; cbn [ford fisnan is_nan] in *;
  try (split; [reflexivity| cbn [ford]; rewrite Rmax_left; lra]);
  try (split; [reflexivity| cbn [ford]; rewrite Rmax_right; lra]).
  destruct sx; simpl; (split; [reflexivity|]); rewrite Rmax_left; lra.
Qed.
Lemma fmin_cases x y : fisnan x = false -> fisnan y = false ->
  fisnan (fmin x y) = false /\ ford (fmin x y) = Rmin (ford x) (ford y).
Proof.
  intros Hx Hy. pose proof BIG_pos as HB.
  pose proof (ford_bounds x) as Bx. pose proof (ford_bounds y) as By.
  assert (G : fisnan (if flt x y then x else y) = false /\
              ford (if flt x y then x else y) = Rmin (ford x) (ford y)).
  { destruct (flt x y) eqn:E.
    - apply flt_true in E. split; auto. rewrite Rmin_left; lra.
    - apply flt_false in E; auto. split; auto. rewrite Rmin_right; lra. }
  destruct x as [sx|[|]| |sx mx ex Hx'] eqn:Ex; try easy;
  destruct y as [sy|[|]| |sy my ey Hy'] eqn:Ey; try easy;
  try (exact G); unfold fmin, fninf; cbn [ford fisnan is_nan] in *;
  try (split; [reflexivity| cbn [ford]; rewrite Rmin_left; lra]);
  try (split; [reflexivity| cbn [ford]; rewrite Rmin_right; lra]).
  destruct sx; simpl; (split; [reflexivity|]); rewrite Rmin_left; lra.
Qed.

(** NaN behaviour of the operations. *)
Lemma fadd_nan_l y : fadd fnan y = fnan. Proof. reflexivity. Qed.
Lemma fadd_nan_r x : fadd x fnan = fnan. Proof. destruct x; reflexivity. Qed.
Lemma fsub_nan_l y : fsub fnan y = fnan. Proof. reflexivity. Qed.
Lemma fsub_nan_r x : fsub x fnan = fnan. Proof. destruct x; reflexivity. Qed.

(** [fmod] on finite arguments is exact, of smaller magnitude than the divisor and of the
    sign of the dividend. *)
Lemma B2R_finite_F2R s m e (H : SpecFloat.bounded 53 1024 m e = true) :
  B2R (B754_finite s m e H) = F2R (Float radix2 (cond_Zopp s (Z.pos m)) e).
Proof. reflexivity. Qed.

Lemma bounded_props m e : SpecFloat.bounded 53 1024 m e = true ->
  (Z.pos m < 2 ^ 53)%Z /\ (-1074 <= e <= 971)%Z.
Proof.
  intros H. unfold SpecFloat.bounded in H. apply andb_true_iff in H. destruct H as [H1 H2].
  apply Zle_bool_imp_le in H2. unfold SpecFloat.canonical_mantissa in H1.
  apply Zeq_bool_eq in H1. unfold SpecFloat.fexp, SpecFloat.emin in H1.
  assert (Hd : (Z.pos (SpecFloat.digits2_pos m) <= 53)%Z) by lia.
  split; [|lia].
  rewrite Digits.Zpos_digits2_pos in Hd.
  pose proof (Digits.Zdigits_correct radix2 (Z.pos m)) as [_ Hz].
  rewrite Z.abs_eq in Hz by lia.
  eapply Z.lt_le_trans; [exact Hz|].
  change (radix_val radix2) with 2%Z. apply Z.pow_le_mono_r; lia.
Qed.

Lemma normalize_exact z e s : (Z.abs z < 2 ^ 53)%Z -> (-1074 <= e <= 971)%Z ->
  let r := binary_normalize 53 1024 _ _ mode_NE z e s in
  is_finite r = true /\ B2R r = F2R (Float radix2 z e) /\
  Bsign r = match Rcompare (F2R (Float radix2 z e)) 0 with
            | Eq => s | Lt => true | Gt => false end.
Proof.
  intros Hz He r.
  pose proof (binary_normalize_correct 53 1024 _ _ mode_NE z e s) as H. cbv zeta in H.
  change (round_mode mode_NE) with ZnearestE in H.
  fold (rnd (F2R (Float radix2 z e))) in H.
  rewrite rnd_fmt in H by (apply fmt_F2R; lia).
  rewrite Rlt_bool_true in H; [tauto|].
  rewrite <- F2R_Zabs. apply Rlt_le_trans with (bpow radix2 (53 + e)).
  - rewrite bpow_plus. unfold F2R; simpl Fnum; simpl Fexp.
    apply Rmult_lt_compat_r; [apply bpow_gt_0|].
    rewrite <- IZR_Zpower by lia. apply IZR_lt. exact Hz.
  - apply bpow_le. lia.
Qed.

Lemma F2R_shift m e e' : (e' <= e)%Z ->
  F2R (Float radix2 m e) = F2R (Float radix2 (m * 2 ^ (e - e')) e').
Proof. intros H. now apply F2R_change_exp. Qed.

Lemma cond_Zopp_mul s a b : cond_Zopp s (a * b) = (cond_Zopp s a * b)%Z.
Proof. destruct s; simpl; lia. Qed.

(** Main fact about math.Mod on floats: for finite x and finite non-zero y there is an
    integer k with  fmod x y = x - k*y  exactly, |fmod x y| < |y|, same sign as x. *)
Lemma fmod_fin x y : is_finite x = true -> is_finite y = true -> B2R y <> 0 ->
  is_finite (fmod x y) = true /\ Bsign (fmod x y) = Bsign x /\
  Rabs (B2R (fmod x y)) < Rabs (B2R y) /\
  exists k : Z, B2R (fmod x y) = B2R x - IZR k * B2R y.
Proof.
  intros Hx Hy Hy0.
  destruct x as [sx|sx| |sx mx ex Bx]; try easy;
  destruct y as [sy|sy| |sy my ey By]; try easy; try (simpl in Hy0; lra).
  - (* x = ±0 *)
    unfold fmod. repeat split; auto.
    + simpl. rewrite Rabs_R0. now apply Rabs_pos_lt.
    + exists 0%Z. simpl. ring.
  - destruct (bounded_props _ _ Bx) as [Hmx Hex]. destruct (bounded_props _ _ By) as [Hmy Hey].
    unfold fmod.
    set (e := Z.min ex ey).
    set (zx := (Z.pos mx * 2 ^ (ex - e))%Z). set (zy := (Z.pos my * 2 ^ (ey - e))%Z).
    assert (Hpx : (0 < 2 ^ (ex - e))%Z) by (apply Z.pow_pos_nonneg; lia).
    assert (Hpy : (0 < 2 ^ (ey - e))%Z) by (apply Z.pow_pos_nonneg; lia).
    assert (Hzx : (0 < zx)%Z) by (unfold zx; nia).
    assert (Hzy : (0 < zy)%Z) by (unfold zy; nia).
    pose proof (Z.mod_pos_bound zx zy Hzy) as Hm.
    assert (Hmle : (zx mod zy <= zx)%Z) by (apply Z.mod_le; lia).
    assert (Hlt : (zx mod zy < 2 ^ 53)%Z).
    { destruct (Z.min_spec ex ey) as [[A B]|[A B]]; fold e in B.
      - assert (zx = Z.pos mx) by (unfold zx; rewrite B, Z.sub_diag, Z.pow_0_r; lia). lia.
      - assert (zy = Z.pos my) by (unfold zy; rewrite B, Z.sub_diag, Z.pow_0_r; lia). lia. }
    assert (Habs : (Z.abs (cond_Zopp sx (zx mod zy)) < 2 ^ 53)%Z)
      by (destruct sx; simpl; lia).
    destruct (normalize_exact (cond_Zopp sx (zx mod zy)) e sx Habs ltac:(lia)) as (R1 & R2 & R3).
    assert (Ex : B2R (B754_finite sx mx ex Bx) = F2R (Float radix2 (cond_Zopp sx zx) e)).
    { rewrite B2R_finite_F2R, (F2R_shift _ ex e) by lia. unfold zx. now rewrite cond_Zopp_mul. }
    assert (Ey : B2R (B754_finite sy my ey By) = F2R (Float radix2 (cond_Zopp sy zy) e)).
    { rewrite B2R_finite_F2R, (F2R_shift _ ey e) by lia. unfold zy. now rewrite cond_Zopp_mul. }
    split; [exact R1|]. split; [|split].
    + rewrite R3. simpl Bsign.
      destruct (Z.eq_dec (zx mod zy) 0) as [Z0|NZ].
      * rewrite Z0. replace (cond_Zopp sx 0) with 0%Z by (destruct sx; reflexivity).
        rewrite F2R_0, Rcompare_Eq; auto.
      * destruct sx; simpl cond_Zopp.
        -- rewrite Rcompare_Lt; auto. apply F2R_lt_0. simpl. lia.
        -- rewrite Rcompare_Gt; auto. apply F2R_gt_0. simpl. lia.
    + rewrite R2, Ey. rewrite <- !F2R_Zabs. apply F2R_lt.
      replace (Z.abs (cond_Zopp sx (zx mod zy))) with (zx mod zy)%Z by (destruct sx; simpl; lia).
      replace (Z.abs (cond_Zopp sy zy)) with zy by (destruct sy; simpl; lia). lia.
    + exists (cond_Zopp (xorb sx sy) (zx / zy)).
      rewrite R2, Ex, Ey. unfold F2R; simpl Fnum; simpl Fexp.
      assert (Hdm : IZR zx = IZR zy * IZR (zx / zy) + IZR (zx mod zy)).
      { rewrite <- mult_IZR, <- plus_IZR. f_equal. apply Z.div_mod. lia. }
      destruct sx, sy; simpl cond_Zopp; rewrite ?opp_IZR; rewrite Hdm; ring.
Qed.
