(** Error analysis: rounding errors, sums, square roots; correctly rounded functions exist. *)
From Coq Require Import ZArith Reals Psatz Bool List Lia Machin.
From Flocq Require Import Core.Core IEEE754.BinarySingleNaN.
From Flocq.Prop Require Import Mult_error Relative.
From Verif Require Import Num F64 RealNum S_Circle S_Sync S_Acc L_F64 L_F64x L_Circle L_PhaseF L_F64x P_Converge.
Import ListNotations.
Open Scope R_scope.

Definition u53 : R := / 9007199254740992.
Definition tiny : R := bpow radix2 (-1075).
Lemma u53_bpow : u53 = bpow radix2 (-53). Proof. reflexivity. Qed.
Lemma tiny_pos : 0 < tiny. Proof. apply bpow_gt_0. Qed.
Lemma tiny_small : tiny <= / 2 ^ 200.
Proof.
  unfold tiny. replace (/ 2 ^ 200) with (bpow radix2 (-200)); [apply bpow_le; lia|].
  rewrite bpow_powerRZ. change (IZR radix2) with 2. change (powerRZ 2 (-200)) with (/ 2 ^ 200). reflexivity.
Qed.
(** Half an ulp: relative 2^-53, or 2^-1075 among the subnormals. *)
Lemma rnd_abs x : Rabs (rnd x - x) <= u53 * Rabs x + tiny.
Proof.
  destruct (error_N_FLT radix2 (-1074) 53 ltac:(lia) (fun z => negb (Z.even z)) x) as (eps & eta & He & Ht & _ & E).
  unfold rnd. change fexp64 with (FLT_exp (-1074) 53). rewrite E.
  replace (x * (1 + eps) + eta - x) with (x * eps + eta) by ring.
  eapply Rle_trans; [apply Rabs_triang|]. apply Rplus_le_compat.
  - rewrite Rabs_mult, Rmult_comm. apply Rmult_le_compat_r; [apply Rabs_pos|]. rewrite u53_bpow. change (/ 2 * bpow radix2 (- (53) + 1)) with (/ 2 * bpow radix2 (-52)) in He. replace (bpow radix2 (-53)) with (/ 2 * bpow radix2 (-52)); auto.
    change (-52)%Z with (1 + -53)%Z. rewrite bpow_plus. simpl (bpow radix2 1). lra.
  - unfold tiny. replace (bpow radix2 (-1075)) with (/ 2 * bpow radix2 (-1074)); auto.
    change (-1074)%Z with (1 + -1075)%Z. rewrite bpow_plus. simpl (bpow radix2 1). lra.
Qed.
(** [x] is finite and within [e] of [r]. *)
Definition ap (x : F) (r e : R) : Prop := is_finite x = true /\ Rabs (B2R x - r) <= e.
Lemma ap_weak x r e e' : ap x r e -> e <= e' -> ap x r e'.
Proof. intros [A B] H. split; [exact A|lra]. Qed.
Lemma ap_exact x : is_finite x = true -> ap x (B2R x) 0.
Proof. intros H. split; [exact H|]. rewrite Rminus_diag_eq, Rabs_R0 by reflexivity. lra. Qed.
Lemma ap_mag x r e : ap x r e -> Rabs (B2R x) <= Rabs r + e.
Proof. intros [_ B]. replace (B2R x) with (r + (B2R x - r)) by ring. eapply Rle_trans; [apply Rabs_triang|]. lra. Qed.
Lemma ap_Z k : (Z.abs k <= 2 ^ 53)%Z -> ap (fofZ k) (IZR k) 0.
Proof. intros H. destruct (fofZ_fin k H) as [A B]. rewrite <- B. now apply ap_exact. Qed.
Lemma big1023 : 2 ^ 500 <= bpow radix2 1023.
Proof. replace (2 ^ 500) with (bpow radix2 500); [apply bpow_le; lia|]. rewrite bpow_powerRZ. change (IZR radix2) with 2. reflexivity. Qed.
Section Ops.
Variables (x y : F) (r s e f M : R).
Hypothesis Hx : ap x r e.
Hypothesis Hy : ap y s f.
Hypothesis HM : 0 <= M <= 2 ^ 400.
Lemma ap_add : Rabs (r + s) + e + f <= M -> ap (fadd x y) (r + s) (e + f + u53 * M + tiny).
Proof using All.
  intros B. destruct Hx as [Fx Ex], Hy as [Fy Ey].
  assert (D : Rabs (B2R x + B2R y - (r + s)) <= e + f).
  { replace (B2R x + B2R y - (r + s)) with ((B2R x - r) + (B2R y - s)) by ring. eapply Rle_trans; [apply Rabs_triang|]. lra. }
  assert (K : Rabs (B2R x + B2R y) <= M).
  { replace (B2R x + B2R y) with ((r + s) + (B2R x + B2R y - (r + s))) by ring. eapply Rle_trans; [apply Rabs_triang|]. lra. }
  assert (L : (2 ^ 400 <= 2 ^ 500)%R) by (apply Rle_pow; [lra|lia]). pose proof big1023.
  destruct (fadd_fin x y Fx Fy) as [Fz Ez]; [lra|]. split; [exact Fz|]. rewrite Ez.
  pose proof (rnd_abs (B2R x + B2R y)) as RA. set (q := B2R x + B2R y) in *.
  replace (rnd q - (r + s)) with ((rnd q - q) + (q - (r + s))) by ring. eapply Rle_trans; [apply Rabs_triang|].
  assert (u53 * Rabs q <= u53 * M) by (apply Rmult_le_compat_l; [unfold u53; lra|exact K]). lra.
Qed.
Lemma ap_sub : Rabs (r - s) + e + f <= M -> ap (fsub x y) (r - s) (e + f + u53 * M + tiny).
Proof using All.
  intros B. destruct Hx as [Fx Ex], Hy as [Fy Ey].
  assert (D : Rabs (B2R x - B2R y - (r - s)) <= e + f).
  { replace (B2R x - B2R y - (r - s)) with ((B2R x - r) + - (B2R y - s)) by ring. eapply Rle_trans; [apply Rabs_triang|]. rewrite Rabs_Ropp. lra. }
  assert (K : Rabs (B2R x - B2R y) <= M).
  { replace (B2R x - B2R y) with ((r - s) + (B2R x - B2R y - (r - s))) by ring. eapply Rle_trans; [apply Rabs_triang|]. lra. }
  assert (L : (2 ^ 400 <= 2 ^ 500)%R) by (apply Rle_pow; [lra|lia]). pose proof big1023.
  destruct (fsub_fin x y Fx Fy) as [Fz Ez]; [lra|]. split; [exact Fz|]. rewrite Ez.
  pose proof (rnd_abs (B2R x - B2R y)) as RA. set (q := B2R x - B2R y) in *.
  replace (rnd q - (r - s)) with ((rnd q - q) + (q - (r - s))) by ring. eapply Rle_trans; [apply Rabs_triang|].
  assert (u53 * Rabs q <= u53 * M) by (apply Rmult_le_compat_l; [unfold u53; lra|exact K]). lra.
Qed.
Lemma ap_mul : 0 <= e -> 0 <= f -> (Rabs r + e) * (Rabs s + f) <= M -> ap (fmul x y) (r * s) (Rabs r * f + e * Rabs s + e * f + u53 * M + tiny).
Proof using All.
  intros He Hf B. pose proof (ap_mag _ _ _ Hx) as Mx. pose proof (ap_mag _ _ _ Hy) as My. destruct Hx as [Fx Ex], Hy as [Fy Ey].
  assert (D : Rabs (B2R x * B2R y - r * s) <= Rabs r * f + e * Rabs s + e * f).
  { replace (B2R x * B2R y - r * s) with (r * (B2R y - s) + (B2R x - r) * s + (B2R x - r) * (B2R y - s)) by ring.
    eapply Rle_trans; [apply Rabs_triang|]. apply Rplus_le_compat; [eapply Rle_trans; [apply Rabs_triang|]; apply Rplus_le_compat|]; rewrite Rabs_mult.
    - apply Rmult_le_compat_l; [apply Rabs_pos|exact Ey].
    - apply Rmult_le_compat_r; [apply Rabs_pos|exact Ex].
    - apply Rmult_le_compat; auto; apply Rabs_pos. }
  assert (K : Rabs (B2R x * B2R y) <= M).
  { rewrite Rabs_mult. eapply Rle_trans; [|exact B]. apply Rmult_le_compat; auto; apply Rabs_pos. }
  assert (L : (2 ^ 400 <= 2 ^ 500)%R) by (apply Rle_pow; [lra|lia]). pose proof big1023.
  destruct (fmul_fin x y Fx Fy) as [Fz Ez]; [lra|]. split; [exact Fz|]. rewrite Ez.
  pose proof (rnd_abs (B2R x * B2R y)) as RA. set (q := B2R x * B2R y) in *.
  replace (rnd q - r * s) with ((rnd q - q) + (q - r * s)) by ring. eapply Rle_trans; [apply Rabs_triang|].
  assert (u53 * Rabs q <= u53 * M) by (apply Rmult_le_compat_l; [unfold u53; lra|exact K]). lra.
Qed.
End Ops.
(** Division by an exactly known number. *)
Lemma ap_div x y r e M : ap x r e -> is_finite y = true -> B2R y <> 0 -> 0 <= M <= 2 ^ 400 -> (Rabs r + e) / Rabs (B2R y) <= M ->
  ap (fdiv x y) (r / B2R y) (e / Rabs (B2R y) + u53 * M + tiny).
Proof.
  intros Hx Fy Ny HM B. pose proof (ap_mag _ _ _ Hx) as Mx. destruct Hx as [Fx Ex]. assert (Py : 0 < Rabs (B2R y)) by now apply Rabs_pos_lt.
  assert (D : Rabs (B2R x / B2R y - r / B2R y) <= e / Rabs (B2R y)).
  { replace (B2R x / B2R y - r / B2R y) with ((B2R x - r) * / B2R y) by (field; auto). rewrite Rabs_mult, Rabs_inv. unfold Rdiv. apply Rmult_le_compat_r; [left; now apply Rinv_0_lt_compat|exact Ex]. }
  assert (K : Rabs (B2R x / B2R y) <= M).
  { eapply Rle_trans; [|exact B]. unfold Rdiv. rewrite Rabs_mult, Rabs_inv. apply Rmult_le_compat_r; [left; now apply Rinv_0_lt_compat|exact Mx]. }
  assert (L : (2 ^ 400 <= 2 ^ 500)%R) by (apply Rle_pow; [lra|lia]). pose proof big1023.
  destruct (fdiv_fin x y Fx Fy Ny) as [Fz Ez]; [lra|]. split; [exact Fz|]. rewrite Ez.
  pose proof (rnd_abs (B2R x / B2R y)) as RA. set (q := B2R x / B2R y) in *.
  replace (rnd q - r / B2R y) with ((rnd q - q) + (q - r / B2R y)) by ring. eapply Rle_trans; [apply Rabs_triang|].
  assert (u53 * Rabs q <= u53 * M) by (apply Rmult_le_compat_l; [unfold u53; lra|exact K]). lra.
Qed.
Lemma fsqrt_fin x : is_finite x = true -> 0 <= B2R x -> is_finite (fsqrt x) = true /\ B2R (fsqrt x) = rnd (sqrt (B2R x)).
Proof.
  intros Fx Px. unfold fsqrt. destruct (Bsqrt_correct 53 1024 _ _ mode_NE x) as (V & Fq & _). split; [|exact V]. rewrite Fq.
  destruct x as [s|s| |s m e H]; try reflexivity; try discriminate. destruct s; [|reflexivity].
  exfalso. simpl in Px. assert (F2R (Float radix2 (Z.neg m) e) < 0) by (apply F2R_lt_0; simpl; lia). change (cond_Zopp true (Z.pos m)) with (Z.neg m) in Px. lra.
Qed.

(** ** Correctly rounded functions *)
Definition roundF (x : R) : F :=
  binary_normalize 53 1024 eq_refl eq_refl mode_NE (ZnearestE (scaled_mantissa radix2 fexp64 x)) (cexp radix2 fexp64 x) false.
Lemma roundF_val x : Rabs x <= 2 ^ 400 -> is_finite (roundF x) = true /\ B2R (roundF x) = rnd x.
Proof.
  intros Hx. unfold roundF. pose proof (binary_normalize_correct 53 1024 eq_refl eq_refl mode_NE (ZnearestE (scaled_mantissa radix2 fexp64 x)) (cexp radix2 fexp64 x) false) as C.
  change (F2R (Float radix2 (ZnearestE (scaled_mantissa radix2 fexp64 x)) (cexp radix2 fexp64 x))) with (rnd x) in C.
  change (round_mode mode_NE) with ZnearestE in C. cbv zeta in C. rewrite (rnd_fmt (rnd x) (fmt_rnd x) : round radix2 fexp64 ZnearestE (rnd x) = rnd x) in C. rewrite Rlt_bool_true in C; [destruct C as (A & B & _); auto|].
  pose proof (rnd_abs x) as E. pose proof tiny_small as T. assert (0 < / 2 ^ 200 < 1).
  { split; [apply Rinv_0_lt_compat, pow_lt; lra|]. rewrite <- Rinv_1. apply Rinv_lt_contravar; [rewrite Rmult_1_l; apply pow_lt; lra|]. apply Rlt_pow_R1; [lra|lia]. }
  assert (M : Rabs (rnd x) <= 2 * 2 ^ 400 + 1).
  { replace (rnd x) with (x + (rnd x - x)) by ring. eapply Rle_trans; [apply Rabs_triang|]. pose proof (Rabs_pos x). unfold u53 in E. lra. }
  eapply Rle_lt_trans; [exact M|]. assert (2 ^ 402 < bpow radix2 1024).
  { replace (2 ^ 402) with (bpow radix2 402); [apply bpow_lt; lia|]. rewrite bpow_powerRZ. reflexivity. }
  replace (2 ^ 402) with (4 * 2 ^ 400) in * by (change 402%nat with (2 + 400)%nat; rewrite pow_add; lra).
  assert (1 <= 2 ^ 400) by (apply pow_R1_Rle; lra). lra.
Qed.
Definition fpi : R := B2R (fhalfpi 2).
Definition clamp (b x : R) : R := Rmax (- b) (Rmin b x).
Definition crTrig : Trig := {| tsin := fun x => roundF (sin (B2R x)); tcos := fun x => roundF (cos (B2R x)); texp := fun x => roundF (exp (B2R x));
  tatan2 := fun y x => roundF (clamp fpi (Ratan2 (B2R y) (B2R x))) |}.

Lemma PI_bounds : 314159265358979323 / 10 ^ 17 < PI < 314159265358979324 / 10 ^ 17.
Proof.
  pose proof (PI_2_3_7_ineq 9) as H.
  cbn [sum_f_R0 Nat.mul Nat.add] in H. unfold tg_alt, PI_2_3_7_tg, Ratan_seq in H.
  cbn [Nat.mul Nat.add] in H. rewrite ?INR_IZR_INZ in H. cbn [Z.of_nat Pos.of_succ_nat Pos.succ] in H.
  lra.
Qed.
(** The float PI is below PI by about 1.2e-16. *)
Lemma fpi_near : 0 < PI - fpi < / 2 ^ 52.
Proof.
  pose proof PI_bounds. unfold fpi. rewrite (proj2 fpi_val). unfold r2pi, F2R. cbn [Fnum Fexp]. change (bpow radix2 (-50)) with (/ IZR (2 ^ 50)).
  replace (2 ^ 52) with (IZR (2 ^ 52)) by (rewrite pow_IZR; reflexivity). lra.
Qed.
Lemma pow_Z n : 2 ^ n = IZR (2 ^ Z.of_nat n).
Proof. now rewrite pow_IZR. Qed.
Lemma tiny_60 : tiny < / 2 ^ 60.
Proof. eapply Rle_lt_trans; [exact tiny_small|]. apply Rinv_lt_contravar; [apply Rmult_lt_0_compat; apply pow_lt; lra|]. apply Rlt_pow; [lra|lia]. Qed.
Lemma small400 x : Rabs x <= 1024 -> Rabs x <= 2 ^ 400.
Proof. intros H. eapply Rle_trans; [exact H|]. replace 1024 with (2 ^ 10) by lra. apply Rle_pow; [lra|lia]. Qed.
Lemma fmt_fpi : fmt fpi. Proof. apply fmt_B2R. Qed.
Theorem cr_sane : trig_sane crTrig.
Proof.
  assert (U : forall r, -1 <= r <= 1 -> is_finite (roundF r) = true /\ Rabs (B2R (roundF r)) <= 1).
  { intros r Hr. destruct (roundF_val r) as [A B]; [apply small400, Rabs_le; lra|]. split; [exact A|]. rewrite B. apply Rabs_le. split.
    - apply rnd_ge_fmt; [apply (fmt_IZR (-1)); lia|lra].
    - apply rnd_le_fmt; [apply (fmt_IZR 1); lia|lra]. }
  split; intros; cbn [tsin tcos tatan2 crTrig].
  - apply U, SIN_bound.
  - apply U, COS_bound.
  - set (t := Ratan2 _ _). fold fpi. pose proof PI_bounds. pose proof fpi_near as FN. assert (0 < / 2 ^ 52 < 1) by (rewrite pow_Z; split; [apply Rinv_0_lt_compat, IZR_lt; lia|]; simpl; lra).
    assert (C : - fpi <= clamp fpi t <= fpi) by (unfold clamp, Rmax, Rmin; repeat destruct (Rle_dec _ _); lra).
    destruct (roundF_val (clamp fpi t)) as [A B]; [apply small400, Rabs_le; lra|]. split; [exact A|]. rewrite B. apply Rabs_le. split.
    + apply rnd_ge_fmt; [apply fmt_opp, fmt_fpi|lra].
    + apply rnd_le_fmt; [apply fmt_fpi|lra].
Qed.
Theorem cr_acc : trig_acc crTrig (/ 2 ^ 51).
Proof.
  pose proof tiny_60 as T6. rewrite pow_Z in *. cbn [Z.of_nat Pos.of_succ_nat Pos.succ] in *.
  assert (U : forall r, -1 <= r <= 1 -> Rabs (B2R (roundF r) - r) <= / IZR (2 ^ 51)).
  { intros r Hr. assert (AR : Rabs r <= 1) by (apply Rabs_le; lra). destruct (roundF_val r) as [A B]; [apply small400; lra|]. rewrite B. pose proof (rnd_abs r) as E. unfold u53 in E. simpl in *. lra. }
  split; intros; cbn [tsin tcos tatan2 crTrig].
  - apply U, SIN_bound.
  - apply U, COS_bound.
  - destruct (Ratan2_dir (B2R y) (B2R x)) as (r & _ & Ht & _). set (t := Ratan2 _ _) in *. exists t. split; [exists 0%Z; lra|]. split; [apply Rabs_le; lra|].
    pose proof PI_bounds. pose proof fpi_near as FN. rewrite pow_Z in FN. cbn [Z.of_nat Pos.of_succ_nat Pos.succ] in FN. simpl in FN, T6.
    assert (C : - fpi <= clamp fpi t <= fpi) by (unfold clamp, Rmax, Rmin; repeat destruct (Rle_dec _ _); lra).
    assert (D : Rabs (clamp fpi t - t) <= PI - fpi) by (apply Rabs_le; unfold clamp, Rmax, Rmin; repeat destruct (Rle_dec _ _); lra).
    assert (AC : Rabs (clamp fpi t) <= 4) by (apply Rabs_le; lra).
    destruct (roundF_val (clamp fpi t)) as [A B]; [apply small400; lra|]. rewrite B. pose proof (rnd_abs (clamp fpi t)) as E. unfold u53 in E. set (c := clamp fpi t) in *.
    replace (rnd c - t) with ((rnd c - c) + (c - t)) by ring. eapply Rle_trans; [apply Rabs_triang|]. simpl. lra.
Qed.

(** At 0 the correctly rounded functions have their documented special values. *)
Lemma roundF_Z k : (0 <= k <= 1)%Z -> roundF (IZR k) = fofZ k.
Proof.
  intros Hk. assert (B : Rabs (IZR k) <= 1024) by (rewrite Rabs_pos_eq; [apply (IZR_le k 1024); lia|apply (IZR_le 0); lia]).
  destruct (roundF_val (IZR k) (small400 _ B)) as [Fr Vr]. destruct (fofZ_fin k ltac:(lia)) as [Fz Vz]. rewrite (rnd_fmt (IZR k)) in Vr by (apply fmt_IZR; lia).
  apply B2R_Bsign_inj; auto; [congruence|].
  assert (Sz : Bsign (fofZ k) = false) by (assert (k = 0 \/ k = 1)%Z as [-> | ->] by lia; reflexivity). rewrite Sz.
  pose proof (binary_normalize_correct 53 1024 eq_refl eq_refl mode_NE (ZnearestE (scaled_mantissa radix2 fexp64 (IZR k))) (cexp radix2 fexp64 (IZR k)) false) as C.
  change (F2R (Float radix2 (ZnearestE (scaled_mantissa radix2 fexp64 (IZR k))) (cexp radix2 fexp64 (IZR k)))) with (rnd (IZR k)) in C.
  change (round_mode mode_NE) with ZnearestE in C. cbv zeta in C. change (round radix2 fexp64 ZnearestE (rnd (IZR k))) with (rnd (rnd (IZR k))) in C.
  rewrite !(rnd_fmt (IZR k)) in C by (apply fmt_IZR; lia). rewrite Rlt_bool_true in C.
  - destruct C as (_ & _ & C). unfold roundF. rewrite C. destruct (Rcompare_spec (IZR k) 0); auto. exfalso. assert (0 <= IZR k) by (apply (IZR_le 0); lia). lra.
  - eapply Rle_lt_trans; [exact B|]. replace 1024 with (bpow radix2 10) by (simpl; lra). apply bpow_lt. lia.
Qed.
Theorem cr_zero : trig_zero crTrig.
Proof.
  destruct (fofZ_fin 0 ltac:(lia)) as [F0 V0]. destruct (fofZ_fin 1 ltac:(lia)) as [F1 V1].
  split; cbn [tsin tcos tatan2 crTrig].
  - rewrite V0, sin_0. apply (roundF_Z 0). lia.
  - rewrite V0, cos_0. apply (roundF_Z 1). lia.
  - rewrite V0, V1. unfold Ratan2. rewrite Rlt_bool_true by lra. replace (0 / 1) with 0 by field. rewrite atan_0.
    pose proof fpi_near. pose proof PI_bounds. assert (/ 2 ^ 52 < 1) by (rewrite pow_Z; cbn; lra).
    replace (clamp fpi 0) with 0; [apply (roundF_Z 0); lia|]. unfold clamp. rewrite Rmin_right, Rmax_right by lra. reflexivity.
Qed.

(** ** Sums *)
Lemma tiny_le_u : tiny <= u53 * u53.
Proof. rewrite u53_bpow, <- bpow_plus. apply bpow_le. lia. Qed.
Lemma tiny_u1000 : tiny <= u53 / 1000.
Proof. pose proof tiny_le_u. assert (u53 * u53 <= u53 * / 1000) by (apply Rmult_le_compat_l; unfold u53; lra). lra. Qed.
(** A running sum of numbers of size at most [b], each within [e] of the exact ones. *)
Lemma sum_accB {A} (f : A -> F) (g : A -> R) e (b : Z) l : 0 <= e -> (1 <= b)%Z ->
  (forall x, In x l -> is_finite (f x) = true /\ Rabs (B2R (f x)) <= IZR b /\ Rabs (B2R (f x) - g x) <= e) ->
  forall a k S E, is_finite a = true -> Rabs (B2R a) <= IZR k -> (0 <= k)%Z -> (k + b * Z.of_nat (length l) <= 2 ^ 53)%Z -> Rabs (B2R a - S) <= E ->
  let z := fold_left (fun s x => fadd s (f x)) l a in let n := (k + b * Z.of_nat (length l))%Z in
  is_finite z = true /\ Rabs (B2R z) <= IZR n /\ Rabs (B2R z - (S + fold_right (fun x s => g x + s) 0 l)) <= E + IZR (Z.of_nat (length l)) * (e + 2 * u53 * IZR n).
Proof.
  intros He Hb. induction l as [|x l IH]; intros H a k S E Fa Ba Hk Hn HE; cbn [fold_left fold_right length].
  - split; [exact Fa|]. split; [now rewrite Z.mul_0_r, Z.add_0_r|]. replace (S + 0) with S by ring. simpl. lra.
  - destruct (H x (or_introl eq_refl)) as (Fx & Bx & Ex). cbn [length] in Hn.
    assert (Hk1 : IZR (k + b) = IZR k + IZR b) by (rewrite plus_IZR; reflexivity).
    assert (Bs : Rabs (B2R a + B2R (f x)) <= IZR (k + b)) by (eapply Rle_trans; [apply Rabs_triang|]; lra).
    assert (BIGk : IZR (k + b) <= bpow radix2 1023). { apply Rle_trans with (IZR (2 ^ 53)); [apply IZR_le; nia|]. apply (bpow1023_ge 53). lia. }
    destruct (fadd_fin a (f x) Fa Fx) as [F1 V1]; [lra|].
    assert (B1 : Rabs (B2R (fadd a (f x))) <= IZR (k + b)).
    { rewrite V1. apply Rabs_le_inv in Bs. apply Rabs_le. split; [apply rnd_ge_fmt; [apply fmt_opp, fmt_IZR; nia|lra]|apply rnd_le_fmt; [apply fmt_IZR; nia|lra]]. }
    pose proof (rnd_abs (B2R a + B2R (f x))) as RA. rewrite <- V1 in RA.
    set (n := (k + b * Z.of_nat (Datatypes.S (length l)))%Z) in *.
    assert (K1 : 1 <= IZR n) by (apply (IZR_le 1); unfold n; nia).
    assert (K2 : IZR (k + b) <= IZR n) by (apply IZR_le; unfold n; nia).
    assert (R1 : Rabs (B2R (fadd a (f x)) - (B2R a + B2R (f x))) <= 2 * u53 * IZR n).
    { eapply Rle_trans; [exact RA|]. pose proof tiny_le_u. assert (0 < u53) by (unfold u53; lra). assert (u53 < 1) by (unfold u53; lra).
      assert (u53 * Rabs (B2R a + B2R (f x)) <= u53 * IZR n) by (apply Rmult_le_compat_l; lra). assert (u53 * u53 <= u53 * IZR n) by (apply Rmult_le_compat_l; lra). lra. }
    destruct (IH (fun y Hy => H y (or_intror Hy)) (fadd a (f x)) (k + b)%Z (S + g x) (E + e + 2 * u53 * IZR n) F1 B1 ltac:(lia) ltac:(lia)) as (A1 & B & C).
    { replace (B2R (fadd a (f x)) - (S + g x)) with ((B2R (fadd a (f x)) - (B2R a + B2R (f x))) + ((B2R a - S) + (B2R (f x) - g x))) by ring.
      eapply Rle_trans; [apply Rabs_triang|]. pose proof (Rabs_triang (B2R a - S) (B2R (f x) - g x)). lra. }
    replace (k + b + b * Z.of_nat (length l))%Z with n in * by (unfold n; lia).
    split; [exact A1|]. split; [exact B|]. replace (S + (g x + fold_right (fun x0 s => g x0 + s) 0 l)) with (S + g x + fold_right (fun x0 s => g x0 + s) 0 l) by ring.
    eapply Rle_trans; [exact C|]. rewrite Nat2Z.inj_succ, succ_IZR. lra.
Qed.
Lemma sum_acc (f : F -> F) (g : F -> R) e l : 0 <= e ->
  (forall x, In x l -> is_finite (f x) = true /\ Rabs (B2R (f x)) <= 1 /\ Rabs (B2R (f x) - g x) <= e) ->
  forall a k S E, is_finite a = true -> Rabs (B2R a) <= IZR k -> (0 <= k)%Z -> (k + Z.of_nat (length l) <= 2 ^ 53)%Z -> Rabs (B2R a - S) <= E ->
  let z := fold_left (fun s x => fadd s (f x)) l a in let n := (k + Z.of_nat (length l))%Z in
  is_finite z = true /\ Rabs (B2R z) <= IZR n /\ Rabs (B2R z - (S + fold_right (fun x s => g x + s) 0 l)) <= E + IZR (Z.of_nat (length l)) * (e + 2 * u53 * IZR n).
Proof. intros He H a k S E Fa Ba Hk Hn HE. pose proof (sum_accB f g e 1 l He ltac:(lia) H a k S E Fa Ba Hk) as X. rewrite Z.mul_1_l in X. exact (X Hn HE). Qed.

(** ** Directions *)
Lemma atan_le x : 0 <= x -> 0 <= atan x <= x.
Proof.
  intros Hx. destruct (Req_dec x 0) as [->|Nx]; [rewrite atan_0; lra|].
  destruct (MVT_cor2 atan (fun c => / (1 + c * c)) 0 x ltac:(lra)) as (c & E & Hc).
  { intros c _. pose proof (derivable_pt_lim_atan c) as D. unfold Rsqr in D. replace (c * c) with (c ^ 2) by ring. exact D. }
  rewrite atan_0 in E. assert (I : 0 < / (1 + c * c) <= 1).
  { assert (0 <= c * c) by nra. split; [apply Rinv_0_lt_compat; lra|]. rewrite <- Rinv_1 at 2. apply Rinv_le_contravar; lra. }
  set (i := / (1 + c * c)) in *. split; nra.
Qed.
Lemma atan_abs x : Rabs (atan x) <= Rabs x.
Proof.
  destruct (Rle_dec 0 x) as [H|H].
  - pose proof (atan_le x H). rewrite !Rabs_pos_eq; lra.
  - pose proof (atan_le (- x) ltac:(lra)) as A. rewrite atan_opp in A. rewrite <- (Rabs_Ropp (atan x)), <- (Rabs_Ropp x), !Rabs_pos_eq; lra.
Qed.
Lemma abs_comb a b d e : Rabs a <= e -> Rabs b <= e -> Rabs (a * cos d + b * sin d) <= 2 * e.
Proof.
  intros A B. assert (C : Rabs (cos d) <= 1) by (apply Rabs_le; pose proof (COS_bound d); lra). assert (S : Rabs (sin d) <= 1) by (apply Rabs_le; pose proof (SIN_bound d); lra).
  eapply Rle_trans; [apply Rabs_triang|]. rewrite !Rabs_mult. pose proof (Rabs_pos a). pose proof (Rabs_pos b). pose proof (Rabs_pos (cos d)). pose proof (Rabs_pos (sin d)). nra.
Qed.
(** A vector close to one of length [rho] has nearly its direction. *)
Lemma dir_acc y x rho d e : 0 < rho -> 4 * e <= rho -> Rabs (y - rho * sin d) <= e -> Rabs (x - rho * cos d) <= e ->
  (y <> 0 \/ x <> 0) /\ exists t, Rabs t <= 4 * e / rho /\ cong (Ratan2 y x) (d + t).
Proof.
  intros Hr He Hy Hx. destruct (Ratan2_dir y x) as (r & Pr & Ht & Ex & Ey). set (th := Ratan2 y x) in *.
  destruct (cong_rep_pi (th - d)) as (t & Tt & Ct).
  pose proof (sin2_cos2 d) as SC. unfold Rsqr in SC.
  assert (A : Rabs (r * sin t) <= 2 * e).
  { replace (r * sin t) with ((y - rho * sin d) * cos d + - (x - rho * cos d) * sin d).
    - apply abs_comb; [exact Hy|now rewrite Rabs_Ropp].
    - rewrite <- (cong_sin _ _ Ct), sin_minus. rewrite Ex at 1. rewrite Ey at 1. ring. }
  assert (B : r * cos t >= rho / 2).
  { replace (r * cos t) with (rho + ((x - rho * cos d) * cos d + (y - rho * sin d) * sin d)).
    - pose proof (abs_comb _ _ d e Hx Hy) as Q. apply Rabs_le_inv in Q. lra.
    - rewrite <- (cong_cos _ _ Ct), cos_minus. rewrite Ex at 1. rewrite Ey at 1.
      replace (rho + ((r * cos th - rho * cos d) * cos d + (r * sin th - rho * sin d) * sin d)) with (rho * (1 - (sin d * sin d + cos d * cos d)) + r * (cos th * cos d + sin th * sin d)) by ring.
      rewrite SC. ring. }
  assert (Rp : 0 < r). { destruct (Req_dec r 0) as [R0|]; [rewrite R0 in B; lra|lra]. }
  split.
  - destruct (Req_dec y 0) as [Y0|]; [|now left]. right. intros X0. pose proof (sin2_cos2 th) as S2. unfold Rsqr in S2.
    assert (r * r * (sin th * sin th + cos th * cos th) = 0) by (replace (r * r * (sin th * sin th + cos th * cos th)) with ((r * sin th) * (r * sin th) + (r * cos th) * (r * cos th)) by ring; rewrite <- Ex, <- Ey, X0, Y0; ring). nra.
  - exists t. split; [|destruct Ct as [k Ck]; exists k; lra].
    rewrite <- (Ratan2_polar r t Rp Tt). unfold Ratan2. rewrite Rlt_bool_true by lra. eapply Rle_trans; [apply atan_abs|].
    unfold Rdiv. rewrite Rabs_mult, Rabs_inv, (Rabs_pos_eq (r * cos t)) by lra.
    apply Rle_trans with (2 * e * / (rho / 2)).
    + apply Rmult_le_compat; [apply Rabs_pos|left; apply Rinv_0_lt_compat; lra|exact A|]. apply Rinv_le_contravar; lra.
    + right. field. lra.
Qed.
(** Nearly the same difference gives nearly the same arc. *)
Lemma arc_near a b d r del (k : Z) : is_arc a b d -> Rabs r <= PI -> Rabs (r - (a - b) - IZR k * (2 * PI)) <= del -> Rabs (Rabs r - d) <= del.
Proof.
  intros Hd Hr H. destruct Hd as [[k0 K0] Min]. pose proof (Min k) as M1.
  assert (E1 : d <= Rabs r + del).
  { eapply Rle_trans; [exact M1|]. replace (a - b + IZR k * (2 * PI)) with (r - (r - (a - b) - IZR k * (2 * PI))) by ring.
    unfold Rminus at 1. eapply Rle_trans; [apply Rabs_triang|]. rewrite Rabs_Ropp. lra. }
  assert (E2 : Rabs r <= d + del).
  { assert (AR : is_arc r 0 (Rabs r)) by (apply is_arc_of_rep; [now apply Rabs_le_inv|exists 0%Z; lra]). destruct AR as [_ MR].
    eapply Rle_trans; [apply (MR (k0 - k)%Z)|]. rewrite minus_IZR.
    replace (r - 0 + (IZR k0 - IZR k) * (2 * PI)) with ((a - b + IZR k0 * (2 * PI)) + (r - (a - b) - IZR k * (2 * PI))) by ring.
    eapply Rle_trans; [apply Rabs_triang|]. rewrite <- K0. lra. }
  apply Rabs_le. lra.
Qed.
