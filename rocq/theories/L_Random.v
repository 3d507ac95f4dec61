(** Lemmas about M_Random (float level and integers). *)
From Coq Require Import ZArith Reals Psatz Bool List.
From Flocq Require Import Core.Core IEEE754.BinarySingleNaN.
From Verif Require Import Num F64 L_F64 L_PhaseF L_F64x L_State M_Random.
Import ListNotations.
Open Scope R_scope.

Section Rand.
Context (tr : Trig).
Notation rf := (@Float64 F (FNum tr)).
Notation rp := (@RandPhase F (FNum tr)).

Lemma Float64_unfold b : rf b = fdiv (fofZ (b mod 2 ^ 53)) (fofZ (2 ^ 53)).
Proof. reflexivity. Qed.
Lemma RandPhase_unfold b : rp b = fmul (fmul (rf b) (fofZ 2)) (fhalfpi 2).
Proof. reflexivity. Qed.

Lemma u_range b : (0 <= b mod 2 ^ 53 < 2 ^ 53)%Z.
Proof. apply Z.mod_pos_bound. lia. Qed.

Lemma fmt_dyadic u e : (Z.abs u <= 2 ^ 53)%Z -> (0 <= e <= 1074)%Z -> fmt (IZR u / IZR (2 ^ e)).
Proof.
  intros Hu He. replace (IZR u / IZR (2 ^ e)) with (F2R (Float radix2 u (- e))).
  - apply fmt_F2R; lia.
  - unfold F2R. cbn [Fnum Fexp]. rewrite bpow_opp, <- IZR_Zpower by lia. reflexivity.
Qed.

Lemma Float64_exact b : is_finite (rf b) = true /\ B2R (rf b) = IZR (b mod 2 ^ 53) / IZR (2 ^ 53).
Proof.
  pose proof (u_range b) as U. rewrite Float64_unfold. set (u := (b mod 2 ^ 53)%Z) in *.
  destruct (fofZ_fin u ltac:(lia)) as [A1 B1]. destruct (fofZ_fin (2 ^ 53) ltac:(lia)) as [A2 B2].
  assert (P : 0 < IZR (2 ^ 53)) by (apply IZR_lt; lia).
  assert (L : 0 <= IZR u < IZR (2 ^ 53)) by (split; [apply IZR_le|apply IZR_lt]; lia).
  assert (Q : 0 <= IZR u / IZR (2 ^ 53) < 1).
  { split; [apply Rmult_le_pos; [lra|left; now apply Rinv_0_lt_compat]|].
    apply Rmult_lt_reg_r with (IZR (2 ^ 53)); auto. unfold Rdiv. rewrite Rmult_assoc, Rinv_l; lra. }
  destruct (fdiv_fin (fofZ u) (fofZ (2 ^ 53)) A1 A2) as [C D]; rewrite ?B1, ?B2; try lra.
  - rewrite Rabs_right by lra. pose proof bpow1023_big. lra.
  - split; auto. rewrite D, B1, B2. apply rnd_fmt. apply fmt_dyadic; lia.
Qed.

Lemma Float64_unit b : is_finite (rf b) = true /\ 0 <= B2R (rf b) < 1.
Proof.
  destruct (Float64_exact b) as [A B]. split; auto. rewrite B. pose proof (u_range b) as U.
  set (u := (b mod 2 ^ 53)%Z) in *.
  assert (P : 0 < IZR (2 ^ 53)) by (apply IZR_lt; lia).
  assert (L : 0 <= IZR u < IZR (2 ^ 53)) by (split; [apply IZR_le|apply IZR_lt]; lia).
  split; [apply Rmult_le_pos; [lra|left; now apply Rinv_0_lt_compat]|].
  apply Rmult_lt_reg_r with (IZR (2 ^ 53)); auto. unfold Rdiv. rewrite Rmult_assoc, Rinv_l; lra.
Qed.

Lemma twice_exact b : is_finite (fmul (rf b) (fofZ 2)) = true /\
  B2R (fmul (rf b) (fofZ 2)) = IZR (b mod 2 ^ 53) / IZR (2 ^ 52).
Proof.
  destruct (Float64_exact b) as [A B]. destruct (Float64_unit b) as [_ U].
  destruct (fofZ_fin 2 ltac:(lia)) as [A2 B2].
  pose proof (u_range b) as UR.
  assert (E : B2R (rf b) * 2 = IZR (b mod 2 ^ 53) / IZR (2 ^ 52)).
  { rewrite B. change (2 ^ 53)%Z with (2 ^ 52 * 2)%Z at 2. rewrite mult_IZR. field. apply IZR_neq. lia. }
  destruct (fmul_fin (rf b) (fofZ 2) A A2) as [C D].
  - rewrite B2, Rabs_right by lra. pose proof bpow1023_big. lra.
  - split; auto. rewrite D, B2, E. apply rnd_fmt. apply fmt_dyadic; lia.
Qed.

Lemma fmul_sign_false x y : is_finite x = true -> is_finite y = true -> Bsign x = false -> Bsign y = false ->
  is_finite (fmul x y) = true -> Bsign (fmul x y) = false.
Proof.
  intros Hx Hy Sx Sy Hf. unfold fmul in *.
  pose proof (Bmult_correct 53 1024 _ _ mode_NE x y) as H. two_way H.
  - destruct H as (_ & _ & H). rewrite H, Sx, Sy; auto. now destruct (Bmult mode_NE x y).
  - rewrite Sx, Sy in H. simpl in H. apply B2SF_inf in H. rewrite H in Hf. discriminate.
Qed.

(** The product is monotone in the draw, so its extreme is the one at 2^53-1. *)
Lemma mul_pi_mono b : is_finite (rp b) = true /\ 0 <= B2R (rp b) <= B2R (rp (2 ^ 53 - 1)).
Proof.
  assert (G : forall b, is_finite (rp b) = true /\
              B2R (rp b) = rnd (IZR (b mod 2 ^ 53) / IZR (2 ^ 52) * (r2pi / 2))).
  { intros c. rewrite RandPhase_unfold. destruct (twice_exact c) as [A B].
    destruct fpi_val as [A2 B2]. pose proof r2pi_bounds as HP. pose proof (u_range c) as U.
    assert (P : 0 < IZR (2 ^ 52)) by (apply IZR_lt; lia).
    assert (L : 0 <= IZR (c mod 2 ^ 53) / IZR (2 ^ 52) <= 2).
    { split; [apply Rmult_le_pos; [apply IZR_le; lia|left; now apply Rinv_0_lt_compat]|].
      apply Rmult_le_reg_r with (IZR (2 ^ 52)); auto.
      unfold Rdiv. rewrite Rmult_assoc, Rinv_l, Rmult_1_r by lra. rewrite <- mult_IZR. apply IZR_le. lia. }
    destruct (fmul_fin (fmul (rf c) (fofZ 2)) (fhalfpi 2) A A2) as [C D].
    { rewrite B, B2, Rabs_right by nra. pose proof bpow1023_big. nra. }
    split; auto. now rewrite D, B, B2. }
  destruct (G b) as [A B]. destruct (G (2 ^ 53 - 1)%Z) as [_ B'].
  split; auto. rewrite B, B'. pose proof r2pi_bounds as HP. pose proof (u_range b) as U.
  assert (P : 0 < / IZR (2 ^ 52)) by (apply Rinv_0_lt_compat, IZR_lt; lia).
  assert (0 <= IZR (b mod 2 ^ 53) / IZR (2 ^ 52)).
  { apply Rmult_le_pos; [apply IZR_le; lia|lra]. }
  split; [apply rnd_ge_0; nra|]. apply rnd_le. apply Rmult_le_compat_r; [lra|].
  apply Rmult_le_compat_r; [lra|]. apply IZR_le. rewrite (Z.mod_small (2 ^ 53 - 1)); lia.
Qed.

(** The largest phase is 2*math.Pi minus one ulp. *)
Lemma RandPhase_spec b : is_finite (rp b) = true /\ 0 <= B2R (rp b) <= r2pi - bpow radix2 (-50).
Proof.
  destruct (mul_pi_mono b) as [A B]. split; auto. split; [lra|].
  assert (H : B2SF (rp (2 ^ 53 - 1)) = SpecFloat.S754_finite false 7074237752028439 (-50)) by (vm_compute; reflexivity).
  apply B2R_of_B2SF in H. destruct H as [_ H]. rewrite H in B.
  unfold r2pi, F2R in *. cbn [Fnum Fexp cond_Zopp] in *.
  change (bpow radix2 (-50)) with (/ IZR (2 ^ 50)) in *. lra.
Qed.

Lemma bpow50_pos : 0 < bpow radix2 (-50). Proof. apply bpow_gt_0. Qed.
Lemma RandPhase_ok b : phase_ok (rp b).
Proof. destruct (RandPhase_spec b) as [A B]. pose proof bpow50_pos. split; auto; lra. Qed.
End Rand.

(** Intn. *)
Lemma intn_limit_lt n : (2 <= n <= maxInt31)%Z -> (2 ^ 30 <= intnLimit n <= maxInt31)%Z.
Proof.
  intros H. unfold intnLimit, maxInt31 in *. set (M := (2 ^ 31 - 1)%Z) in *.
  pose proof (Z.div_mod M n ltac:(lia)) as E. pose proof (Z.mod_pos_bound M n ltac:(lia)) as B.
  assert (Q : (1 <= M / n)%Z) by (apply Z.div_le_lower_bound; lia).
  assert (n <= M / n * n)%Z by nia. change (2 ^ 31 - 1)%Z with 2147483647%Z in *. lia.
Qed.

Lemma intn_preimage n k v : (2 <= n <= maxInt31)%Z -> (0 <= v < 2 ^ 31)%Z ->
  (intnLoop n [v] = IntnVal k <-> (0 <= k < n)%Z /\ exists j, (0 <= j < maxInt31 / n)%Z /\ v = (k + n * j)%Z).
Proof.
  intros Hn Hv. cbn [intnLoop]. unfold Int31n. rewrite (Z.mod_small v) by lia.
  unfold intnLimit. pose proof (Z.mod_pos_bound v n ltac:(lia)) as B.
  pose proof (Z.div_mod v n ltac:(lia)) as E. set (q := (maxInt31 / n)%Z).
  destruct (Z.ltb_spec v (q * n)) as [L|L].
  - split.
    + intros [= <-]. split; auto. exists (v / n)%Z. split; [|lia].
      split; [apply Z.div_pos; lia|]. apply Z.div_lt_upper_bound; lia.
    + intros (Hk & j & Hj & ->). f_equal. rewrite Z.mul_comm, Z.mod_add by lia. apply Z.mod_small. lia.
  - split; [discriminate|]. intros (Hk & j & Hj & ->). exfalso. nia.
Qed.

Lemma intn_loop_range n bs k : (2 <= n <= maxInt31)%Z -> intnLoop n bs = IntnVal k -> (0 <= k < n)%Z.
Proof.
  intros Hn. induction bs as [|b r IH]; simpl; [discriminate|].
  destruct (Int31n b <? intnLimit n)%Z; [|exact IH].
  intros [= <-]. apply Z.mod_pos_bound. lia.
Qed.
Lemma intn_range n bs k : Intn n bs = IntnVal k -> (0 <= k < n)%Z.
Proof.
  unfold Intn. destruct (Z.leb_spec n 0); [discriminate|].
  destruct (Z.leb_spec n 1); [intros [= <-]; lia|].
  destruct (Z.leb_spec n maxInt31); [|discriminate]. apply intn_loop_range. lia.
Qed.
Lemma intn_loop_nopanic n bs : intnLoop n bs <> IntnPanic.
Proof. induction bs as [|b r IH]; simpl; [discriminate|]. destruct (_ <? _)%Z; [discriminate|auto]. Qed.
Lemma intn_panic_iff n bs : Intn n bs = IntnPanic <-> (n <= 0 \/ n > 2 ^ 31 - 1)%Z.
Proof.
  unfold Intn. destruct (Z.leb_spec n 0); [split; auto; lia|].
  destruct (Z.leb_spec n 1); [split; [discriminate|lia]|].
  unfold maxInt31 at 1. destruct (Z.leb_spec n (2 ^ 31 - 1)); [|split; auto; lia].
  split; [intros E; now apply intn_loop_nopanic in E|lia].
Qed.
