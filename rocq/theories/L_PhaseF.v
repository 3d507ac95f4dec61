(** Float-level facts about WrapPhase. *)
From Coq Require Import ZArith Reals Psatz Bool List.
From Flocq Require Import Core.Core IEEE754.BinarySingleNaN.
From Verif Require Import Num F64 L_F64 M_Core.
Open Scope R_scope.

Lemma B2R_of_B2SF (x : F) s m e : B2SF x = SpecFloat.S754_finite s m e ->
  is_finite x = true /\ B2R x = F2R (Float radix2 (cond_Zopp s (Z.pos m)) e).
Proof.
  intros H. destruct x; simpl in H; try discriminate.
  injection H as -> -> ->. split; reflexivity.
Qed.

(** The float value of 2*math.Pi. *)
Definition f2pi : F := fhalfpi 4.
Definition r2pi : R := F2R (Float radix2 7074237752028440 (-50)).
Lemma f2pi_fin : is_finite f2pi = true. Proof. vm_compute. reflexivity. Qed.
Lemma f2pi_val : B2R f2pi = r2pi.
Proof.
  assert (H : B2SF f2pi = SpecFloat.S754_finite false 7074237752028440 (-50)) by (vm_compute; reflexivity).
  apply B2R_of_B2SF in H. destruct H as [_ H]. exact H.
Qed.
Lemma r2pi_bounds : 628 / 100 < r2pi < 629 / 100.
Proof.
  unfold r2pi, F2R. simpl Fnum. simpl Fexp.
  change (bpow radix2 (-50)) with (/ IZR (2 ^ 50)). lra.
Qed.

Lemma bpow1023_big : 1000 <= bpow radix2 1023.
Proof. apply Rle_trans with (bpow radix2 10); [simpl; lra|apply bpow_le; lia]. Qed.

Section Wrap.
Context (tr : Trig).
Local Existing Instance FNum.
Notation wrap := (@WrapPhase F (FNum tr)).

Lemma wrap_unfold x : wrap x = fmod (fadd (fmod x f2pi) f2pi) f2pi.
Proof. reflexivity. Qed.

Lemma f2pi_nz : B2R f2pi <> 0.
Proof. rewrite f2pi_val. pose proof r2pi_bounds. lra. Qed.

(** The intermediate sum m + 2π. *)
Lemma wrap_mid m : is_finite m = true -> Rabs (B2R m) < r2pi ->
  let s := fadd m f2pi in
  is_finite s = true /\ B2R s = rnd (B2R m + r2pi) /\ Bsign s = false /\
  0 <= B2R s /\ B2R s <= 2 * r2pi.
Proof.
  intros Hm Hb s. apply Rabs_def2 in Hb. pose proof r2pi_bounds as Hp. pose proof bpow1023_big.
  assert (A : Rabs (B2R m + B2R f2pi) <= bpow radix2 1023).
  { rewrite f2pi_val. apply Rabs_le. lra. }
  destruct (fadd_fin m f2pi Hm f2pi_fin A) as [S1 S2]. fold s in S1, S2.
  rewrite f2pi_val in S2.
  repeat split; auto.
  - pose proof (Bplus_correct 53 1024 _ _ mode_NE m f2pi Hm f2pi_fin) as H'.
    two_way H'.
    + destruct H' as (_ & _ & H3). fold (fadd m f2pi) in H3. fold s in H3. rewrite H3.
      rewrite Rcompare_Gt; auto. rewrite f2pi_val. lra.
    + change (round_mode mode_NE) with ZnearestE in Hge.
      fold (rnd (B2R m + B2R f2pi)) in Hge. rewrite f2pi_val, <- S2 in Hge.
      pose proof (B2R_lt_BIG s).
      assert (Rabs (B2R s) < BIG) by (apply Rabs_def1; lra). unfold BIG in *. lra.
  - rewrite S2. apply rnd_ge_0. lra.
  - rewrite S2. apply rnd_le_fmt; [|lra].
    replace (2 * r2pi) with (F2R (Float radix2 7074237752028440 (-49))).
    + apply fmt_F2R; lia.
    + unfold r2pi, F2R; simpl Fnum; simpl Fexp.
      change (bpow radix2 (-49)) with (/ IZR (2 ^ 49)).
      change (bpow radix2 (-50)) with (/ IZR (2 ^ 50)). simpl. lra.
Qed.

Lemma rnd_err16 v : Rabs v < 16 -> Rabs (rnd v - v) <= bpow radix2 (-50).
Proof.
  intros Hv. unfold rnd.
  destruct (Req_dec v 0) as [->|Nz].
  { rewrite round_0 by auto with typeclass_instances. rewrite Rminus_0_r, Rabs_R0.
    apply bpow_ge_0. }
  eapply Rle_trans; [apply error_le_half_ulp; auto with typeclass_instances|].
  rewrite ulp_neq_0 by auto. unfold cexp.
  assert (M : (mag radix2 v <= 4)%Z).
  { apply mag_le_bpow; auto. }
  apply Rle_trans with (/ 2 * bpow radix2 (-49)).
  - apply Rmult_le_compat_l; [lra|]. apply bpow_le.
    unfold SpecFloat.fexp, SpecFloat.emin. lia.
  - change (bpow radix2 (-49)) with (/ IZR (2 ^ 49)).
    change (bpow radix2 (-50)) with (/ IZR (2 ^ 50)). simpl. lra.
Qed.

Lemma wrap_spec x : is_finite x = true ->
  is_finite (wrap x) = true /\ Bsign (wrap x) = false /\
  0 <= B2R (wrap x) < r2pi /\
  exists k : Z, Rabs (B2R (wrap x) - (B2R x - IZR k * r2pi)) <= bpow radix2 (-50).
Proof.
  intros Hx. rewrite wrap_unfold.
  destruct (fmod_fin x f2pi Hx f2pi_fin f2pi_nz) as (M1 & M2 & M3 & k & M4).
  set (m := fmod x f2pi) in *. rewrite f2pi_val in M3, M4.
  pose proof r2pi_bounds as Hp. rewrite (Rabs_right r2pi) in M3 by lra.
  destruct (wrap_mid m M1 M3) as (S1 & S2 & S3 & S4 & S5).
  set (s := fadd m f2pi) in *.
  destruct (fmod_fin s f2pi S1 f2pi_fin f2pi_nz) as (R1 & R2 & R3 & k' & R4).
  set (r := fmod s f2pi) in *. rewrite f2pi_val in R3, R4.
  rewrite (Rabs_right r2pi) in R3 by lra.
  rewrite S3 in R2. pose proof (Bsign_false_ge r R1 R2) as R0.
  apply Rabs_def2 in R3.
  repeat split; auto; try lra.
  exists (k + k' - 1)%Z. rewrite R4, S2.
  rewrite minus_IZR, plus_IZR.
  replace (rnd (B2R m + r2pi) - IZR k' * r2pi - (B2R x - (IZR k + IZR k' - 1) * r2pi))
    with (rnd (B2R m + r2pi) - (B2R m + r2pi)) by (rewrite M4; ring).
  apply rnd_err16. apply Rabs_def2 in M3. apply Rabs_def1; lra.
Qed.

(** math.Mod is the identity on [0,2π). *)
Lemma fmod_small y : is_finite y = true -> Bsign y = false -> B2R y < r2pi -> fmod y f2pi = y.
Proof.
  intros Hy Hs Hlt. pose proof r2pi_bounds as Hp.
  destruct (fmod_fin y f2pi Hy f2pi_fin f2pi_nz) as (M1 & M2 & M3 & k & M4).
  rewrite f2pi_val in M3, M4. rewrite (Rabs_right r2pi) in M3 by lra.
  apply B2R_Bsign_inj; auto.
  pose proof (Bsign_false_ge y Hy Hs) as H0.
  rewrite Hs in M2. pose proof (Bsign_false_ge _ M1 M2) as H1. apply Rabs_def2 in M3.
  assert (k = 0)%Z as ->.
  { assert (-1 < IZR k < 1) as [A B] by nra.
    apply lt_IZR in A. apply lt_IZR in B. lia. }
  rewrite M4. simpl. ring.
Qed.

Lemma wrap_range_stable y : is_finite y = true -> Bsign y = false -> B2R y < r2pi ->
  wrap (wrap y) = wrap y.
Proof.
  intros Hy Hs Hlt. pose proof r2pi_bounds as Hp.
  destruct (wrap_spec y Hy) as (W1 & W2 & W3 & _).
  pose proof (Bsign_false_ge y Hy Hs) as Hy0.
  assert (E1 : wrap y = fmod (fadd y f2pi) f2pi).
  { rewrite wrap_unfold, (fmod_small y); auto. }
  assert (E2 : wrap (wrap y) = fmod (fadd (wrap y) f2pi) f2pi).
  { rewrite (wrap_unfold (wrap y)), (fmod_small (wrap y)); auto; lra. }
  rewrite E2.
  destruct (wrap_mid y Hy) as (S1 & S2 & S3 & S4 & S5); [apply Rabs_def1; lra|].
  set (s := fadd y f2pi) in *.
  assert (Slo : r2pi <= B2R s).
  { rewrite S2. apply rnd_ge_fmt; [|lra]. rewrite <- f2pi_val. apply fmt_B2R. }
  destruct (fmod_fin s f2pi S1 f2pi_fin f2pi_nz) as (R1 & R2 & R3 & k & R4).
  rewrite <- E1 in R1, R2, R3, R4. rewrite f2pi_val in R3, R4.
  destruct (wrap_mid (wrap y) W1) as (T1 & T2 & T3 & T4 & T5); [apply Rabs_def1; lra|].
  (* k = 1 or k = 2 *)
  assert (Hk : (k = 1 \/ k = 2)%Z).
  { assert (0 < IZR k < 3) as [A B] by nra.
    apply lt_IZR in A. apply lt_IZR in B. lia. }
  destruct Hk as [-> | ->].
  - assert (E : fadd (wrap y) f2pi = s).
    { apply B2R_Bsign_inj; auto; [|congruence].
      rewrite T2, R4. replace (B2R s - 1 * r2pi + r2pi) with (B2R s) by ring.
      apply rnd_fmt, fmt_B2R. }
    rewrite E. symmetry. exact E1.
  - assert (Z0 : B2R (wrap y) = 0) by lra.
    assert (E : fadd (wrap y) f2pi = f2pi).
    { apply B2R_Bsign_inj; auto using f2pi_fin.
      - rewrite T2, Z0, Rplus_0_l, f2pi_val.
        apply rnd_fmt. rewrite <- f2pi_val. apply fmt_B2R. }
    rewrite E.
    destruct (fmod_fin f2pi f2pi f2pi_fin f2pi_fin f2pi_nz) as (Q1 & Q2 & Q3 & q & Q4).
    apply B2R_Bsign_inj; auto.
Qed.

Lemma wrap_thrice x : is_finite x = true -> wrap (wrap (wrap x)) = wrap (wrap x).
Proof.
  intros Hx. destruct (wrap_spec x Hx) as (W1 & W2 & W3 & _).
  apply wrap_range_stable; auto; lra.
Qed.

Lemma wrap_nan x : is_finite x = false -> wrap x = fnan.
Proof. destruct x as [s|s| |s m e H]; intros E; try discriminate; reflexivity. Qed.

End Wrap.
