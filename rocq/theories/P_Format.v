(** Property theorems C80: the printed numbers, percentages and times. *)
From Coq Require Import ZArith Reals Psatz Bool List String Ascii Lia.
From Flocq Require Import Core.Core IEEE754.BinarySingleNaN.
From Verif Require Import Num F64 RealNum M_Core M_GoalConfig M_Display M_Format S_Format L_F64 L_F64x L_Ford L_Acc L_Format.
Import ListNotations.
Open Scope Z_scope.

Section WithTrig.
Variable tr : Trig.
#[local] Instance NF : Num F := FNum tr.

(** ** Numbers *)
(** What is printed reads back as the nearest number with that many places; between two it is the even one. *)
Theorem C80_nearest : forall p x, is_finite x = true -> exists k, readDec (fmtF p x) = Some (k, p) /\
  (Rabs (IZR k - B2R x * IZR (10 ^ Z.of_nat p)) <= / 2)%R /\
  (Rabs (IZR k - B2R x * IZR (10 ^ Z.of_nat p)) = / 2 -> Z.even k = true)%R.
Proof.
  intros p x FX. set (y := (B2R x * IZR (10 ^ Z.of_nat p))%R). exists (ZnearestE y). split; [now apply fmtF_read|]. split.
  - rewrite Rabs_minus_sym. apply Znearest_half.
  - intros H. unfold Znearest. rewrite Rabs_minus_sym in H. revert H. unfold Znearest.
    assert (FB := Zfloor_lb y). assert (FU := Zfloor_ub y).
    destruct (Rcompare_spec (y - IZR (Zfloor y)) (/ 2)) as [L|E|G]; intros H.
    + rewrite Rabs_pos_eq in H; lra.
    + destruct (Z.even (Zfloor y)) eqn:EV; [exact EV|]. cbn [negb]. rewrite Zceil_floor_neq by (intros K; rewrite K in E; lra). rewrite Z.even_add, EV. reflexivity.
    + rewrite Zceil_floor_neq in H by lra. rewrite plus_IZR in H. rewrite Rabs_left in H; lra.
Qed.
Theorem C80_monotone : forall p x y k k', is_finite x = true -> is_finite y = true -> (B2R x <= B2R y)%R ->
  readDec (fmtF p x) = Some (k, p) -> readDec (fmtF p y) = Some (k', p) -> k <= k'.
Proof.
  intros p x y k k' FX FY H. rewrite !fmtF_read by assumption. intros [= <-] [= <-]. apply (Zrnd_le ZnearestE). apply Rmult_le_compat_r; [apply IZR_le, Z.pow_nonneg; lia|exact H].
Qed.
(** Only finite values look like numbers. *)
Theorem C80_unreadable : forall p x, readDec (fmtF p x) = None <-> is_finite x = false.
Proof.
  intros p x. split.
  - intros H. destruct (is_finite x) eqn:E; [|reflexivity]. now rewrite fmtF_read in H.
  - destruct x as [|[]| |]; try discriminate; reflexivity.
Qed.
Theorem C80_integer : forall z, 0 <= z -> readDec (dec z) = Some (z, O).
Proof. intros z H. destruct (fixed_read 0 z H) as [A B]. now apply pos_read. Qed.
Example C80_numbers_example : fmtF 2 (flit 2675 1000) = "2.67"%string /\ fmtF 0 (flit 5 2) = "2"%string /\ fmtF 1 (flit (-149) 10) = "-14.9"%string /\
  fmtF 3 (flit 1 20) = "0.050"%string /\ dec 9223372036 = "9223372036"%string /\ readDec "-14.9" = Some (-149, 1%nat) /\ readDec "1.2.3" = None /\ readDec "" = None.
Proof. repeat split; vm_compute; reflexivity. Qed.

(** ** Percentages *)
Lemma x100_fin c : is_finite c = true -> (0 <= B2R c <= 1)%R -> is_finite (fmul c (fofZ 100)) = true /\ (0 <= B2R (fmul c (fofZ 100)) <= 100)%R /\
  (Rabs (B2R (fmul c (fofZ 100)) - B2R c * 100) <= / 2 ^ 46)%R.
Proof.
  intros FC B. destruct (fofZ_fin 100 ltac:(lia)) as [F1 V1].
  assert (M : (0 <= B2R c * B2R (fofZ 100) <= 100)%R) by (rewrite V1; nra).
  assert (BG := big1023). assert ((100 <= 2 ^ 500)%R) by (apply Rle_trans with (2 ^ 7)%R; [lra|apply Rle_pow; [lra|lia]]).
  destruct (fmul_fin c (fofZ 100) FC F1) as [A E]; [rewrite Rabs_pos_eq by lra; lra|]. split; [exact A|]. rewrite E. split.
  - split; [apply rnd_ge_0; lra|]. apply rnd_le_fmt; [|lra]. apply (fmt_IZR 100). lia.
  - rewrite <- V1. eapply Rle_trans; [apply rnd_abs|]. rewrite Rabs_pos_eq by lra. assert (T := tiny_60). unfold u53.
    assert ((/ 2 ^ 53 * (B2R c * B2R (fofZ 100)) <= / 2 ^ 53 * 100)%R) by (apply Rmult_le_compat_l; [lra|lra]). lra.
Qed.
(** The percentage of a coherence is between 0 and 100 and off by no more than half of its last digit. *)
Theorem C80_percent : forall p c, is_finite c = true -> (0 <= B2R c <= 1)%R -> exists k, readDec (percentText p c) = Some (k, p) /\
  0 <= k <= 100 * 10 ^ Z.of_nat p /\ (Rabs (IZR k / IZR (10 ^ Z.of_nat p) - 100 * B2R c) <= / 2 / IZR (10 ^ Z.of_nat p) + / 2 ^ 46)%R.
Proof.
  intros p c FC B. destruct (x100_fin c FC B) as (A & M & E). set (x := fmul c (fofZ 100)) in *.
  assert (P : (0 < IZR (10 ^ Z.of_nat p))%R) by (apply IZR_lt, Z.pow_pos_nonneg; lia). set (q := IZR (10 ^ Z.of_nat p)) in *.
  exists (ZnearestE (B2R x * q)). split; [unfold percentText; change (nmul c (nofZ 100)) with x; now apply fmtF_read|]. split.
  - split.
    + rewrite <- (Zrnd_IZR ZnearestE 0). apply (Zrnd_le ZnearestE). apply Rmult_le_pos; lra.
    + rewrite <- (Zrnd_IZR ZnearestE (100 * _)). apply (Zrnd_le ZnearestE). rewrite mult_IZR. fold q. apply Rmult_le_compat_r; lra.
  - assert (H := Znearest_half (fun z => negb (Z.even z)) (B2R x * q)). set (k := ZnearestE (B2R x * q)) in *.
    replace (IZR k / q - 100 * B2R c)%R with ((IZR k - B2R x * q) / q + (B2R x - B2R c * 100))%R by (field; lra).
    eapply Rle_trans; [apply Rabs_triang|]. apply Rplus_le_compat; [|exact E]. unfold Rdiv. rewrite Rabs_mult, (Rabs_pos_eq (/ q)) by (left; now apply Rinv_0_lt_compat).
    apply Rmult_le_compat_r; [left; now apply Rinv_0_lt_compat|]. now rewrite Rabs_minus_sym.
Qed.
(** The gauge cuts the percentage off, the panel beside it rounds: they differ by at most one, and do differ. *)
Theorem C80_gauge : forall c k, is_finite c = true -> (0 <= B2R c <= 1)%R -> readDec (percentText 0 c) = Some (k, 0%nat) ->
  percentOf c <= k <= percentOf c + 1.
Proof.
  intros c k FC B. destruct (x100_fin c FC B) as (A & M & _). unfold percentText, percentOf. change (nmul c (nofZ 100)) with (fmul c (fofZ 100)). set (x := fmul c (fofZ 100)) in *.
  rewrite fmtF_read by exact A. change (10 ^ Z.of_nat 0) with 1. rewrite Rmult_1_r. intros [= <-]. change (ntrunc x) with (ftrunc x).
  assert (T : ftrunc x = Zfloor (B2R x)).
  { assert (TF : Ztrunc (B2R x) = Zfloor (B2R x)) by (apply Ztrunc_floor; lra). rewrite <- TF. apply ftrunc_spec; [exact A|]. rewrite TF. split.
    - apply Z.le_trans with 0; [lia|]. apply Zfloor_lub. lra.
    - apply Z.le_lt_trans with 100; [|lia]. rewrite <- (Zfloor_IZR 100). apply Zfloor_le. lra. }
  rewrite T. unfold Znearest. assert (C := le_IZR (Zfloor (B2R x)) (Zceil (B2R x))). assert (U := Zceil_ub (B2R x)). assert (L := Zfloor_lb (B2R x)).
  assert (Zfloor (B2R x) <= Zceil (B2R x)) by (apply C; lra).
  assert (Zceil (B2R x) <= Zfloor (B2R x) + 1) by (apply Zceil_glb; rewrite plus_IZR; assert (X := Zfloor_ub (B2R x)); lra).
  destruct (Rcompare _ _); [destruct (negb _)| |]; lia.
Qed.
Theorem C80_gauge_refuted : exists c, is_finite c = true /\ fle n0 c = true /\ fle c n1 = true /\ percentText 0 c = "100"%string /\ percentOf c = 99.
Proof. exists (flit 996 1000). repeat split; vm_compute; reflexivity. Qed.
(** "90%" beside the words for a coherence below 0.9 (display.go:1242-1250). *)
Theorem C80_word_refuted : exists c, percentText 0 c = "90"%string /\ metricsColor MinimizeAPICalls false c [] = CYellow /\
  exists c', percentText 0 c' = "90"%string /\ metricsColor MinimizeAPICalls false c' [] = CGreen.
Proof. exists (flit 898 1000). split; [vm_compute; reflexivity|]. split; [vm_compute; reflexivity|]. exists (flit 9 10). split; vm_compute; reflexivity. Qed.

(** ** Times *)
Section Unit.
Variable u : Z.
Hypothesis Hu : 0 < u <= 2 ^ 53.
Let inU (d : Z) : F := fadd (fofZ (Z.quot d u)) (fdiv (fofZ (Z.rem d u)) (fofZ u)).
Lemma part_fin r : 0 <= r < u -> is_finite (fdiv (fofZ r) (fofZ u)) = true /\ B2R (fdiv (fofZ r) (fofZ u)) = rnd (IZR r / IZR u) /\ (0 <= rnd (IZR r / IZR u) <= 1)%R.
Proof.
  intros H. assert (U : (0 < IZR u)%R) by (apply IZR_lt; lia). destruct (fofZ_fin r ltac:(lia)) as [F1 V1]. destruct (fofZ_fin u ltac:(lia)) as [F2 V2].
  assert (Q : (0 <= IZR r / IZR u <= 1)%R).
  { split; [apply Rmult_le_pos; [apply IZR_le; lia|left; now apply Rinv_0_lt_compat]|]. apply Rmult_le_reg_r with (IZR u); [exact U|]. unfold Rdiv. rewrite Rmult_assoc, Rinv_l, Rmult_1_r, Rmult_1_l by lra. apply IZR_le. lia. }
  assert (BG := big1023). assert ((1 <= 2 ^ 500)%R) by (apply pow_R1_Rle; lra).
  destruct (fdiv_fin (fofZ r) (fofZ u) F1 F2) as [A E]; [rewrite V2; lra|rewrite V1, V2, Rabs_pos_eq; lra|].
  rewrite V1, V2 in E. split; [exact A|]. split; [exact E|]. split; [now apply rnd_ge_0|]. apply rnd_le_fmt; [|lra]. apply (fmt_IZR 1). lia.
Qed.
Lemma inU_fin d : 0 <= d < 2 ^ 63 -> d / u + 1 <= 2 ^ 53 -> is_finite (inU d) = true /\ B2R (inU d) = rnd (IZR (d / u) + rnd (IZR (d mod u) / IZR u)).
Proof.
  intros H K. unfold inU. rewrite Z.quot_div_nonneg, Z.rem_mod_nonneg by lia. assert (M := Z.mod_pos_bound d u ltac:(lia)). assert (D : 0 <= d / u) by (apply Z.div_pos; lia).
  destruct (part_fin _ M) as (F1 & V1 & B1). destruct (fofZ_fin (d / u) ltac:(lia)) as [F2 V2].
  destruct (fadd_fin _ _ F2 F1) as [A E].
  - rewrite V1, V2. assert (X : (IZR (d / u) <= 2 ^ 53)%R) by (rewrite (pow_Z 53); apply IZR_le; cbn; lia). assert (BG := big1023). assert ((2 ^ 53 + 1 <= 2 ^ 500)%R) by (apply Rle_trans with (2 ^ 54)%R; [lra|apply Rle_pow; [lra|lia]]).
    assert (0 <= IZR (d / u))%R by (apply IZR_le; lia). rewrite Rabs_pos_eq; lra.
  - split; [exact A|]. now rewrite E, V1, V2.
Qed.
Lemma inU_acc d : 0 <= d < 2 ^ 63 -> d / u + 1 <= 2 ^ 53 -> (0 <= B2R (inU d))%R /\ (Rabs (B2R (inU d) - IZR d / IZR u) <= / 2 ^ 53 * (IZR d / IZR u) + 3 * / 2 ^ 53)%R.
Proof.
  intros H K. destruct (inU_fin d H K) as [_ E]. rewrite E. assert (U : (0 < IZR u)%R) by (apply IZR_lt; lia).
  assert (M := Z.mod_pos_bound d u ltac:(lia)). assert (D : 0 <= d / u) by (apply Z.div_pos; lia). destruct (part_fin _ M) as (_ & _ & B1).
  assert (D' : (0 <= IZR (d / u))%R) by (apply IZR_le; lia).
  assert (EQ : (IZR d / IZR u = IZR (d / u) + IZR (d mod u) / IZR u)%R).
  { rewrite (Z.div_mod d u) at 1 by lia. rewrite plus_IZR, mult_IZR. field. lra. }
  assert (Q : (0 <= IZR (d mod u) / IZR u <= 1)%R).
  { split; [apply Rmult_le_pos; [apply IZR_le; lia|left; now apply Rinv_0_lt_compat]|]. apply Rmult_le_reg_r with (IZR u); [exact U|]. unfold Rdiv. rewrite Rmult_assoc, Rinv_l, Rmult_1_r, Rmult_1_l by lra. apply IZR_le. lia. }
  set (q := (IZR (d mod u) / IZR u)%R) in *. set (n := IZR (d / u)) in *. split; [apply rnd_ge_0; lra|]. rewrite EQ.
  assert (R1 := rnd_abs q). rewrite (Rabs_pos_eq q) in R1 by lra. assert (R2 := rnd_abs (n + rnd q)). rewrite (Rabs_pos_eq (n + rnd q)) in R2 by lra.
  replace (rnd (n + rnd q) - (n + q))%R with ((rnd (n + rnd q) - (n + rnd q)) + (rnd q - q))%R by ring. eapply Rle_trans; [apply Rabs_triang|].
  assert (T := tiny_le_u). assert (UE : u53 = (/ 2 ^ 53)%R) by (unfold u53; lra). apply Rabs_le_inv in R1. set (w := (/ 2 ^ 53)%R) in *. assert (0 < w < / 1000)%R by (unfold w; lra). rewrite UE in *.
  assert (w * w <= w * / 1000)%R by nra. assert (Rabs (rnd q - q) <= w * q + tiny)%R by (apply Rabs_le; lra).
  assert (w * (n + rnd q) <= w * (n + q) + w * (w * q + tiny))%R by nra. assert (tiny <= w / 1000)%R by lra. assert (w * q <= w)%R by nra. assert (w * (w * q + tiny) <= w / 100)%R by nra. lra.
Qed.
Lemma inU_mono d d' : 0 <= d <= d' -> d' < 2 ^ 63 -> d' / u + 1 <= 2 ^ 53 -> (B2R (inU d) <= B2R (inU d'))%R.
Proof.
  intros H H' K. assert (DD : d / u <= d' / u) by (apply Z.div_le_mono; lia).
  destruct (inU_fin d ltac:(lia) ltac:(lia)) as [_ E]. destruct (inU_fin d' ltac:(lia) K) as [_ E']. rewrite E, E'.
  assert (U : (0 < IZR u)%R) by (apply IZR_lt; lia).
  assert (M := Z.mod_pos_bound d u ltac:(lia)). assert (M' := Z.mod_pos_bound d' u ltac:(lia)). destruct (part_fin _ M) as (_ & _ & B1). destruct (part_fin _ M') as (_ & _ & B1').
  apply rnd_le. destruct (Z.eq_dec (d / u) (d' / u)) as [Q|Q].
  - rewrite Q. apply Rplus_le_compat_l. apply rnd_le. apply Rmult_le_compat_r; [left; now apply Rinv_0_lt_compat|]. apply IZR_le. rewrite !Z.mod_eq by lia. rewrite Q. lia.
  - assert (L : d / u + 1 <= d' / u) by lia. apply IZR_le in L. rewrite plus_IZR in L. lra.
Qed.
Lemma inU_exact k : 0 <= k -> k * u < 2 ^ 63 -> k + 1 <= 2 ^ 53 -> B2R (inU (k * u)) = IZR k.
Proof.
  intros H1 H2 H3. destruct (inU_fin (k * u)) as [_ E]; [nia|rewrite Z.div_mul; lia|]. rewrite E, Z.div_mul, Z.mod_mul by lia.
  unfold Rdiv. rewrite Rmult_0_l, rnd_0, Rplus_0_r. apply rnd_fmt, fmt_IZR. lia.
Qed.
End Unit.
Lemma split_last s : forall c d r, splitLast c (s ++ String d "") = (String c s, d) /\ (s = r -> True).
Proof. induction s as [|e s IH]; intros c d r; cbn; [auto|]. split; [|auto]. now rewrite (proj1 (IH e d EmptyString)). Qed.
Lemma read_unit s k p d : readDec s = Some (k, p) -> readDuration (s ++ String d "") =
  if Ascii.eqb d "s" then Some (k, p, 1000000000) else if Ascii.eqb d "m" then Some (k, p, 60000000000) else None.
Proof.
  intros H. destruct s as [|c s]; [discriminate H|]. cbn [append readDuration]. rewrite (proj1 (split_last s c d EmptyString)). now rewrite H.
Qed.
Lemma fin_sec d : 0 <= d < 2 ^ 63 -> d / 1000000000 + 1 <= 2 ^ 53. Proof. intros H. assert (d / 1000000000 <= 2 ^ 63 / 1000000000) by (apply Z.div_le_mono; lia). change (2 ^ 63 / 1000000000) with 9223372036 in *. lia. Qed.
Lemma fin_min d : 0 <= d < 2 ^ 63 -> d / 60000000000 + 1 <= 2 ^ 53. Proof. intros H. assert (d / 60000000000 <= 2 ^ 63 / 60000000000) by (apply Z.div_le_mono; lia). change (2 ^ 63 / 60000000000) with 153722867 in *. lia. Qed.
(** Reading numbers padded with zeros. *)
Lemma pad_dec w z : 0 <= z -> readDec (pad w (dec z)) = Some (z, 0%nat).
Proof.
  intros H. destruct (dec_read z "" H) as (n & N1 & _ & _ & N4 & N5 & N6 & N7). rewrite app_nil in N5, N6, N7. unfold pad. apply pos_read.
  - assert (G : readFrom 0 None (zeros (w - String.length (dec z)) ++ dec z) = Some (z, 0%nat)) by (rewrite zeros_read; cbn [bump]; rewrite Z.mul_0_l, N7; reflexivity).
    unfold readUnsigned. destruct (zeros (w - String.length (dec z)) ++ dec z)%string eqn:E; [|exact G].
    destruct (w - String.length (dec z))%nat; [now elim N6|discriminate E].
  - intros c r. destruct (w - String.length (dec z))%nat; [apply N5|]. intros [= <- _]. reflexivity.
Qed.
Lemma fmt0_nonneg x : is_finite x = true -> (0 <= B2R x)%R -> Bsign x = false -> exists z, 0 <= z /\ fmtF 0 x = dec z /\ z = ZnearestE (B2R x).
Proof.
  intros A B S. assert (Z0 : 0 <= ZnearestE (B2R x)) by (rewrite <- (Zrnd_IZR ZnearestE 0); now apply (Zrnd_le ZnearestE)).
  exists (ZnearestE (B2R x)). split; [exact Z0|]. split; [|reflexivity].
  destruct x as [s|s| |s m e H]; try discriminate; cbn in S; subst s.
  - cbn [fmtF fixed append B2R]. now rewrite (Zrnd_IZR ZnearestE 0).
  - cbn [fmtF fixed append]. rewrite scaled_spec. rewrite B2R_finite_F2R. unfold F2R. cbn [Fnum Fexp cond_Zopp]. change (10 ^ Z.of_nat 0) with 1. now rewrite Rmult_1_r.
Qed.

(** Both units at once. *)
Definition unitOf (d : Z) : Z := if d <? 60000000000 then 1000000000 else 60000000000.
Definition inUnit (d : Z) : F := if d <? 60000000000 then Seconds d else Minutes d.
Definition unitChar (d : Z) : ascii := if d <? 60000000000 then "s"%char else "m"%char.
Lemma inUnit_acc d : 0 <= d < 2 ^ 63 -> is_finite (inUnit d) = true /\ Bsign (inUnit d) = false /\ (0 <= B2R (inUnit d))%R /\
  (Rabs (B2R (inUnit d) - IZR d / IZR (unitOf d)) <= / 2 ^ 20)%R.
Proof.
  intros H. assert (D : (0 <= IZR d <= 2 ^ 63)%R) by (rewrite (pow_Z 63); split; apply IZR_le; cbn; lia).
  unfold inUnit, unitOf. destruct (Z.ltb_spec d 60000000000) as [L|L].
  - destruct (inU_fin 1000000000 ltac:(lia) d H (fin_sec d H)) as [A _]. destruct (inU_acc 1000000000 ltac:(lia) d H (fin_sec d H)) as [B C].
    split; [exact A|]. split; [|split; [exact B|]].
    + destruct (Z.eq_dec d 0) as [->|NZ]; [vm_compute; reflexivity|]. assert (P : (0 < B2R (Seconds d : F))%R).
      { eapply Rlt_le_trans; [|apply (inU_mono 1000000000 ltac:(lia) 1 d); [lia|lia|now apply fin_sec]]. destruct (inU_acc 1000000000 ltac:(lia) 1 ltac:(lia) ltac:(vm_compute; discriminate)) as [_ X]. apply Rabs_le_inv in X. lra. }
      destruct (Bsign (Seconds d : F)) eqn:S; [|reflexivity]. assert (X := Bsign_true_le _ A S). change (B2R (Seconds d : F) <= 0)%R in X. lra.
    + apply Rle_trans with (1 := C). apply Z.lt_le_incl, IZR_le in L. lra.
  - destruct (inU_fin 60000000000 ltac:(lia) d H (fin_min d H)) as [A _]. destruct (inU_acc 60000000000 ltac:(lia) d H (fin_min d H)) as [B C].
    split; [exact A|]. split; [|split; [exact B|]].
    + assert (P : (0 < B2R (Minutes d : F))%R).
      { eapply Rlt_le_trans; [|apply (inU_mono 60000000000 ltac:(lia) 1 d); [lia|lia|now apply fin_min]]. destruct (inU_acc 60000000000 ltac:(lia) 1 ltac:(lia) ltac:(vm_compute; discriminate)) as [_ X]. apply Rabs_le_inv in X. lra. }
      destruct (Bsign (Minutes d : F)) eqn:S; [|reflexivity]. assert (X := Bsign_true_le _ A S). change (B2R (Minutes d : F) <= 0)%R in X. lra.
    + apply Rle_trans with (1 := C). replace (2 ^ 63)%R with 9223372036854775808%R in D by lra. lra.
Qed.
Lemma unit_read s k p d : readDec s = Some (k, p) -> readDuration (s ++ String (unitChar d) "") = Some (k, p, unitOf d).
Proof. intros H. rewrite (read_unit s k p _ H). unfold unitChar, unitOf. now destruct (d <? 60000000000). Qed.
Lemma duration_read d : 0 <= d < 2 ^ 63 -> readDuration (formatDuration d) = Some (ZnearestE (B2R (inUnit d) * 10), 1%nat, unitOf d).
Proof.
  intros H. destruct (inUnit_acc d H) as (A & _). etransitivity; [|exact (unit_read _ _ _ d (fmtF_read 1 (inUnit d) A))]. f_equal. unfold formatDuration, inUnit, unitChar. now destruct (d <? 60000000000).
Qed.
Lemma time_read d : 0 <= d < 2 ^ 63 -> readDuration (formatTime d) = Some (ZnearestE (B2R (inUnit d)), 0%nat, unitOf d).
Proof.
  intros H. destruct (inUnit_acc d H) as (A & S & P & _). destruct (fmt0_nonneg _ A P S) as (z & Z0 & E & EZ). rewrite <- EZ. rewrite <- (unit_read _ _ _ d (pad_dec 2 z Z0)).
  rewrite <- E. f_equal. unfold formatTime, inUnit, unitChar. now destruct (d <? 60000000000).
Qed.
Lemma shown_near d (s : R) k : (0 < s)%R -> 0 <= d < 2 ^ 63 -> k = ZnearestE (B2R (inUnit d) * s) -> (Rabs (IZR k / s * IZR (unitOf d) - IZR d) <= IZR (unitOf d) * (/ 2 / s + / 2 ^ 20))%R.
Proof.
  intros S H ->. destruct (inUnit_acc d H) as (_ & _ & _ & E). set (x := B2R (inUnit d)) in *. assert (U : (0 < IZR (unitOf d))%R) by (unfold unitOf; destruct (d <? 60000000000); lra).
  assert (N := Znearest_half (fun z => negb (Z.even z)) (x * s)). set (k := ZnearestE (x * s)) in *.
  replace (IZR k / s * IZR (unitOf d) - IZR d)%R with (IZR (unitOf d) * ((IZR k - x * s) / s + (x - IZR d / IZR (unitOf d))))%R by (field; lra).
  rewrite Rabs_mult, (Rabs_pos_eq (IZR (unitOf d))) by lra. apply Rmult_le_compat_l; [lra|]. eapply Rle_trans; [apply Rabs_triang|]. apply Rplus_le_compat; [|exact E].
  unfold Rdiv. rewrite Rabs_mult, (Rabs_pos_eq (/ s)) by (left; now apply Rinv_0_lt_compat). apply Rmult_le_compat_r; [left; now apply Rinv_0_lt_compat|]. now rewrite Rabs_minus_sym.
Qed.
(** The time shown is within half of its last digit: 0.05 s below a minute, 3 s above. *)
Theorem C80_duration : forall d, 0 <= d < 2 ^ 63 -> exists k u, readDuration (formatDuration d) = Some (k, 1%nat, u) /\
  u = (if d <? 60000000000 then 1000000000 else 60000000000) /\ (Rabs (IZR k / 10 * IZR u - IZR d) <= IZR u * (/ 20 + / 2 ^ 20))%R.
Proof.
  intros d H. exists (ZnearestE (B2R (inUnit d) * 10)), (unitOf d). split; [now apply duration_read|]. split; [reflexivity|].
  replace (/ 20)%R with (/ 2 / 10)%R by lra. apply shown_near; [lra|exact H|reflexivity].
Qed.
(** In the text display it is within half a unit: half a second, then half a minute. *)
Theorem C80_time : forall d, 0 <= d < 2 ^ 63 -> exists k u, readDuration (formatTime d) = Some (k, 0%nat, u) /\
  u = (if d <? 60000000000 then 1000000000 else 60000000000) /\ (Rabs (IZR k * IZR u - IZR d) <= IZR u * (/ 2 + / 2 ^ 20))%R.
Proof.
  intros d H. exists (ZnearestE (B2R (inUnit d))), (unitOf d). split; [now apply time_read|]. split; [reflexivity|].
  replace (/ 2 + / 2 ^ 20)%R with (/ 2 / 1 + / 2 ^ 20)%R by lra. replace (IZR (ZnearestE (B2R (inUnit d)))) with (IZR (ZnearestE (B2R (inUnit d))) / 1)%R by lra.
  apply shown_near; [lra|exact H|now rewrite Rmult_1_r].
Qed.
(** A later time is never shown as an earlier one, also across the change of unit. *)
Lemma shown_mono d d' s : 0 < s -> 0 <= d <= d' -> d' < 2 ^ 63 -> ZnearestE (B2R (inUnit d) * IZR s) * unitOf d <= ZnearestE (B2R (inUnit d') * IZR s) * unitOf d'.
Proof.
  intros S H H'. assert (S' : (0 < IZR s)%R) by now apply IZR_lt.
  assert (SS : forall a b, 0 <= a <= b -> b < 2 ^ 63 -> (B2R (Seconds a : F) <= B2R (Seconds b : F))%R).
  { intros a b K1 K2. apply (inU_mono 1000000000 ltac:(lia) a b); [lia|lia|apply fin_sec; lia]. }
  assert (MM : forall a b, 0 <= a <= b -> b < 2 ^ 63 -> (B2R (Minutes a : F) <= B2R (Minutes b : F))%R).
  { intros a b K1 K2. apply (inU_mono 60000000000 ltac:(lia) a b); [lia|lia|apply fin_min; lia]. }
  assert (NE : forall x y, (x <= y)%R -> ZnearestE (x * IZR s) <= ZnearestE (y * IZR s)) by (intros x y K; apply (Zrnd_le ZnearestE); apply Rmult_le_compat_r; lra).
  unfold inUnit, unitOf. destruct (Z.ltb_spec d 60000000000) as [L|L], (Z.ltb_spec d' 60000000000) as [L'|L']; try lia.
  - apply Z.mul_le_mono_nonneg_r; [lia|]. apply NE, SS; lia.
  - assert (A : ZnearestE (B2R (Seconds d : F) * IZR s) <= 60 * s).
    { rewrite <- (Zrnd_IZR ZnearestE (60 * s)). rewrite mult_IZR. apply NE.
      rewrite <- (inU_exact 1000000000 ltac:(lia) 60 ltac:(lia) ltac:(lia) ltac:(lia)). apply SS; lia. }
    assert (B : s <= ZnearestE (B2R (Minutes d' : F) * IZR s)).
    { rewrite <- (Zrnd_IZR ZnearestE s) at 1. rewrite <- (Rmult_1_l (IZR s)) at 1. apply NE.
      rewrite <- (inU_exact 60000000000 ltac:(lia) 1 ltac:(lia) ltac:(lia) ltac:(lia)). apply MM; lia. }
    lia.
  - apply Z.mul_le_mono_nonneg_r; [lia|]. apply NE, MM; lia.
Qed.
Theorem C80_duration_monotone : forall d d' k u k' u', 0 <= d <= d' -> d' < 2 ^ 63 -> readDuration (formatDuration d) = Some (k, 1%nat, u) ->
  readDuration (formatDuration d') = Some (k', 1%nat, u') -> k * u <= k' * u'.
Proof. intros d d' k u k' u' H H'. rewrite !duration_read by lia. intros [= <- <-] [= <- <-]. now apply (shown_mono d d' 10). Qed.
Theorem C80_time_monotone : forall d d' k u k' u', 0 <= d <= d' -> d' < 2 ^ 63 -> readDuration (formatTime d) = Some (k, 0%nat, u) ->
  readDuration (formatTime d') = Some (k', 0%nat, u') -> k * u <= k' * u'.
Proof. intros d d' k u k' u' H H'. rewrite !time_read by lia. intros [= <- <-] [= <- <-]. assert (X := shown_mono d d' 1 ltac:(lia) H H'). now rewrite !Rmult_1_r in X. Qed.
(** "60.0s" is shown before the minute is over, and then "1.0m"; a minute of difference can vanish in the text display. *)
Theorem C80_minute_refuted : exists d, d < 60000000000 /\ formatDuration d = "60.0s"%string /\ formatTime d = "60s"%string /\
  formatDuration 60000000000 = "1.0m"%string /\ formatTime 60000000000 = "01m"%string.
Proof. exists 59960000000. split; [lia|]. repeat split; vm_compute; reflexivity. Qed.
Theorem C80_time_refuted : exists d, formatTime d = formatTime (d + 60000000000) /\ 60000000000 < d /\ formatDuration d <> formatDuration (d + 60000000000).
Proof. exists 90000000000. split; [vm_compute; reflexivity|]. split; [lia|]. vm_compute. discriminate. Qed.
(** What is shown for an interval that never began: time.Since of the zero time is the largest duration. *)
Example C80_times_example : formatDuration 1500000000 = "1.5s"%string /\ formatDuration 90000000000 = "1.5m"%string /\ formatTime 7400000000 = "07s"%string /\
  formatDuration 9223372036854775807 = "153722867.3m"%string /\ readDuration "1.5m" = Some (15, 1%nat, 60000000000) /\ readDuration "1.5" = None.
Proof. repeat split; vm_compute; reflexivity. Qed.
End WithTrig.

Print Assumptions C80_nearest.
Print Assumptions C80_monotone.
Print Assumptions C80_unreadable.
Print Assumptions C80_integer.
Print Assumptions C80_percent.
Print Assumptions C80_gauge.
Print Assumptions C80_duration.
Print Assumptions C80_time.
Print Assumptions C80_duration_monotone.
Print Assumptions C80_time_monotone.
