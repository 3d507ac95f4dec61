(** Lemmas on the printed numbers. *)
From Coq Require Import ZArith Reals Psatz Bool String Ascii Lia.
From Flocq Require Import Core.Core IEEE754.BinarySingleNaN.
From Verif Require Import Num F64 M_Format S_Format L_F64.
Open Scope Z_scope.

(** ** Rounding *)
Lemma divNE_spec n d : 0 <= n -> 0 < d -> divNE n d = ZnearestE (IZR n / IZR d).
Proof.
  intros Hn Hd. unfold divNE. assert (Hd' : (0 < IZR d)%R) by now apply IZR_lt.
  assert (FL : Zfloor (IZR n / IZR d) = n / d) by (apply Zfloor_div; lia).
  assert (FR : (IZR n / IZR d - IZR (n / d) = IZR (n mod d) / IZR d)%R).
  { rewrite (Z.div_mod n d) at 1 by lia. rewrite plus_IZR, mult_IZR. field. lra. }
  assert (NI : 0 < n mod d -> Zceil (IZR n / IZR d) = n / d + 1).
  { intros H. rewrite Zceil_floor_neq; [now rewrite FL|]. rewrite FL. intros E.
    assert ((0 < IZR (n mod d) / IZR d)%R) by (apply Rdiv_lt_0_compat; [now apply IZR_lt|lra]). lra. }
  assert (CMP : forall r, (IZR r / IZR d = / 2 + IZR (2 * r - d) / (2 * IZR d))%R).
  { intros r. rewrite minus_IZR, mult_IZR. field. lra. }
  unfold Znearest. rewrite FL, FR, CMP.
  destruct (Z.ltb_spec (2 * (n mod d)) d) as [L|L].
  - rewrite Rcompare_Lt; [reflexivity|]. assert (IZR (2 * (n mod d) - d) < 0)%R by (apply IZR_lt; lia).
    assert (IZR (2 * (n mod d) - d) / (2 * IZR d) < 0)%R by (apply Rmult_lt_reg_r with (2 * IZR d)%R; [lra|]; unfold Rdiv; rewrite Rmult_assoc, Rinv_l by lra; lra). lra.
  - destruct (Z.ltb_spec d (2 * (n mod d))) as [G|G].
    + rewrite Rcompare_Gt; [symmetry; apply NI; lia|].
      assert (0 < IZR (2 * (n mod d) - d) / (2 * IZR d))%R by (apply Rdiv_lt_0_compat; [apply IZR_lt; lia|lra]). lra.
    + replace (2 * (n mod d) - d) with 0 by lia. rewrite Rcompare_Eq by (unfold Rdiv; rewrite Rmult_0_l; lra).
      rewrite NI by lia. now destruct (Z.even (n / d)).
Qed.
Lemma scaled_spec p m e : scaled p m e = ZnearestE (IZR (Z.pos m) * bpow radix2 e * IZR (10 ^ Z.of_nat p)).
Proof.
  unfold scaled. destruct (Z.leb_spec 0 e) as [L|L].
  - rewrite <- IZR_Zpower by exact L. rewrite <- !mult_IZR. change (Zpower radix2 e) with (2 ^ e).
    replace (Z.pos m * 2 ^ e * 10 ^ Z.of_nat p) with (Z.pos m * 10 ^ Z.of_nat p * 2 ^ e) by ring. symmetry. apply (Zrnd_IZR ZnearestE).
  - rewrite divNE_spec; [|nia|apply Z.pow_pos_nonneg; lia]. f_equal.
    replace e with (- - e) at 2 by ring. rewrite bpow_opp. rewrite <- IZR_Zpower by lia. change (Zpower radix2 (- e)) with (2 ^ - e).
    rewrite mult_IZR. assert ((0 < IZR (2 ^ - e))%R) by (apply IZR_lt, Z.pow_pos_nonneg; lia). field. lra.
Qed.
Lemma scaled_nonneg p m e : 0 <= scaled p m e.
Proof.
  rewrite scaled_spec. rewrite <- (Zrnd_IZR ZnearestE 0). apply (Zrnd_le ZnearestE). apply Rmult_le_pos; [apply Rmult_le_pos; [now apply IZR_le|apply bpow_ge_0]|apply IZR_le, Z.pow_nonneg; lia].
Qed.

Lemma ZnearestE_opp x : ZnearestE (- x) = - ZnearestE x.
Proof.
  rewrite Znearest_opp. f_equal. unfold Znearest. destruct (Rcompare _ _); try reflexivity.
  rewrite Bool.negb_involutive, Z.even_opp, Z.even_add. now destruct (Z.even (Zfloor x)).
Qed.

(** ** Digits *)
Lemma digit_val z : 0 <= z < 10 -> Ascii.eqb (digit z) "." = false /\ Ascii.eqb (digit z) "-" = false /\ digitVal (digit z) = Some z.
Proof.
  intros H. assert (z = 0 \/ z = 1 \/ z = 2 \/ z = 3 \/ z = 4 \/ z = 5 \/ z = 6 \/ z = 7 \/ z = 8 \/ z = 9) as K by lia.
  repeat (destruct K as [->|K]; [now vm_compute|]). subst z. now vm_compute.
Qed.
(** Read n further digits worth z. *)
Definition bump (n : nat) (pl : option nat) : option nat := match pl with Some k => Some (n + k)%nat | None => None end.
Lemma decLoop_read fuel : forall z s, 0 <= z -> (Z.to_nat (Z.log2 z) < fuel)%nat ->
  exists n, (1 <= n)%nat /\ (z = 0 -> n = 1%nat) /\ (0 < z -> 10 ^ (Z.of_nat n - 1) <= z) /\ String.length (decLoop fuel z s) = (n + String.length s)%nat /\
    (forall c r, decLoop fuel z s = String c r -> Ascii.eqb c "-" = false) /\ decLoop fuel z s <> EmptyString /\
    forall a pl, readFrom a pl (decLoop fuel z s) = readFrom (a * 10 ^ Z.of_nat n + z) (bump n pl) s.
Proof.
  induction fuel as [|f IH]; intros z s Hz Hf; [lia|]. cbn [decLoop].
  assert (M : 0 <= z mod 10 < 10) by (apply Z.mod_pos_bound; lia). destruct (digit_val _ M) as (D1 & D2 & D3).
  assert (STEP : forall a pl, readFrom a pl (String (digit (z mod 10)) s) = readFrom (10 * a + z mod 10) (bump 1 pl) s).
  { intros a pl. cbn [readFrom]. rewrite D1, D3. destruct pl; reflexivity. }
  destruct (Z.ltb_spec z 10) as [L|L].
  - exists 1%nat. rewrite (Z.mod_small z 10) in * by lia. split; [lia|]. split; [auto|]. split; [cbn; lia|]. split; [reflexivity|].
    split; [intros c r E; injection E as <- _; exact D2|]. split; [discriminate|].
    intros a pl. rewrite STEP. f_equal. change (10 ^ Z.of_nat 1) with 10. ring.
  - destruct (IH (z / 10) (String (digit (z mod 10)) s)) as (n & N1 & _ & N3 & N4 & N5 & N6 & N7).
    + apply Z.div_pos; lia.
    + assert (Z.log2 (z / 10) < Z.log2 z).
      { assert (Z.log2 (z / 10) <= Z.log2 (z / 2)) by (apply Z.log2_le_mono, Z.div_le_compat_l; lia).
        assert (Z.log2 (z / 2) = Z.log2 z - 1); [|lia]. rewrite <- Z.div2_div, Z.div2_spec, Z.log2_shiftr by lia. assert (1 <= Z.log2 z) by (change 1 with (Z.log2 2); apply Z.log2_le_mono; lia). lia. }
      assert (0 <= Z.log2 (z / 10)) by apply Z.log2_nonneg. lia.
    + assert (Q : 0 < z / 10) by (apply Z.div_str_pos; lia).
      exists (S n). split; [lia|]. split; [lia|]. split.
      { intros _. specialize (N3 Q). replace (Z.of_nat (S n) - 1) with (Z.succ (Z.of_nat n - 1)) by lia. rewrite Z.pow_succ_r by lia. assert (10 * (z / 10) <= z) by (apply Z.mul_div_le; lia). lia. }
      split; [rewrite N4; cbn [String.length]; lia|]. split; [exact N5|]. split; [exact N6|].
      intros a pl. rewrite N7, STEP. f_equal.
      * rewrite Nat2Z.inj_succ, Z.pow_succ_r by lia. assert (E := Z.div_mod z 10). lia.
      * destruct pl; cbn; [f_equal; lia|reflexivity].
Qed.
(** The digits of z, followed by anything. *)
Lemma decLoop_app fuel : forall z s t, decLoop fuel z (s ++ t) = (decLoop fuel z s ++ t)%string.
Proof.
  induction fuel as [|f IH]; intros z s t; [reflexivity|]. cbn [decLoop]. destruct (z <? 10); [reflexivity|]. apply (IH (z / 10) (String (digit (z mod 10)) s) t).
Qed.
Lemma dec_read z t : 0 <= z -> exists n, (1 <= n)%nat /\ (z = 0 -> n = 1%nat) /\ (0 < z -> 10 ^ (Z.of_nat n - 1) <= z) /\ String.length (dec z) = n /\
    (forall c r, (dec z ++ t)%string = String c r -> Ascii.eqb c "-" = false) /\ (dec z ++ t)%string <> EmptyString /\
    forall a pl, readFrom a pl (dec z ++ t) = readFrom (a * 10 ^ Z.of_nat n + z) (bump n pl) t.
Proof.
  intros H. unfold dec. destruct (decLoop_read (S (Z.to_nat (Z.log2 z))) z ("" ++ t) H ltac:(lia)) as (n & A1 & A2 & A3 & A4 & A5 & A6 & A7).
  rewrite decLoop_app in A4, A5, A6, A7. exists n. split; [exact A1|]. split; [exact A2|]. split; [exact A3|]. split; [|split; [exact A5|split; [exact A6|exact A7]]].
  assert (L : forall a b, String.length (a ++ b) = (String.length a + String.length b)%nat) by (induction a as [|c a IH]; intros b; cbn; [reflexivity|now rewrite IH]).
  rewrite L in A4. change (("" ++ t)%string) with t in A4. lia.
Qed.
Lemma zeros_read n : forall a pl t, readFrom a pl (zeros n ++ t) = readFrom (a * 10 ^ Z.of_nat n) (bump n pl) t.
Proof.
  induction n as [|n IH]; intros a pl t.
  - cbn [zeros]. change (10 ^ Z.of_nat 0) with 1. rewrite Z.mul_1_r. now destruct pl.
  - cbn [zeros]. change (String "0" (zeros n) ++ t)%string with (String "0" (zeros n ++ t)). cbn [readFrom]. change (Ascii.eqb "0" ".") with false. change (digitVal "0") with (Some 0). cbn iota.
    rewrite IH. rewrite Nat2Z.inj_succ, Z.pow_succ_r by lia. f_equal; [ring|]. destruct pl; cbn; [f_equal; lia|reflexivity].
Qed.
(** Zero-padded digits. *)
Lemma pad_read w z t : 0 <= z < 10 ^ Z.of_nat w -> (1 <= w)%nat -> forall a pl, readFrom a pl (pad w (dec z) ++ t) = readFrom (a * 10 ^ Z.of_nat w + z) (bump w pl) t.
Proof.
  intros Hz Hw a pl. destruct (dec_read z t ltac:(lia)) as (n & N1 & N2 & N3 & N4 & _ & _ & N7). unfold pad. rewrite N4.
  assert (LE : (n <= w)%nat).
  { destruct (Z.eq_dec z 0) as [E|E]; [rewrite (N2 E); lia|]. specialize (N3 ltac:(lia)). assert (P : 10 ^ (Z.of_nat n - 1) < 10 ^ Z.of_nat w) by lia. apply Z.pow_lt_mono_r_iff in P; lia. }
  assert (AP : forall x y u, ((x ++ y) ++ u = x ++ (y ++ u))%string) by (induction x as [|c x IH]; intros y u; cbn; [reflexivity|now rewrite IH]).
  rewrite AP, zeros_read, N7. f_equal.
  - rewrite <- Z.mul_assoc, <- Z.pow_add_r by lia. f_equal. f_equal. f_equal. lia.
  - destruct pl; cbn; [f_equal; lia|reflexivity].
Qed.
Lemma app_nil (s : string) : (s ++ "" = s)%string. Proof. induction s as [|c s IH]; cbn; [reflexivity|now rewrite IH]. Qed.
Lemma app_ass (x y u : string) : ((x ++ y) ++ u = x ++ (y ++ u))%string. Proof. induction x as [|c x IH]; cbn; [reflexivity|now rewrite IH]. Qed.
(** Fixed-point numbers read back. *)
Lemma fixed_read p k : 0 <= k -> readUnsigned (fixed p k) = Some (k, p) /\ (forall c r, fixed p k = String c r -> Ascii.eqb c "-" = false).
Proof.
  intros H. unfold fixed. destruct p as [|p'].
  - destruct (dec_read k "" H) as (n & _ & _ & _ & _ & N5 & N6 & N7). rewrite app_nil in N5, N6, N7. split; [|exact N5]. unfold readUnsigned. destruct (dec k) eqn:E; [now elim N6|]. rewrite N7. cbn. reflexivity.
  - set (p := S p'). assert (P : 0 < 10 ^ Z.of_nat p) by (apply Z.pow_pos_nonneg; lia).
    destruct (dec_read (k / 10 ^ Z.of_nat p) ("." ++ pad p (dec (k mod 10 ^ Z.of_nat p))) ltac:(apply Z.div_pos; lia)) as (n & _ & _ & _ & _ & N5 & N6 & N7).
    split; [|exact N5]. unfold readUnsigned. destruct (dec (k / 10 ^ Z.of_nat p) ++ _)%string eqn:E; [now elim N6|]. rewrite N7.
    rewrite <- (app_nil (pad p _)). cbn [append readFrom]. change (Ascii.eqb "." ".") with true. cbn iota. cbn [bump].
    rewrite pad_read; [|apply Z.mod_pos_bound; lia|unfold p; lia].
    cbn [readFrom bump]. f_equal. f_equal; [|lia]. assert (E2 := Z.div_mod k (10 ^ Z.of_nat p)). lia.
Qed.
Lemma neg_read s k p : readUnsigned s = Some (k, p) -> readDec ("-" ++ s) = Some (- k, p).
Proof. intros H. cbn. now rewrite H. Qed.
Lemma pos_read s k p : readUnsigned s = Some (k, p) -> (forall c r, s = String c r -> Ascii.eqb c "-" = false) -> readDec s = Some (k, p).
Proof.
  intros H D. unfold readDec. destruct s as [|c r]; [exact H|]. specialize (D c r eq_refl).
  destruct c as [[] [] [] [] [] [] [] []]; try exact H. now compute in D.
Qed.
Lemma fmtF_read p x : is_finite x = true -> readDec (fmtF p x) = Some (ZnearestE (B2R x * IZR (10 ^ Z.of_nat p)), p).
Proof.
  intros FX. destruct x as [s|s| |s m e B]; try discriminate.
  - destruct (fixed_read p 0 ltac:(lia)) as [R D]. cbn [fmtF B2R]. rewrite Rmult_0_l. rewrite (Zrnd_IZR ZnearestE 0).
    destruct s; [apply (neg_read _ _ _ R)|exact (pos_read _ _ _ R D)].
  - destruct (fixed_read p (scaled p m e) (scaled_nonneg p m e)) as [R D]. rewrite B2R_finite_F2R. cbn [fmtF].
    assert (E := scaled_spec p m e).
    destruct s; cbn [cond_Zopp].
    + replace (F2R _ * _)%R with (- (IZR (Z.pos m) * bpow radix2 e * IZR (10 ^ Z.of_nat p)))%R; [rewrite ZnearestE_opp, <- E; apply (neg_read _ _ _ R)|].
      unfold F2R. cbn [Fnum Fexp]. change (IZR (- Z.pos m)) with (- IZR (Z.pos m))%R. ring.
    + unfold F2R. cbn [Fnum Fexp]. rewrite <- E. exact (pos_read _ _ _ R D).
Qed.
