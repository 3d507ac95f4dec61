(** Lemmas for the display panels: counting loops and rounded shares. *)
From Coq Require Import ZArith Reals Psatz Bool List String Lia.
From Flocq Require Import Core.Core IEEE754.BinarySingleNaN.
From Verif Require Import Num F64 GoBase M_Display L_F64 L_F64x L_Ford.
Import ListNotations.
Open Scope Z_scope.

(** ** Counting *)
Lemma count_acc {T} (p : ASnap T -> bool) l : forall n,
  fold_left (fun n a => if p a then n + 1 else n) l n = n + Z.of_nat (List.length (filter p l)).
Proof.
  induction l as [|a l IH]; intros n; cbn [fold_left filter]; [cbn; lia|].
  rewrite IH. destruct (p a); cbn [List.length]; lia.
Qed.
Lemma count_filter {T} (p : ASnap T -> bool) l : count p l = Z.of_nat (List.length (filter p l)).
Proof. unfold count. rewrite count_acc. lia. Qed.
Lemma count_range {T} (p : ASnap T -> bool) l : 0 <= count p l <= lenZ l.
Proof.
  rewrite count_filter. unfold lenZ. split; [lia|]. apply Nat2Z.inj_le.
  induction l as [|a l IH]; cbn [filter List.length]; [lia|]. destruct (p a); cbn [List.length]; lia.
Qed.
Lemma count_split {T} (p q : ASnap T -> bool) l : (forall a, In a l -> q a = negb (p a)) -> count p l + count q l = lenZ l.
Proof.
  intros H. rewrite !count_filter. unfold lenZ. induction l as [|a l IH]; [reflexivity|].
  cbn [filter List.length]. assert (IH' : forall b, In b l -> q b = negb (p b)) by (intros b Hb; apply H; now right).
  specialize (IH IH'). rewrite (H a) by now left. destruct (p a); cbn [negb List.length]; lia.
Qed.
Lemma count_split3 {T} (p q r : ASnap T -> bool) l :
  (forall a, In a l -> (Nat.b2n (p a) + Nat.b2n (q a) + Nat.b2n (r a) = 1)%nat) -> count p l + count q l + count r l = lenZ l.
Proof.
  intros H. rewrite !count_filter. unfold lenZ. induction l as [|a l IH]; [reflexivity|].
  cbn [filter List.length]. assert (IH' : forall b, In b l -> (Nat.b2n (p b) + Nat.b2n (q b) + Nat.b2n (r b) = 1)%nat) by (intros b Hb; apply H; now right).
  specialize (IH IH'). specialize (H a (or_introl eq_refl)). destruct (p a), (q a), (r a); cbn [Nat.b2n] in H; try lia; cbn [List.length]; lia.
Qed.
Lemma count_all {T} (p : ASnap T -> bool) l : count p l = lenZ l <-> Forall (fun a => p a = true) l.
Proof.
  rewrite count_filter. unfold lenZ. induction l as [|a l IH]; cbn [filter List.length].
  - split; [constructor|reflexivity].
  - assert (B : (List.length (filter p l) <= List.length l)%nat).
    { clear IH. induction l as [|b l IH]; cbn [filter List.length]; [lia|]. destruct (p b); cbn [List.length]; lia. }
    destruct (p a) eqn:E; cbn [List.length]; split; intros H.
    + constructor; [assumption|]. apply IH. lia.
    + inversion H; subst. apply IH in H3. lia.
    + exfalso. lia.
    + inversion H; subst. congruence.
Qed.
Lemma count_none {T} (p : ASnap T -> bool) l : (forall a, In a l -> p a = false) -> count p l = 0.
Proof.
  intros H. rewrite count_filter. induction l as [|a l IH]; [reflexivity|]. cbn [filter]. rewrite H by now left.
  apply IH. intros b Hb. apply H. now right.
Qed.
Lemma count_ext {T} (p q : ASnap T -> bool) l : (forall a, In a l -> p a = q a) -> count p l = count q l.
Proof.
  intros H. rewrite !count_filter. induction l as [|a l IH]; [reflexivity|]. cbn [filter]. rewrite H by now left.
  assert (E : Z.of_nat (List.length (filter p l)) = Z.of_nat (List.length (filter q l))) by (apply IH; intros b Hb; apply H; now right).
  destruct (q a); cbn [List.length]; lia.
Qed.

(** ** Bins *)
Definition zsum (l : list Z) : Z := fold_right Z.add 0 l.
Lemma setnth_spec {A} (xs : list A) : forall i v d, (i < List.length xs)%nat ->
  exists ys, setnth xs i v = Some ys /\ List.length ys = List.length xs /\
    forall k, nth k ys d = if Nat.eqb k i then v else nth k xs d.
Proof.
  induction xs as [|x xs IH]; intros i v d H; cbn [List.length] in H; [lia|].
  destruct i as [|i].
  - exists (v :: xs). repeat split. intros [|k]; reflexivity.
  - destruct (IH i v d) as (ys & E & L & K); [lia|]. exists (x :: ys). cbn [setnth]. rewrite E. repeat split; [cbn; lia|].
    intros [|k]; cbn [nth Nat.eqb]; auto.
Qed.
Lemma setZ_spec {A} (xs : list A) i v d : 0 <= i < lenZ xs ->
  exists ys, setZ xs i v = Some ys /\ List.length ys = List.length xs /\
    forall k, 0 <= k -> nth (Z.to_nat k) ys d = if k =? i then v else nth (Z.to_nat k) xs d.
Proof.
  unfold lenZ. intros H. unfold setZ. destruct (Z.ltb_spec i 0); [lia|].
  destruct (setnth_spec xs (Z.to_nat i) v d) as (ys & E & L & K); [lia|].
  exists ys. repeat split; auto. intros k Hk. rewrite K. destruct (Z.eqb_spec k i) as [->|N].
  - now rewrite Nat.eqb_refl.
  - destruct (Nat.eqb_spec (Z.to_nat k) (Z.to_nat i)); [lia|reflexivity].
Qed.
Lemma nthZ_spec {A} (xs : list A) i d : 0 <= i < lenZ xs -> nthZ xs i = Some (nth (Z.to_nat i) xs d).
Proof.
  unfold lenZ. intros H. unfold nthZ. destruct (Z.ltb_spec i 0); [lia|].
  apply nth_error_nth'. lia.
Qed.
Lemma tally_spec {T} (idx : ASnap T -> Z) agents : forall bins, Forall (fun a => 0 <= idx a < lenZ bins) agents ->
  exists b, tally idx agents bins = Some b /\ List.length b = List.length bins /\
    forall k, 0 <= k < lenZ bins -> nth (Z.to_nat k) b 0 = nth (Z.to_nat k) bins 0 + count (fun a => idx a =? k) agents.
Proof.
  induction agents as [|a r IH]; intros bins H.
  - exists bins. cbn [tally]. repeat split. intros k _. unfold count. cbn. lia.
  - inversion H as [|? ? Ha Hr]; subst. cbn [tally]. unfold bump.
    rewrite (nthZ_spec bins (idx a) 0 Ha).
    destruct (setZ_spec bins (idx a) (nth (Z.to_nat (idx a)) bins 0 + 1) 0 Ha) as (b1 & E1 & L1 & K1). rewrite E1.
    assert (Q : lenZ b1 = lenZ bins) by (unfold lenZ; lia).
    destruct (IH b1) as (b & E & L & K). { rewrite Q. exact Hr. }
    exists b. split; [exact E|]. split; [lia|]. intros k Hk. rewrite K by (rewrite Q; lia). rewrite K1 by lia.
    rewrite !count_filter. cbn [filter]. rewrite (Z.eqb_sym (idx a) k). destruct (Z.eqb_spec k (idx a)) as [->|]; cbn [List.length]; lia.
Qed.
(** Every agent is in exactly one of the bins 0 .. m-1. *)
Lemma bins_total {T} (idx : ASnap T -> Z) m agents : Forall (fun a => 0 <= idx a < Z.of_nat m) agents ->
  zsum (map (fun k => count (fun a => idx a =? Z.of_nat k) agents) (seq 0 m)) = lenZ agents.
Proof.
  induction agents as [|a r IH]; intros H.
  - unfold count. cbn [fold_left]. unfold lenZ. cbn [List.length]. generalize (seq 0 m). induction l; cbn [map zsum fold_right]; [reflexivity|]. unfold zsum in IHl. rewrite IHl. reflexivity.
  - inversion H as [|? ? Ha Hr]; subst. specialize (IH Hr). unfold lenZ in *. cbn [List.length].
    rewrite Nat2Z.inj_succ, <- IH.
    assert (G : forall s, zsum (map (fun k => count (fun b => idx b =? Z.of_nat k) (a :: r)) s) =
      zsum (map (fun k => count (fun b => idx b =? Z.of_nat k) r) s) + Z.of_nat (List.length (filter (fun k => idx a =? Z.of_nat k) s))).
    { induction s as [|k s IHs]; [reflexivity|]. cbn [map zsum fold_right filter]. unfold zsum in IHs. rewrite IHs.
      rewrite !count_filter. cbn [filter]. destruct (idx a =? Z.of_nat k); cbn [List.length]; lia. }
    rewrite G.
    assert (O : forall s n, (s <= Z.to_nat (idx a) < s + n)%nat -> List.length (filter (fun k => idx a =? Z.of_nat k) (seq s n)) = 1%nat).
    { intros s n. revert s. induction n as [|n IHn]; intros s Hs; [lia|]. cbn [seq filter].
      destruct (Z.eqb_spec (idx a) (Z.of_nat s)).
      - cbn [List.length]. f_equal. clear IHn.
        assert (forall n s', (Z.to_nat (idx a) < s')%nat -> List.length (filter (fun k => idx a =? Z.of_nat k) (seq s' n)) = 0%nat).
        { induction n0 as [|n0 IH0]; intros s' Hs'; [reflexivity|]. cbn [seq filter]. destruct (Z.eqb_spec (idx a) (Z.of_nat s')); [lia|]. apply IH0. lia. }
        apply H0. lia.
      - apply IHn. lia. }
    rewrite (O 0%nat m) by lia. lia.
Qed.

(** ** Rounded shares *)
Open Scope R_scope.
Lemma rnd_err x : 0 <= x <= 8 -> Rabs (rnd x - x) <= / IZR (2 ^ 49).
Proof.
  intros H. set (k := Zfloor (x * IZR (2 ^ 49))). pose proof (Zfloor_lb (x * IZR (2 ^ 49))) as L. pose proof (Zfloor_ub (x * IZR (2 ^ 49))) as U.
  fold k in L, U.
  assert (P : 0 < IZR (2 ^ 49)) by (apply IZR_lt; lia).
  assert (K : (0 <= k <= 8 * 2 ^ 49)%Z).
  { split. - unfold k. apply Zfloor_lub. apply Rmult_le_pos; lra.
    - apply le_IZR. rewrite mult_IZR. eapply Rle_trans; [exact L|]. nra. }
  assert (Fy : fmt (IZR k * bpow radix2 (-49))).
  { change (IZR k * bpow radix2 (-49)) with (F2R (Float radix2 k (-49))). apply fmt_F2R; lia. }
  eapply Rle_trans; [apply (rnd_near x _ Fy)|].
  change (bpow radix2 (-49)) with (/ IZR (2 ^ 49)).
  assert (E : x = x * IZR (2 ^ 49) * / IZR (2 ^ 49)) by (field; lra).
  rewrite E at 1. rewrite <- Rmult_minus_distr_r, Rabs_mult, (Rabs_pos_eq (/ IZR (2 ^ 49))) by (apply Rlt_le, Rinv_0_lt_compat; lra).
  rewrite <- (Rmult_1_l (/ IZR (2 ^ 49))) at 2. apply Rmult_le_compat_r; [apply Rlt_le, Rinv_0_lt_compat; lra|].
  apply Rabs_le. lra.
Qed.
Section S.
Variable tr : Trig.
Notation NF := (FNum tr).
Lemma share_vals k n s : (0 <= k <= 8 * n)%Z -> (0 < n <= 2 ^ 40)%Z -> (0 < s <= 128)%Z ->
  is_finite (fmul (fdiv (fofZ k) (fofZ n)) (fofZ s)) = true /\
  B2R (fmul (fdiv (fofZ k) (fofZ n)) (fofZ s)) = rnd (rnd (IZR k / IZR n) * IZR s) /\ 0 <= IZR k / IZR n <= 8.
Proof.
  intros Hk Hn Hs. destruct (fofZ_fin k) as [Fk Vk]; [lia|]. destruct (fofZ_fin n) as [Fn Vn]; [lia|]. destruct (fofZ_fin s) as [Fs Vs]; [lia|].
  assert (Pn : 0 < IZR n) by (apply IZR_lt; lia). assert (Pk : 0 <= IZR k) by (apply IZR_le; lia).
  assert (Ps : 0 < IZR s <= 128) by (split; [apply IZR_lt; lia|apply IZR_le; lia]).
  assert (X : 0 <= IZR k / IZR n <= 8).
  { split; [apply Rmult_le_pos; [lra|apply Rlt_le, Rinv_0_lt_compat; lra]|].
    apply Rmult_le_reg_r with (IZR n); [lra|]. unfold Rdiv. rewrite Rmult_assoc, Rinv_l by lra. rewrite Rmult_1_r, <- mult_IZR. apply IZR_le. lia. }
  assert (B8 : 1024 <= bpow radix2 1023) by (apply (bpow1023_ge 10); lia).
  destruct (fdiv_fin (fofZ k) (fofZ n) Fk Fn) as [Fd Vd]; [rewrite Vn; lra|rewrite Vk, Vn, Rabs_pos_eq; lra|].
  rewrite Vk, Vn in Vd.
  assert (R0 : 0 <= rnd (IZR k / IZR n) <= 8).
  { split; [apply rnd_ge_0; lra|]. apply rnd_le_fmt; [apply (fmt_IZR 8); lia|lra]. }
  destruct (fmul_fin _ (fofZ s) Fd Fs) as [Fm Vm].
  { rewrite Vd, Vs, Rabs_pos_eq by nra. nra. }
  rewrite Vd, Vs in Vm. auto.
Qed.
(** A share that is not a whole number is rounded down exactly. *)
Lemma share_floor k n s : (0 <= k <= 8 * n)%Z -> (0 < n <= 2 ^ 40)%Z -> (0 < s <= 128)%Z -> ((s * k) mod n <> 0)%Z ->
  @share F NF k n s = (s * k / n)%Z.
Proof.
  intros Hk Hn Hs Hm. unfold share. cbn [ntrunc nmul ndiv nofZ FNum].
  destruct (share_vals k n s Hk Hn Hs) as (Fm & Vm & X).
  set (m := (s * k / n)%Z) in *. assert (Pn : 0 < IZR n) by (apply IZR_lt; lia).
  assert (Ps : 0 < IZR s <= 128) by (split; [apply IZR_lt; lia|apply IZR_le; lia]).
  pose proof (Z.div_mod (s * k) n) as DM. specialize (DM ltac:(lia)). fold m in DM. pose proof (Z.mod_pos_bound (s * k) n ltac:(lia)) as MB.
  set (r := ((s * k) mod n)%Z) in *.
  assert (Mr : (0 <= m < 1025)%Z). { split; [apply Z.div_pos; lia|]. apply Z.div_lt_upper_bound; [lia|]. nia. }
  set (x := IZR k / IZR n) in *.
  assert (SX : x * IZR s = IZR m + IZR r / IZR n).
  { unfold x. assert (IZR (s * k) = IZR (n * m + r)) by (f_equal; exact DM). rewrite mult_IZR, plus_IZR, mult_IZR in H.
    apply Rmult_eq_reg_r with (IZR n); [|lra]. field_simplify; try lra. }
  assert (R1 : / IZR (2 ^ 40) <= IZR r / IZR n).
  { apply Rle_trans with (/ IZR n).
    - apply Rinv_le; [lra|]. apply IZR_le. lia.
    - unfold Rdiv. rewrite <- (Rmult_1_l (/ IZR n)) at 1. apply Rmult_le_compat_r; [apply Rlt_le, Rinv_0_lt_compat; lra|]. apply (IZR_le 1). lia. }
  assert (R2 : IZR r / IZR n <= 1 - / IZR (2 ^ 40)).
  { assert (/ IZR (2 ^ 40) <= / IZR n) by (apply Rinv_le; [lra|]; apply IZR_le; lia).
    apply Rle_trans with (1 - / IZR n); [|lra]. apply Rmult_le_reg_r with (IZR n); [lra|]. unfold Rdiv. rewrite Rmult_assoc, Rinv_l by lra.
    rewrite Rmult_minus_distr_r, Rinv_l by lra. rewrite Rmult_1_r, Rmult_1_l. rewrite <- minus_IZR. apply IZR_le. lia. }
  pose proof (rnd_err x X) as Er. apply Rabs_le_inv in Er.
  change (IZR (2 ^ 49)) with 562949953421312 in Er. change (IZR (2 ^ 40)) with 1099511627776 in *.
  set (f := rnd x) in *.
  assert (D : Rabs (f * IZR s - x * IZR s) <= 128 * / 562949953421312).
  { rewrite <- Rmult_minus_distr_r, Rabs_mult, (Rabs_pos_eq (IZR s)) by lra. rewrite (Rmult_comm 128).
    apply Rmult_le_compat; [apply Rabs_pos|lra|apply Rabs_le; lra|lra]. }
  apply Rabs_le_inv in D. rewrite SX in D.
  assert (Lo : IZR m <= rnd (f * IZR s)) by (apply rnd_ge_fmt; [apply fmt_IZR; lia|lra]).
  assert (Hi : rnd (f * IZR s) <= IZR (m * 2 ^ 41 + 2 ^ 41 - 1) * bpow radix2 (-41)).
  { apply rnd_le_fmt.
    - change (IZR (m * 2 ^ 41 + 2 ^ 41 - 1) * bpow radix2 (-41)) with (F2R (Float radix2 (m * 2 ^ 41 + 2 ^ 41 - 1) (-41))). apply fmt_F2R; lia.
    - rewrite minus_IZR, plus_IZR, mult_IZR. change (bpow radix2 (-41)) with (/ IZR (2 ^ 41)). change (IZR (2 ^ 41)) with 2199023255552. lra. }
  assert (Hi' : rnd (f * IZR s) < IZR m + 1).
  { eapply Rle_lt_trans; [exact Hi|]. rewrite minus_IZR, plus_IZR, mult_IZR. change (bpow radix2 (-41)) with (/ IZR (2 ^ 41)). change (IZR (2 ^ 41)) with 2199023255552. lra. }
  assert (M0 : 0 <= IZR m) by (apply IZR_le; lia).
  assert (TR : Ztrunc (rnd (f * IZR s)) = m).
  { rewrite Ztrunc_floor by lra. apply Zfloor_imp. rewrite plus_IZR. lra. }
  rewrite ftrunc_spec; rewrite ?Vm, ?TR; auto. lia.
Qed.
(** A share that is a whole number depends on that number alone. *)
Lemma share_whole k n s j : (0 <= k <= 8 * n)%Z -> (0 < n <= 2 ^ 40)%Z -> (0 < s <= 128)%Z -> (s * k = j * n)%Z ->
  @share F NF k n s = @share F NF j s s.
Proof.
  intros Hk Hn Hs E. assert (Hj : (0 <= j <= 8 * s)%Z) by nia.
  unfold share. cbn [ntrunc nmul ndiv nofZ FNum].
  destruct (share_vals k n s Hk Hn Hs) as (F1 & V1 & X1). destruct (share_vals j s s Hj ltac:(lia) Hs) as (F2 & V2 & X2).
  assert (Q : IZR k / IZR n = IZR j / IZR s).
  { assert (IZR (s * k) = IZR (j * n)) by (f_equal; exact E). rewrite !mult_IZR in H.
    assert (0 < IZR n) by (apply IZR_lt; lia). assert (0 < IZR s) by (apply IZR_lt; lia).
    apply Rmult_eq_reg_r with (IZR n * IZR s); [|nra]. field_simplify; try lra. }
  rewrite Q in V1. rewrite <- V2 in V1.
  assert (B : 0 <= B2R (fmul (fdiv (fofZ j) (fofZ s)) (fofZ s)) <= 1024).
  { rewrite V2. assert (0 < IZR s <= 128) by (split; [apply IZR_lt; lia|apply IZR_le; lia]).
    assert (0 <= rnd (IZR j / IZR s) <= 8) by (split; [apply rnd_ge_0; lra|apply rnd_le_fmt; [apply (fmt_IZR 8); lia|lra]]).
    split; [apply rnd_ge_0; nra|]. apply rnd_le_fmt; [apply (fmt_IZR 1024); lia|nra]. }
  assert (TB : (0 <= Ztrunc (B2R (fmul (fdiv (fofZ j) (fofZ s)) (fofZ s))) <= 1024)%Z).
  { rewrite Ztrunc_floor by lra. split; [apply Zfloor_lub; lra|]. apply le_IZR. eapply Rle_trans; [apply Zfloor_lb|]. lra. }
  rewrite !ftrunc_spec; rewrite ?V1; auto; lia.
Qed.

(** ** Percentages *)
Definition pct (k n : Z) : F := fmul (fdiv (fofZ k) (fofZ n)) (fofZ 100).
Lemma pct_near k n : (0 <= k <= n)%Z -> (0 < n <= 2 ^ 40)%Z ->
  is_finite (pct k n) = true /\ B2R (pct k n) = rnd (rnd (IZR k / IZR n) * 100) /\
  0 <= IZR k / IZR n <= 1 /\
  Rabs (rnd (IZR k / IZR n) * 100 - 100 * (IZR k / IZR n)) <= 100 * / 562949953421312 /\ 0 <= B2R (pct k n) <= 100.
Proof.
  intros Hk Hn. destruct (share_vals k n 100 ltac:(lia) Hn ltac:(lia)) as (Fm & Vm & X). fold (pct k n) in Fm, Vm.
  assert (Pn : 0 < IZR n) by (apply IZR_lt; lia).
  assert (X1 : IZR k / IZR n <= 1).
  { apply Rmult_le_reg_r with (IZR n); [lra|]. unfold Rdiv. rewrite Rmult_assoc, Rinv_l by lra. rewrite Rmult_1_r, Rmult_1_l. apply IZR_le. lia. }
  pose proof (rnd_err (IZR k / IZR n) X) as Er. change (IZR (2 ^ 49)) with 562949953421312 in Er.
  assert (0 <= rnd (IZR k / IZR n) <= 1) by (split; [apply rnd_ge_0; lra|apply rnd_le_fmt; [apply (fmt_IZR 1); lia|lra]]).
  split; [exact Fm|]. split; [exact Vm|]. split; [lra|]. split.
  - replace (rnd (IZR k / IZR n) * 100 - 100 * (IZR k / IZR n)) with (100 * (rnd (IZR k / IZR n) - IZR k / IZR n)) by ring.
    rewrite Rabs_mult, (Rabs_pos_eq 100) by lra. lra.
  - rewrite Vm. split; [apply rnd_ge_0; lra|]. apply rnd_le_fmt; [apply (fmt_IZR 100); lia|lra].
Qed.
(** [c + 2^-41] for a small whole number [c] is a float. *)
Lemma fmt_shift c d : (0 <= c <= 1024)%Z -> (Z.abs d <= 2 ^ 41)%Z -> fmt (IZR c + IZR d * / 2199023255552).
Proof.
  intros Hc Hd. replace (IZR c + IZR d * / 2199023255552) with (F2R (Float radix2 (c * 2 ^ 41 + d) (-41))).
  - apply fmt_F2R; lia.
  - unfold F2R. cbn [Fnum Fexp]. rewrite plus_IZR, mult_IZR. change (bpow radix2 (-41)) with (/ IZR (2 ^ 41)). change (IZR (2 ^ 41)) with 2199023255552. field.
Qed.
Lemma frac_gap (a b n : Z) : (0 < n <= 2 ^ 40)%Z -> (a < b)%Z -> IZR a / IZR n + / 1099511627776 <= IZR b / IZR n.
Proof.
  intros Hn H. assert (Pn : 0 < IZR n) by (apply IZR_lt; lia).
  assert (/ 1099511627776 <= / IZR n) by (apply Rinv_le; [lra|]; apply IZR_le; lia).
  assert (IZR (a + 1) <= IZR b) by (apply IZR_le; lia). rewrite plus_IZR in H1.
  apply Rle_trans with (IZR a / IZR n + / IZR n); [lra|]. unfold Rdiv. rewrite <- (Rmult_1_l (/ IZR n)) at 2. rewrite <- Rmult_plus_distr_r.
  apply Rmult_le_compat_r; [apply Rlt_le, Rinv_0_lt_compat; lra|lra].
Qed.
Lemma pct_side k n t : (0 <= k <= n)%Z -> (0 < n <= 2 ^ 40)%Z -> (0 <= t <= 100)%Z ->
  ((t * n < 100 * k)%Z -> IZR t < B2R (pct k n)) /\ ((100 * k < t * n)%Z -> B2R (pct k n) < IZR t) /\
  ((100 * k = t * n)%Z -> B2R (pct k n) = B2R (pct t 100)).
Proof.
  intros Hk Hn Ht. destruct (pct_near k n Hk Hn) as (Fm & Vm & X & Er & _). apply Rabs_le_inv in Er.
  assert (Pn : 0 < IZR n) by (apply IZR_lt; lia). rewrite Vm.
  assert (E1 : IZR (100 * k) / IZR n = 100 * (IZR k / IZR n)) by (rewrite mult_IZR; field; lra).
  assert (E2 : IZR (t * n) / IZR n = IZR t) by (rewrite mult_IZR; field; lra).
  split; [|split].
  - intros H. pose proof (frac_gap _ _ n Hn H) as G. rewrite E1, E2 in G.
    apply Rlt_le_trans with (IZR t + IZR 1 * / 2199023255552); [lra|]. apply rnd_ge_fmt; [apply fmt_shift; lia|lra].
  - intros H. pose proof (frac_gap _ _ n Hn H) as G. rewrite E1, E2 in G.
    apply Rle_lt_trans with (IZR t + IZR (-1) * / 2199023255552); [|lra]. apply rnd_le_fmt; [apply fmt_shift; lia|lra].
  - intros H. destruct (pct_near t 100 ltac:(lia) ltac:(lia)) as (_ & Vt & _). rewrite Vt. do 2 f_equal.
    f_equal. apply Rmult_eq_reg_l with 100; [|lra]. rewrite <- E1, H, E2. field.
Qed.
(** Comparisons with a threshold that the rounded percentage hits exactly. *)
Lemma pct_cmp k n t : (0 <= k <= n)%Z -> (0 < n <= 2 ^ 40)%Z -> (0 <= t <= 100)%Z -> feq (pct t 100) (fofZ t) = true ->
  flt (fofZ t) (pct k n) = (t * n <? 100 * k)%Z /\ flt (pct k n) (fofZ t) = (100 * k <? t * n)%Z /\
  fle (fofZ t) (pct k n) = (t * n <=? 100 * k)%Z.
Proof.
  intros Hk Hn Ht Eq. destruct (pct_side k n t Hk Hn Ht) as (A & B & C).
  destruct (pct_near k n Hk Hn) as (Fm & _). destruct (fofZ_fin t) as [Ft Vt]; [lia|].
  destruct (pct_near t 100 ltac:(lia) ltac:(lia)) as (Fp & _).
  apply feq_true in Eq. destruct Eq as (_ & _ & Eq). rewrite !ford_fin, Vt in Eq by assumption.
  pose proof (flt_ord (fofZ t) (pct k n) (fin_nan _ Ft) (fin_nan _ Fm)) as L1.
  pose proof (flt_ord (pct k n) (fofZ t) (fin_nan _ Fm) (fin_nan _ Ft)) as L2.
  pose proof (fle_ord (fofZ t) (pct k n) (fin_nan _ Ft) (fin_nan _ Fm)) as L3.
  rewrite !ford_fin, Vt in L1, L2, L3 by assumption. rewrite L1, L2, L3.
  assert (TR : (t * n < 100 * k \/ 100 * k < t * n \/ 100 * k = t * n)%Z) by lia.
  destruct TR as [H|[H|H]].
  - specialize (A H). rewrite Rlt_bool_true, Rlt_bool_false, Rle_bool_true by lra.
    repeat split; symmetry; [apply Z.ltb_lt|apply Z.ltb_ge|apply Z.leb_le]; lia.
  - specialize (B H). rewrite Rlt_bool_false, Rlt_bool_true, Rle_bool_false by lra.
    repeat split; symmetry; [apply Z.ltb_ge|apply Z.ltb_lt|apply Z.leb_gt]; lia.
  - specialize (C H). rewrite C, Eq. rewrite Rlt_bool_false, Rle_bool_true by lra.
    repeat split; symmetry; [apply Z.ltb_ge|apply Z.ltb_ge|apply Z.leb_le]; lia.
Qed.
Lemma rnd_err128 x : 0 <= x <= 128 -> Rabs (rnd x - x) <= / 35184372088832.
Proof.
  intros H. set (k := Zfloor (x * 35184372088832)). pose proof (Zfloor_lb (x * 35184372088832)) as L. pose proof (Zfloor_ub (x * 35184372088832)) as U.
  fold k in L, U.
  assert (K : (0 <= k <= 128 * 2 ^ 45)%Z).
  { split. - unfold k. apply Zfloor_lub. apply Rmult_le_pos; lra.
    - apply le_IZR. rewrite mult_IZR. eapply Rle_trans; [exact L|]. change (IZR (2 ^ 45)) with 35184372088832. lra. }
  assert (Fy : fmt (IZR k * / 35184372088832)).
  { change (/ 35184372088832) with (bpow radix2 (-45)). change (IZR k * bpow radix2 (-45)) with (F2R (Float radix2 k (-45))). apply fmt_F2R; lia. }
  eapply Rle_trans; [apply (rnd_near x _ Fy)|]. apply Rabs_le. lra.
Qed.
(** A bar of twenty cells shows the share exactly. *)
Lemma bar_cells k n : (0 <= k <= n)%Z -> (0 < n <= 2 ^ 40)%Z -> ftrunc (fdiv (pct k n) (fofZ 5)) = (20 * k / n)%Z.
Proof.
  intros Hk Hn. destruct (pct_near k n Hk Hn) as (Fm & Vm & X & Er & PB). apply Rabs_le_inv in Er.
  assert (Pn : 0 < IZR n) by (apply IZR_lt; lia).
  destruct (fofZ_fin 5) as [F5 V5]; [lia|].
  assert (B8 : 1024 <= bpow radix2 1023) by (apply (bpow1023_ge 10); lia).
  destruct (fdiv_fin (pct k n) (fofZ 5) Fm F5) as [Fd Vd]; [rewrite V5; lra|rewrite V5, Rabs_pos_eq; lra|].
  rewrite V5 in Vd.
  assert (DB : 0 <= B2R (fdiv (pct k n) (fofZ 5)) <= 20).
  { rewrite Vd. split; [apply rnd_ge_0; lra|]. apply rnd_le_fmt; [apply (fmt_IZR 20); lia|lra]. }
  set (m := (20 * k / n)%Z).
  assert (Mr : (0 <= m <= 20)%Z). { split; [apply Z.div_pos; lia|]. apply Z.div_le_upper_bound; lia. }
  pose proof (Z.div_mod (20 * k) n ltac:(lia)) as DM. fold m in DM. pose proof (Z.mod_pos_bound (20 * k) n ltac:(lia)) as MB.
  set (r := ((20 * k) mod n)%Z) in *.
  destruct (Z.eq_dec r 0) as [Hr|Hr].
  - destruct (pct_side k n (5 * m) Hk Hn ltac:(lia)) as (_ & _ & C).
    assert (Q : (100 * k = 5 * m * n)%Z) by lia. specialize (C Q).
    assert (T : forallb (fun j => ftrunc (fdiv (pct (5 * Z.of_nat j) 100) (fofZ 5)) =? Z.of_nat j)%Z (seq 0 21) = true) by (vm_compute; reflexivity).
    rewrite forallb_forall in T. specialize (T (Z.to_nat m)). rewrite in_seq in T. specialize (T ltac:(lia)). apply Z.eqb_eq in T.
    rewrite Z2Nat.id in T by lia.
    destruct (pct_near (5 * m) 100 ltac:(lia) ltac:(lia)) as (F1 & _ & _ & _ & PB1).
    destruct (fdiv_fin (pct (5 * m) 100) (fofZ 5) F1 F5) as [F2 V2]; [rewrite V5; lra|rewrite V5, Rabs_pos_eq; lra|].
    rewrite V5, <- C, <- Vd in V2. rewrite <- T.
    assert (TB : (0 <= Ztrunc (B2R (fdiv (pct k n) (fofZ 5))) <= 20)%Z).
    { rewrite Ztrunc_floor by lra. split; [apply Zfloor_lub; lra|]. apply le_IZR. eapply Rle_trans; [apply Zfloor_lb|]. lra. }
    rewrite !ftrunc_spec; rewrite ?V2; auto; lia.
  - assert (E1 : IZR (20 * k) / IZR n = 20 * (IZR k / IZR n)) by (rewrite mult_IZR; field; lra).
    assert (E2 : IZR (m * n) / IZR n = IZR m) by (rewrite mult_IZR; field; lra).
    assert (E3 : IZR ((m + 1) * n) / IZR n = IZR m + 1) by (rewrite mult_IZR, plus_IZR; field; lra).
    pose proof (frac_gap (m * n) (20 * k) n Hn ltac:(nia)) as G1. pose proof (frac_gap (20 * k) ((m + 1) * n) n Hn ltac:(nia)) as G2.
    rewrite E1, E2 in G1. rewrite E1, E3 in G2.
    assert (HR : 0 <= rnd (IZR k / IZR n) * 100 <= 128). { split; [apply Rmult_le_pos; [apply rnd_ge_0; apply X|lra]|lra]. }
    pose proof (rnd_err128 _ HR) as Er2. rewrite <- Vm in Er2. apply Rabs_le_inv in Er2.
    assert (Lo : IZR m <= B2R (fdiv (pct k n) (fofZ 5))) by (rewrite Vd; apply rnd_ge_fmt; [apply fmt_IZR; lia|lra]).
    assert (Hi : B2R (fdiv (pct k n) (fofZ 5)) <= IZR m + IZR (2 ^ 41 - 1) * / 2199023255552).
    { rewrite Vd. apply rnd_le_fmt; [apply fmt_shift; lia|]. change (IZR (2 ^ 41 - 1)) with 2199023255551. lra. }
    change (IZR (2 ^ 41 - 1)) with 2199023255551 in Hi.
    assert (TR : Ztrunc (B2R (fdiv (pct k n) (fofZ 5))) = m).
    { rewrite Ztrunc_floor by lra. apply Zfloor_imp. rewrite plus_IZR. lra. }
    rewrite ftrunc_spec; rewrite ?TR; auto. lia.
Qed.
(** Bars of twenty and thirty cells and percentages from counts. *)
Lemma share_exact20 k n : (0 <= k <= 4 * n)%Z -> (0 < n <= 2 ^ 40)%Z -> @share F NF k n 20 = (20 * k / n)%Z.
Proof.
  intros Hk Hn. destruct (Z.eq_dec ((20 * k) mod n) 0) as [Hr|Hr]; [|apply share_floor; lia].
  pose proof (Z.div_mod (20 * k) n ltac:(lia)) as DM. rewrite Hr in DM.
  assert (J : (0 <= 20 * k / n <= 80)%Z) by (split; [apply Z.div_pos; lia|apply Z.div_le_upper_bound; lia]).
  rewrite (share_whole k n 20 (20 * k / n)) by lia. set (j := (20 * k / n)%Z) in *.
  assert (T : forallb (fun j => ftrunc (fmul (fdiv (fofZ (Z.of_nat j)) (fofZ 20)) (fofZ 20)) =? Z.of_nat j)%Z (seq 0 81) = true) by (vm_compute; reflexivity).
  rewrite forallb_forall in T. specialize (T (Z.to_nat j)). rewrite in_seq in T. specialize (T ltac:(lia)). apply Z.eqb_eq in T.
  rewrite Z2Nat.id in T by lia. exact T.
Qed.
Lemma share_exact30 k n : (0 <= k <= n)%Z -> (0 < n <= 2 ^ 40)%Z -> @share F NF k n 30 = (30 * k / n)%Z.
Proof.
  intros Hk Hn. destruct (Z.eq_dec ((30 * k) mod n) 0) as [Hr|Hr]; [|apply share_floor; lia].
  pose proof (Z.div_mod (30 * k) n ltac:(lia)) as DM. rewrite Hr in DM.
  assert (J : (0 <= 30 * k / n <= 30)%Z) by (split; [apply Z.div_pos; lia|apply Z.div_le_upper_bound; lia]).
  rewrite (share_whole k n 30 (30 * k / n)) by lia. set (j := (30 * k / n)%Z) in *.
  assert (T : forallb (fun j => ftrunc (fmul (fdiv (fofZ (Z.of_nat j)) (fofZ 30)) (fofZ 30)) =? Z.of_nat j)%Z (seq 0 31) = true) by (vm_compute; reflexivity).
  rewrite forallb_forall in T. specialize (T (Z.to_nat j)). rewrite in_seq in T. specialize (T ltac:(lia)). apply Z.eqb_eq in T.
  rewrite Z2Nat.id in T by lia. exact T.
Qed.
Definition oneLow (j : Z) : bool := (j =? 29)%Z || (j =? 57)%Z || (j =? 58)%Z.
Lemma share_exact100 k n : (0 <= k <= n)%Z -> (0 < n <= 2 ^ 40)%Z ->
  @share F NF k n 100 = (100 * k / n - (if ((100 * k) mod n =? 0) && oneLow (100 * k / n) then 1 else 0))%Z.
Proof.
  intros Hk Hn. destruct (Z.eqb_spec ((100 * k) mod n) 0) as [Hr|Hr]; [|rewrite Z.sub_0_r; apply share_floor; lia].
  pose proof (Z.div_mod (100 * k) n ltac:(lia)) as DM. rewrite Hr in DM.
  assert (J : (0 <= 100 * k / n <= 100)%Z) by (split; [apply Z.div_pos; lia|apply Z.div_le_upper_bound; lia]).
  rewrite (share_whole k n 100 (100 * k / n)) by lia. set (j := (100 * k / n)%Z) in *.
  assert (T : forallb (fun j => ftrunc (fmul (fdiv (fofZ (Z.of_nat j)) (fofZ 100)) (fofZ 100)) =? Z.of_nat j - (if oneLow (Z.of_nat j) then 1 else 0))%Z (seq 0 101) = true) by (vm_compute; reflexivity).
  rewrite forallb_forall in T. specialize (T (Z.to_nat j)). rewrite in_seq in T. specialize (T ltac:(lia)). apply Z.eqb_eq in T.
  rewrite Z2Nat.id in T by lia. exact T.
Qed.
End S.
