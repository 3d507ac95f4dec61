(** Linear regression over the reals. *)
From Coq Require Import ZArith Reals Psatz List Bool Lia.
From Verif Require Import Num RealNum M_Monitor S_Monitor.
Import ListNotations.
Open Scope R_scope.

Fixpoint SX (i : R) (l : list R) : R := match l with [] => 0 | _ :: r => i + SX (i + 1) r end.
Fixpoint SXX (i : R) (l : list R) : R := match l with [] => 0 | _ :: r => i * i + SXX (i + 1) r end.
Fixpoint SY (l : list R) : R := match l with [] => 0 | y :: r => y + SY r end.
Fixpoint SYY (l : list R) : R := match l with [] => 0 | y :: r => y * y + SYY r end.
Fixpoint SXY (i : R) (l : list R) : R := match l with [] => 0 | y :: r => i * y + SXY (i + 1) r end.
Definition len (l : list R) : R := INR (List.length l).

Lemma regLoop_spec l : forall i s, @regLoop R RNum i l s =
  mkRS (rs_x s + SX (IZR i) l) (rs_y s + SY l) (rs_xy s + SXY (IZR i) l) (rs_x2 s + SXX (IZR i) l).
Proof.
  induction l as [|y l IH]; intros i s.
  - destruct s. cbn. now rewrite !Rplus_0_r.
  - cbn [regLoop]. rewrite IH. cbn. rewrite plus_IZR. f_equal; ring.
Qed.
Lemma regSums_spec l : @regSums R RNum l = mkRS (SX 0 l) (SY l) (SXY 0 l) (SXX 0 l).
Proof. unfold regSums. rewrite regLoop_spec. cbn. now rewrite !Rplus_0_l. Qed.

Lemma len_cons y l : len (y :: l) = len l + 1.
Proof. unfold len. cbn [List.length]. now rewrite S_INR. Qed.
Lemma SX_closed l : forall i, SX i l = len l * i + len l * (len l - 1) / 2.
Proof.
  induction l as [|y l IH]; intros i; [unfold len; cbn; lra|]. cbn [SX]. rewrite IH, len_cons. field.
Qed.
Lemma SXX_closed l : forall i, SXX i l = len l * i * i + i * len l * (len l - 1) + len l * (len l - 1) * (2 * len l - 1) / 6.
Proof.
  induction l as [|y l IH]; intros i; [unfold len; cbn; lra|]. cbn [SXX]. rewrite IH, len_cons. field.
Qed.
Definition DEN (l : list R) : R := len l * SXX 0 l - SX 0 l * SX 0 l.
Definition NUM (l : list R) : R := len l * SXY 0 l - SX 0 l * SY l.
Lemma DEN_closed l : DEN l = len l * len l * (len l * len l - 1) / 12.
Proof. unfold DEN. rewrite SX_closed, SXX_closed. field. Qed.
Lemma len_ge2 l : (2 <= List.length l)%nat -> 2 <= len l.
Proof. intros H. unfold len. apply (le_INR 2) in H. cbn in H. lra. Qed.
Lemma DEN_ge l : (2 <= List.length l)%nat -> 1 <= DEN l.
Proof. intros H. apply len_ge2 in H. rewrite DEN_closed. assert (4 <= len l * len l) by nra. assert (4 * 3 <= len l * len l * (len l * len l - 1)) by (apply Rmult_le_compat; lra). lra. Qed.

Lemma sse_poly a b l : forall i, sse a b i l =
  SYY l - 2 * a * SY l - 2 * b * SXY i l + len l * a * a + 2 * a * b * SX i l + b * b * SXX i l.
Proof.
  induction l as [|y l IH]; intros i; [unfold len; cbn; lra|].
  cbn [sse SYY SY SXY SX SXX]. rewrite IH, len_cons. ring.
Qed.
Lemma slope_optimal l : (2 <= List.length l)%nat -> least_squares_slope l (NUM l / DEN l).
Proof.
  intros H. pose proof (DEN_ge l H) as D. pose proof (len_ge2 l H) as L.
  set (b := NUM l / DEN l). exists ((SY l - b * SX 0 l) / len l). set (a := (SY l - b * SX 0 l) / len l).
  intros a' b'. rewrite !sse_poly.
  assert (E1 : len l * a + b * SX 0 l = SY l) by (unfold a; field; lra).
  assert (E2 : a * SX 0 l + b * SXX 0 l = SXY 0 l).
  { apply (Rmult_eq_reg_l (len l)); [|lra].
    replace (len l * (a * SX 0 l + b * SXX 0 l)) with ((len l * a + b * SX 0 l) * SX 0 l + b * DEN l) by (unfold DEN; ring).
    rewrite E1. unfold b. replace (NUM l / DEN l * DEN l) with (NUM l) by (field; lra). unfold NUM. ring. }
  set (da := a' - a). set (db := b' - b).
  replace a' with (a + da) by (unfold da; ring). replace b' with (b + db) by (unfold db; ring).
  match goal with |- ?x <= ?y => cut (0 <= y - x); [lra|] end.
  match goal with |- 0 <= ?e => replace e with (len l * da * da + 2 * da * db * SX 0 l + db * db * SXX 0 l) end.
  2:{ rewrite <- E1, <- E2. ring. }
  cut (0 <= len l * (len l * da * da + 2 * da * db * SX 0 l + db * db * SXX 0 l)).
  { intros K. apply (Rmult_le_reg_l (len l)); lra. }
  replace (len l * (len l * da * da + 2 * da * db * SX 0 l + db * db * SXX 0 l)) with
    ((len l * da + db * SX 0 l) * (len l * da + db * SX 0 l) + DEN l * (db * db)) by (unfold DEN; ring).
  assert (0 <= DEN l * (db * db)) by (apply Rmult_le_pos; [lra|exact (Rle_0_sqr db)]).
  pose proof (Rle_0_sqr (len l * da + db * SX 0 l)) as K. unfold Rsqr in K. lra.
Qed.
Lemma slope_unique l b : (2 <= List.length l)%nat -> least_squares_slope l b -> b = NUM l / DEN l.
Proof.
  intros H [a Ha]. pose proof (DEN_ge l H) as D. pose proof (len_ge2 l H) as L.
  set (u := SY l - len l * a - b * SX 0 l). set (v := SXY 0 l - a * SX 0 l - b * SXX 0 l).
  (* moving along (x, y) changes the residual by -2(x u + y v) + q(x,y) *)
  assert (G : forall x y t, 0 <= - 2 * t * (x * u + y * v) + t * t * (len l * x * x + 2 * x * y * SX 0 l + y * y * SXX 0 l)).
  { intros x y t. specialize (Ha (a + t * x) (b + t * y)). rewrite !sse_poly in Ha. unfold u, v. match goal with |- 0 <= ?e => match type of Ha with ?x <= ?y => replace e with (y - x) by ring end end. lra. }
  assert (Z : forall x y, x * u + y * v = 0).
  { intros x y. set (q := len l * x * x + 2 * x * y * SX 0 l + y * y * SXX 0 l). set (w := x * u + y * v).
    assert (Q : 0 <= q).
    { pose proof (G x y 1) as G1. pose proof (G x y (-1)) as G2. fold q w in G1, G2. lra. }
    destruct (Req_dec w 0) as [|N]; auto. exfalso.
    specialize (G x y (w / (q + 1))). fold q w in G.
    replace (-2 * (w / (q + 1)) * w + w / (q + 1) * (w / (q + 1)) * q) with (- (w * w) * (q + 2) / ((q + 1) * (q + 1))) in G by (field; lra).
    assert (0 < w * w) by nra.
    assert (0 < w * w * (q + 2) / ((q + 1) * (q + 1))).
    { apply Rdiv_lt_0_compat; nra. }
    replace (- (w * w) * (q + 2) / ((q + 1) * (q + 1))) with (- (w * w * (q + 2) / ((q + 1) * (q + 1)))) in G by (field; lra).
    lra. }
  pose proof (Z 1 0) as U. pose proof (Z 0 1) as V.
  assert (b * DEN l = NUM l) by (unfold DEN, NUM, u, v in *; nra).
  rewrite <- H0. field. lra.
Qed.

Lemma NUM_shift c l : NUM (map (fun y => y + c) l) = NUM l.
Proof.
  assert (A : forall i, SX i (map (fun y => y + c) l) = SX i l) by (induction l as [|y l' IH]; intros i; cbn; auto; now rewrite IH).
  assert (B : SY (map (fun y => y + c) l) = SY l + len l * c).
  { clear A. induction l as [|y l' IH]; [unfold len; cbn; lra|]. cbn [map SY]. rewrite IH, len_cons. ring. }
  assert (C : forall i, SXY i (map (fun y => y + c) l) = SXY i l + c * SX i l).
  { clear A B. induction l as [|y l' IH]; intros i; cbn; [ring|]. rewrite IH. ring. }
  unfold NUM. rewrite A, B, C. unfold len. rewrite map_length. ring.
Qed.
Lemma DEN_len l l' : List.length l = List.length l' -> DEN l = DEN l'.
Proof. intros H. rewrite !DEN_closed. unfold len. now rewrite H. Qed.

(** Strictly increasing lists have a positive numerator. *)
Fixpoint increasing (l : list R) : Prop :=
  match l with [] => True | y :: r => (forall z, In z r -> y < z) /\ increasing r end.
Lemma cross_nonneg y i0 l : forall i, i0 < i -> (forall z, In z l -> y < z) ->
  0 <= SXY i l - i0 * SY l - y * SX i l + len l * i0 * y /\
  (l <> [] -> 0 < SXY i l - i0 * SY l - y * SX i l + len l * i0 * y).
Proof.
  induction l as [|z l IH]; intros i Hi HI.
  - unfold len. cbn. split; [lra|congruence].
  - destruct (IH (i + 1)) as [A _]; [lra|intros w Hw; apply HI; now right|].
    pose proof (HI z (or_introl eq_refl)) as HZ.
    assert (P : 0 < (i - i0) * (z - y)) by nra.
    cbn [SXY SY SX]. rewrite len_cons. split; [|intros _]; nra.
Qed.
Lemma NUM_from l : forall i, increasing l -> (2 <= List.length l)%nat -> 0 < len l * SXY i l - SX i l * SY l.
Proof.
  induction l as [|y l IH]; intros i HI HL; [cbn in HL; lia|].
  destruct HI as [H1 H2]. cbn [SXY SY SX]. rewrite len_cons.
  destruct (cross_nonneg y i l (i + 1) ltac:(lra) H1) as [_ C].
  destruct l as [|z l']; [cbn in HL; lia|]. specialize (C ltac:(discriminate)).
  destruct l' as [|w l''].
  - unfold len in *. cbn in *. nra.
  - specialize (IH (i + 1) H2 ltac:(cbn; lia)). nra.
Qed.
Lemma NUM_linear a b n : forall i, 
  let l := map (fun k => a + b * INR k) (seq i n) in
  len l * SXY (INR i) l - SX (INR i) l * SY l = b * (len l * SXX (INR i) l - SX (INR i) l * SX (INR i) l).
Proof.
  assert (E : forall n i, let l := map (fun k => a + b * INR k) (seq i n) in
    SY l = len l * a + b * SX (INR i) l /\ SXY (INR i) l = a * SX (INR i) l + b * SXX (INR i) l).
  { clear. induction n as [|n IH]; intros i; [unfold len; cbn; split; ring|].
    cbn [seq map SY SX SXX SXY]. rewrite len_cons. specialize (IH (S i)). rewrite S_INR in IH. destruct IH as [-> ->]. split; ring. }
  intros i. destruct (E n i) as [A B]. cbv zeta. rewrite A, B. ring.
Qed.
Lemma lastn_length {A} k (l : list A) : (k <= List.length l)%nat -> List.length (lastn k l) = k.
Proof. intros H. unfold lastn. rewrite skipn_length. lia. Qed.
Lemma lastn_split {A} k (l : list A) : exists p, l = p ++ lastn k l.
Proof. exists (firstn (List.length l - k) l). unfold lastn. symmetry. apply firstn_skipn. Qed.
Lemma lastn_all {A} k (l : list A) : (List.length l <= k)%nat -> lastn k l = l.
Proof. intros H. unfold lastn. now replace (List.length l - k)%nat with O by lia. Qed.
