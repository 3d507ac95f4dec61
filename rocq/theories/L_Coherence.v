(** Facts about MeasureCoherence / MeasureCoherenceWeighted over exact reals. *)
From Coq Require Import ZArith Reals Psatz Bool List Permutation.
From Flocq Require Import Core.Core.
From Verif Require Import Num RealNum S_Circle M_Core L_Circle.
Import ListNotations.
Open Scope R_scope.

Fixpoint rsum {A} (f : A -> R) (l : list A) : R :=
  match l with [] => 0 | x :: r => f x + rsum f r end.

Lemma fold_rsum {A} (f : A -> R) l a : fold_left (fun s x => s + f x) l a = a + rsum f l.
Proof.
  revert a; induction l as [|x l IH]; intros a; simpl; [ring|]. rewrite IH. ring.
Qed.
Lemma rsum_ext {A} (f g : A -> R) l : (forall x, In x l -> f x = g x) -> rsum f l = rsum g l.
Proof.
  induction l as [|x l IH]; intros H; simpl; auto.
  rewrite H by (left; auto). rewrite IH; auto. intros y Hy. apply H. now right.
Qed.
Lemma rsum_le {A} (f g : A -> R) l : (forall x, In x l -> f x <= g x) -> rsum f l <= rsum g l.
Proof.
  induction l as [|x l IH]; intros H; simpl; [lra|].
  apply Rplus_le_compat; [apply H; left; auto|]. apply IH. intros y Hy. apply H. now right.
Qed.
Lemma rsum_ge0 {A} (f : A -> R) l : (forall x, In x l -> 0 <= f x) -> 0 <= rsum f l.
Proof.
  induction l as [|x l IH]; intros H; simpl; [lra|].
  apply Rplus_le_le_0_compat; [apply H; left; auto|]. apply IH. intros y Hy. apply H. now right.
Qed.
Lemma rsum_plus {A} (f g : A -> R) l : rsum (fun x => f x + g x) l = rsum f l + rsum g l.
Proof. induction l as [|x l IH]; simpl; [ring|]. rewrite IH. ring. Qed.
Lemma rsum_scale {A} c (f : A -> R) l : rsum (fun x => c * f x) l = c * rsum f l.
Proof. induction l as [|x l IH]; simpl; [ring|]. rewrite IH. ring. Qed.
Lemma rsum_const {A} c (l : list A) : rsum (fun _ => c) l = INR (length l) * c.
Proof.
  induction l as [|x l IH]; [simpl; ring|]. cbn [rsum length]. rewrite IH, S_INR. ring.
Qed.
Lemma rsum_map {A B} (g : A -> B) (f : B -> R) l : rsum f (map g l) = rsum (fun x => f (g x)) l.
Proof. induction l as [|x l IH]; simpl; [reflexivity|]. now rewrite IH. Qed.
Lemma rsum_perm {A} (f : A -> R) l l' : Permutation l l' -> rsum f l = rsum f l'.
Proof. induction 1; simpl; lra. Qed.
Lemma rsum_app {A} (f : A -> R) l l' : rsum f (l ++ l') = rsum f l + rsum f l'.
Proof. induction l as [|x l IH]; simpl; [ring|]. rewrite IH. ring. Qed.
Lemma rsum_eq_le_all {A} (f g : A -> R) l : (forall x, In x l -> f x <= g x) ->
  rsum f l = rsum g l -> forall x, In x l -> f x = g x.
Proof.
  induction l as [|y l IH]; intros H E x Hx; [easy|]. simpl in E.
  assert (A1 : f y <= g y) by (apply H; left; auto).
  assert (A2 : rsum f l <= rsum g l) by (apply rsum_le; intros; apply H; now right).
  destruct Hx as [->|Hx]; [lra|]. apply IH; auto; [intros; apply H; now right|lra].
Qed.

Notation RMC := (@MeasureCoherence R RNum).
Notation RMCW := (@MeasureCoherenceWeighted R RNum).

Definition vlen (c s : R) : R := sqrt (c * c + s * s).

Lemma RMC_unfold l : l <> [] -> RMC l = vlen (rsum cos l) (rsum sin l) / INR (length l).
Proof.
  intros H. destruct l as [|x l]; [congruence|]. unfold MeasureCoherence.
  set (l' := x :: l) in *.
  change (sqrt (fold_left (fun s p => s + cos p) l' 0 * fold_left (fun s p => s + cos p) l' 0 +
                fold_left (fun s p => s + sin p) l' 0 * fold_left (fun s p => s + sin p) l' 0)
          / IZR (Z.of_nat (length l')) = vlen (rsum cos l') (rsum sin l') / INR (length l')).
  rewrite !fold_rsum, !Rplus_0_l, <- INR_IZR_INZ. reflexivity.
Qed.

(** The key projection identity. *)
Lemma weighted_projection {A} (w p : A -> R) (l : list A) :
  exists t, vlen (rsum (fun x => w x * cos (p x)) l) (rsum (fun x => w x * sin (p x)) l)
            = rsum (fun x => w x * cos (p x - t)) l.
Proof.
  set (C := rsum (fun x => w x * cos (p x)) l). set (S := rsum (fun x => w x * sin (p x)) l).
  assert (P : forall t, rsum (fun x => w x * cos (p x - t)) l = cos t * C + sin t * S).
  { intros t. unfold C, S. rewrite <- !rsum_scale, <- rsum_plus.
    apply rsum_ext. intros x _. rewrite cos_minus. ring. }
  destruct (Req_dec C 0) as [Hc|Hc]; [destruct (Req_dec S 0) as [Hs|Hs]|].
  - exists 0. rewrite P, Hc, Hs. unfold vlen. rewrite !Rmult_0_l, Rplus_0_r, sqrt_0. ring.
  - destruct (polar C S (or_intror Hs)) as (r & t & Hr & _ & E1 & E2 & E3).
    exists t. rewrite P. unfold vlen. rewrite <- E3. rewrite E1, E2.
    pose proof (sin2_cos2 t) as SC. unfold Rsqr in SC. nra.
  - destruct (polar C S (or_introl Hc)) as (r & t & Hr & _ & E1 & E2 & E3).
    exists t. rewrite P. unfold vlen. rewrite <- E3. rewrite E1, E2.
    pose proof (sin2_cos2 t) as SC. unfold Rsqr in SC. nra.
Qed.

Lemma weighted_bound {A} (w p : A -> R) (l : list A) :
  (forall x, In x l -> 0 <= w x) ->
  vlen (rsum (fun x => w x * cos (p x)) l) (rsum (fun x => w x * sin (p x)) l) <= rsum w l.
Proof.
  intros H. destruct (weighted_projection w p l) as [t ->].
  apply rsum_le. intros x Hx. pose proof (H x Hx). pose proof (COS_bound (p x - t)). nra.
Qed.

Lemma vlen_scale c x y : 0 <= c -> vlen (c * x) (c * y) = c * vlen x y.
Proof.
  intros Hc. unfold vlen. replace (c * x * (c * x) + c * y * (c * y)) with ((c * c) * (x * x + y * y)) by ring.
  rewrite sqrt_mult_alt by (apply Rmult_le_pos; auto). now rewrite sqrt_square.
Qed.
Lemma vlen_ge0 c s : 0 <= vlen c s.
Proof. apply sqrt_pos. Qed.

Lemma unit_weights l : rsum cos l = rsum (fun x => 1 * cos x) l /\ rsum sin l = rsum (fun x => 1 * sin x) l.
Proof. split; apply rsum_ext; intros; ring. Qed.

Lemma INR_len_pos {A} (l : list A) : l <> [] -> 0 < INR (length l).
Proof. intros H. destruct l; [congruence|]. apply lt_0_INR. simpl. lia. Qed.

Lemma RMC_bounds l : 0 <= RMC l <= 1.
Proof.
  destruct l as [|x l']; [simpl; unfold n0; simpl; lra|]. set (l := x :: l').
  assert (Hl : l <> []) by (unfold l; congruence).
  rewrite RMC_unfold by auto. pose proof (INR_len_pos l Hl) as Hn.
  pose proof (vlen_ge0 (rsum cos l) (rsum sin l)).
  assert (vlen (rsum cos l) (rsum sin l) <= INR (length l)).
  { destruct (unit_weights l) as [-> ->].
    eapply Rle_trans; [apply weighted_bound; intros; lra|]. rewrite rsum_const. lra. }
  split.
  - apply Rmult_le_pos; auto. left. now apply Rinv_0_lt_compat.
  - apply Rmult_le_reg_r with (INR (length l)); auto. unfold Rdiv.
    rewrite Rmult_assoc, Rinv_l by lra. lra.
Qed.

Lemma cos_1_cong x : cos x = 1 -> cong x 0.
Proof.
  intros H. destruct (cong_rep_pi x) as (t & Ht & C). apply cong_trans with t; auto.
  rewrite (cong_cos _ _ C) in H. pose proof PI_pos.
  assert (t = 0) as ->; [|apply cong_refl].
  destruct (Rtotal_order t 0) as [L|[E|G]]; auto; exfalso.
  - rewrite <- cos_neg in H. assert (cos (- t) < cos 0) by (apply cos_decreasing_1; lra).
    rewrite cos_0 in *. lra.
  - assert (cos t < cos 0) by (apply cos_decreasing_1; lra). rewrite cos_0 in *. lra.
Qed.

Lemma RMC_one_iff l : l <> [] ->
  (RMC l = 1 <-> forall p q, In p l -> In q l -> cong p q).
Proof.
  intros Hl. rewrite RMC_unfold by auto. pose proof (INR_len_pos l Hl) as Hn. split.
  - intros E p q Hp Hq.
    assert (E1 : vlen (rsum cos l) (rsum sin l) = INR (length l)).
    { apply (f_equal (fun z => z * INR (length l))) in E. unfold Rdiv in E.
      rewrite Rmult_assoc, Rinv_l in E by lra. lra. }
    destruct (unit_weights l) as [U1 U2]. rewrite U1, U2 in E1.
    destruct (weighted_projection (fun _ => 1) (fun x => x) l) as [t Ht].
    rewrite Ht in E1.
    assert (Hall : forall x, In x l -> 1 * cos (x - t) = 1).
    { apply rsum_eq_le_all.
      - intros x _. pose proof (COS_bound (x - t)). lra.
      - rewrite E1, rsum_const. ring. }
    assert (G : forall x, In x l -> cong x t).
    { intros x Hx. pose proof (Hall x Hx) as Hx1. rewrite Rmult_1_l in Hx1.
      apply cos_1_cong in Hx1. destruct Hx1 as [k Hk]. exists k. lra. }
    apply cong_trans with t; auto. now apply cong_sym, G.
  - intros H. destruct l as [|x l']; [congruence|]. set (l := x :: l') in *.
    assert (Hc : rsum cos l = INR (length l) * cos x).
    { rewrite <- (rsum_const (cos x) l). apply rsum_ext. intros y Hy.
      apply cong_cos, H; auto. now left. }
    assert (Hs : rsum sin l = INR (length l) * sin x).
    { rewrite <- (rsum_const (sin x) l). apply rsum_ext. intros y Hy.
      apply cong_sin, H; auto. now left. }
    rewrite Hc, Hs. unfold vlen.
    replace (INR (length l) * cos x * (INR (length l) * cos x) +
             INR (length l) * sin x * (INR (length l) * sin x))
      with (INR (length l) * INR (length l) * ((sin x)² + (cos x)²)) by (unfold Rsqr; ring).
    rewrite sin2_cos2, Rmult_1_r, sqrt_square by lra. field. lra.
Qed.

Lemma RMC_perm l l' : Permutation l l' -> RMC l = RMC l'.
Proof.
  intros P. destruct l as [|x l0].
  - apply Permutation_nil in P. subst. reflexivity.
  - assert (x :: l0 <> []) by congruence.
    assert (l' <> []). { intros ->. apply Permutation_sym, Permutation_nil in P. discriminate. }
    rewrite !RMC_unfold by auto. rewrite (rsum_perm cos _ _ P), (rsum_perm sin _ _ P).
    rewrite (Permutation_length P). reflexivity.
Qed.

Lemma RMC_cong l l' : Forall2 cong l l' -> RMC l = RMC l'.
Proof.
  intros H. assert (rsum cos l = rsum cos l' /\ rsum sin l = rsum sin l' /\ length l = length l') as (A & B & C).
  { induction H as [|x y l l' Hxy Hf IH]; simpl; auto. destruct IH as (A & B & C).
    rewrite (cong_cos _ _ Hxy), (cong_sin _ _ Hxy), A, B, C. auto. }
  destruct H as [|x y l l' Hxy Hf]; auto.
  rewrite !RMC_unfold by congruence. now rewrite A, B, C.
Qed.

Lemma RMC_rotate a l : RMC (map (fun p => p + a) l) = RMC l.
Proof.
  destruct l as [|x l0]; [reflexivity|]. set (l := x :: l0).
  assert (Hl : l <> []) by (unfold l; congruence).
  assert (map (fun p => p + a) l <> []) by (unfold l; simpl; congruence).
  rewrite !RMC_unfold by auto. rewrite map_length. f_equal.
  rewrite !rsum_map.
  assert (rsum (fun x => cos (x + a)) l = cos a * rsum cos l + (- sin a) * rsum sin l) as ->.
  { rewrite <- !rsum_scale, <- rsum_plus. apply rsum_ext. intros. rewrite cos_plus. ring. }
  assert (rsum (fun x => sin (x + a)) l = sin a * rsum cos l + cos a * rsum sin l) as ->.
  { rewrite <- !rsum_scale, <- rsum_plus. apply rsum_ext. intros. rewrite sin_plus. ring. }
  unfold vlen. f_equal. set (C := rsum cos l). set (S := rsum sin l).
  transitivity ((C * C + S * S) * ((sin a)² + (cos a)²)); [unfold Rsqr; ring|].
  rewrite sin2_cos2. ring.
Qed.

(** Equally spaced phases cancel. *)
Lemma dirichlet_cos h a n :
  2 * sin h * rsum (fun k => cos (a + 2 * INR k * h)) (seq 0 n) =
  sin (a + (2 * INR n - 1) * h) - sin (a - h).
Proof.
  induction n as [|n IH].
  - simpl. replace (a + (2 * 0 - 1) * h) with (a - h) by ring. ring.
  - rewrite seq_S, rsum_app. cbn [rsum Nat.add]. rewrite Rmult_plus_distr_l, IH.
    rewrite Rplus_0_r.
    assert (E : sin (a + (2 * INR (S n) - 1) * h) - sin (a + (2 * INR n - 1) * h) =
                2 * sin h * cos (a + 2 * INR n * h)).
    { rewrite S_INR.
      replace (a + (2 * (INR n + 1) - 1) * h) with ((a + 2 * INR n * h) + h) by ring.
      replace (a + (2 * INR n - 1) * h) with ((a + 2 * INR n * h) - h) by ring.
      rewrite sin_plus, sin_minus. ring. }
    lra.
Qed.
Lemma dirichlet_sin h a n :
  2 * sin h * rsum (fun k => sin (a + 2 * INR k * h)) (seq 0 n) =
  cos (a - h) - cos (a + (2 * INR n - 1) * h).
Proof.
  induction n as [|n IH].
  - simpl. replace (a + (2 * 0 - 1) * h) with (a - h) by ring. ring.
  - rewrite seq_S, rsum_app. cbn [rsum Nat.add]. rewrite Rmult_plus_distr_l, IH.
    rewrite Rplus_0_r.
    assert (E : cos (a + (2 * INR n - 1) * h) - cos (a + (2 * INR (S n) - 1) * h) =
                2 * sin h * sin (a + 2 * INR n * h)).
    { rewrite S_INR.
      replace (a + (2 * (INR n + 1) - 1) * h) with ((a + 2 * INR n * h) + h) by ring.
      replace (a + (2 * INR n - 1) * h) with ((a + 2 * INR n * h) - h) by ring.
      rewrite cos_plus, cos_minus. ring. }
    lra.
Qed.
Lemma RMC_equal_spacing a n : (2 <= n)%nat ->
  RMC (map (fun k => a + 2 * PI * INR k / INR n) (seq 0 n)) = 0.
Proof.
  intros Hn. pose proof PI_pos as HP.
  assert (Hn0 : 2 <= INR n) by (apply (le_INR 2); auto).
  set (h := PI / INR n).
  assert (Hh : 0 < h < PI).
  { unfold h. split; [apply Rdiv_lt_0_compat; lra|].
    apply Rmult_lt_reg_r with (INR n); [lra|]. unfold Rdiv. rewrite Rmult_assoc, Rinv_l by lra. nra. }
  assert (Hs : 0 < sin h) by (apply sin_gt_0; lra).
  assert (Hnh : INR n * h = PI) by (unfold h; field; lra).
  rewrite RMC_unfold by (destruct n; [lia|simpl; congruence]).
  rewrite !rsum_map.
  assert (EC : rsum (fun k => cos (a + 2 * PI * INR k / INR n)) (seq 0 n) = 0).
  { rewrite (rsum_ext _ (fun k => cos (a + 2 * INR k * h))).
    - pose proof (dirichlet_cos h a n) as D.
      replace (a + (2 * INR n - 1) * h) with ((a - h) + 2 * PI) in D by (rewrite <- Hnh; ring).
      replace (2 * PI) with (IZR 1 * (2 * PI)) in D by (simpl; ring).
      rewrite sin_kper in D.
      destruct (Rmult_integral (2 * sin h) (rsum (fun k => cos (a + 2 * INR k * h)) (seq 0 n))); lra.
    - intros k _. f_equal. unfold h. field. lra. }
  assert (ES : rsum (fun k => sin (a + 2 * PI * INR k / INR n)) (seq 0 n) = 0).
  { rewrite (rsum_ext _ (fun k => sin (a + 2 * INR k * h))).
    - pose proof (dirichlet_sin h a n) as D.
      replace (a + (2 * INR n - 1) * h) with ((a - h) + 2 * PI) in D by (rewrite <- Hnh; ring).
      replace (2 * PI) with (IZR 1 * (2 * PI)) in D by (simpl; ring).
      rewrite cos_kper in D.
      destruct (Rmult_integral (2 * sin h) (rsum (fun k => sin (a + 2 * INR k * h)) (seq 0 n))); lra.
    - intros k _. f_equal. unfold h. field. lra. }
  rewrite EC, ES. unfold vlen. rewrite !Rmult_0_l, Rplus_0_r, sqrt_0. unfold Rdiv. ring.
Qed.

(** Weighted version. *)
Lemma RMCW_unfold ps ws : ps <> [] -> ws <> [] ->
  RMCW ps ws =
  (let pw := combine ps ws in
   if Req_bool (rsum snd pw) 0 then 0
   else vlen (rsum (fun q => snd q * cos (fst q)) pw) (rsum (fun q => snd q * sin (fst q)) pw)
        / rsum snd pw).
Proof.
  intros Hp Hw. destruct ps as [|p ps]; [congruence|]. destruct ws as [|w ws]; [congruence|].
  unfold MeasureCoherenceWeighted. cbv zeta. set (pw := combine (p :: ps) (w :: ws)).
  change (@nadd R RNum) with Rplus. change (@nmul R RNum) with Rmult.
  change (@ncos R RNum) with cos. change (@nsin R RNum) with sin. change (@n0 R RNum) with 0.
  rewrite (fold_rsum (fun q => snd q * cos (fst q))), (fold_rsum (fun q => snd q * sin (fst q))).
  rewrite (fold_rsum snd). rewrite !Rplus_0_l. reflexivity.
Qed.

Lemma RMCW_bounds ps ws : (forall w, In w ws -> 0 <= w) -> 0 <= RMCW ps ws <= 1.
Proof.
  intros Hw.
  destruct ps as [|p ps']; [simpl; unfold n0; simpl; lra|]. set (ps := p :: ps').
  destruct ws as [|w ws']; [simpl; unfold n0; simpl; lra|]. set (ws := w :: ws') in *.
  rewrite RMCW_unfold by (unfold ps, ws; congruence). cbv zeta.
  set (pw := combine ps ws).
  assert (Hnn : forall q, In q pw -> 0 <= snd q).
  { intros [a b] Hq. apply Hw. eapply in_combine_r. exact Hq. }
  pose proof (rsum_ge0 snd pw Hnn) as Hs.
  case Req_bool_spec; intros E; [lra|].
  assert (Hb : vlen (rsum (fun q => snd q * cos (fst q)) pw) (rsum (fun q => snd q * sin (fst q)) pw)
               <= rsum snd pw) by exact (weighted_bound (fun q : R * R => snd q) fst pw Hnn).
  pose proof (vlen_ge0 (rsum (fun q => snd q * cos (fst q)) pw) (rsum (fun q => snd q * sin (fst q)) pw)).
  split.
  - apply Rmult_le_pos; auto. left. apply Rinv_0_lt_compat. lra.
  - apply Rmult_le_reg_r with (rsum snd pw); [lra|]. unfold Rdiv.
    rewrite Rmult_assoc, Rinv_l by lra. lra.
Qed.

Lemma combine_map_r {A B C} (f : B -> C) (l : list A) (m : list B) :
  combine l (map f m) = map (fun q => (fst q, f (snd q))) (combine l m).
Proof.
  revert m; induction l as [|x l IH]; intros [|y m]; simpl; auto. now rewrite IH.
Qed.

Lemma RMCW_scale c ps ws : 0 < c -> RMCW ps (map (fun w => c * w) ws) = RMCW ps ws.
Proof.
  intros Hc. destruct ps as [|p ps']; [reflexivity|]. set (ps := p :: ps').
  destruct ws as [|w ws']; [reflexivity|]. set (ws := w :: ws').
  rewrite !RMCW_unfold by (unfold ps, ws; simpl; congruence). cbv zeta.
  rewrite combine_map_r. generalize (combine ps ws). intros pw. rewrite !rsum_map. cbn [fst snd].
  assert (E1 : rsum (fun x : R * R => c * snd x) pw = c * rsum snd pw) by apply rsum_scale.
  assert (E2 : rsum (fun x : R * R => c * snd x * cos (fst x)) pw = c * rsum (fun x => snd x * cos (fst x)) pw).
  { rewrite <- rsum_scale. apply rsum_ext. intros; ring. }
  assert (E3 : rsum (fun x : R * R => c * snd x * sin (fst x)) pw = c * rsum (fun x => snd x * sin (fst x)) pw).
  { rewrite <- rsum_scale. apply rsum_ext. intros; ring. }
  rewrite E1, E2, E3. set (W := rsum snd pw).
  set (C := rsum (fun x => snd x * cos (fst x)) pw). set (S := rsum (fun x => snd x * sin (fst x)) pw).
  case (Req_bool_spec W 0); intros HW.
  - rewrite HW, Rmult_0_r, Req_bool_true; auto.
  - rewrite Req_bool_false.
    + rewrite vlen_scale by lra.
      field. split; auto; lra.
    + intros E. apply Rmult_integral in E. destruct E; lra.
Qed.

Lemma combine_repeat_snd {A} (l : list A) (c : R) :
  combine l (repeat c (length l)) = map (fun p => (p, c)) l.
Proof. induction l as [|x l IH]; simpl; auto. now rewrite IH. Qed.

Lemma RMCW_equal ps c : 0 < c -> RMCW ps (repeat c (length ps)) = RMC ps.
Proof.
  intros Hc. destruct ps as [|p ps']; [reflexivity|]. set (ps := p :: ps').
  assert (Hps : ps <> []) by (unfold ps; congruence).
  rewrite RMCW_unfold by (unfold ps; simpl; congruence). cbv zeta.
  rewrite combine_repeat_snd, !rsum_map. cbn [fst snd]. rewrite rsum_const.
  pose proof (INR_len_pos ps Hps) as Hn.
  rewrite Req_bool_false by (apply Rgt_not_eq, Rmult_lt_0_compat; lra). rewrite RMC_unfold by auto.
  rewrite !rsum_scale. change (rsum (fun x => cos x) ps) with (rsum cos ps).
  change (rsum (fun x => sin x) ps) with (rsum sin ps).
  rewrite vlen_scale by lra.
  field. split; lra.
Qed.

Lemma combine_firstn_min {A B} (l : list A) (m : list B) :
  combine l m = combine (firstn (length m) l) (firstn (length l) m).
Proof.
  revert m; induction l as [|x l IH]; intros [|y m]; simpl; auto. now rewrite <- IH.
Qed.
Lemma RMCW_excess ps ws :
  RMCW ps ws = RMCW (firstn (length ws) ps) (firstn (length ps) ws).
Proof.
  destruct ps as [|p ps']; [now destruct ws|]. destruct ws as [|w ws']; [reflexivity|].
  rewrite !RMCW_unfold by (simpl; congruence). rewrite (combine_firstn_min (p :: ps') (w :: ws')).
  reflexivity.
Qed.
Lemma RMCW_zero ps ws : rsum snd (combine ps ws) = 0 -> RMCW ps ws = 0.
Proof.
  intros H. destruct ps as [|p ps']; [reflexivity|]. destruct ws as [|w ws']; [reflexivity|].
  rewrite RMCW_unfold by congruence. cbv zeta. rewrite H, Req_bool_true; auto.
Qed.
(** Negative weights leave [0,1]. *)
Lemma RMCW_negative : exists ps ws, RMCW ps ws > 1.
Proof.
  exists [0; PI], [2; -1]. rewrite RMCW_unfold by congruence. simpl.
  rewrite cos_0, sin_0, cos_PI, sin_PI.
  rewrite Req_bool_false by lra. unfold vlen.
  replace ((2 * 1 + (-1 * -1 + 0)) * (2 * 1 + (-1 * -1 + 0)) + (2 * 0 + (-1 * 0 + 0)) * (2 * 0 + (-1 * 0 + 0)))
    with (3 * 3) by ring.
  rewrite sqrt_square by lra. lra.
Qed.
