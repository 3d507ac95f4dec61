(** Float accuracy of the convergence statistics (C37) and the predicted time to convergence (C86). *)
From Coq Require Import ZArith Reals Psatz Bool List Lia.
From Flocq Require Import Core.Core IEEE754.BinarySingleNaN.
From Verif Require Import Num F64 RealNum M_Core M_Monitor S_Circle S_Agent S_Monitor S_Acc L_F64 L_F64x L_Circle L_PhaseF L_Acc P_Core P_Converge P_Accuracy P_AccuracySwarm P_AccuracyMove L_Regress L_Random P_Monitor.
Import ListNotations.
Open Scope R_scope.

(** Whole numbers are exact. *)
Definition exZ (x : F) (k : Z) : Prop := is_finite x = true /\ B2R x = IZR k.
Lemma exZ_of k : (Z.abs k <= 2 ^ 53)%Z -> exZ (fofZ k) k. Proof. exact (fofZ_fin k). Qed.
Lemma exZ_ap x k : exZ x k -> ap x (IZR k) 0. Proof. intros [A B]. rewrite <- B. now apply ap_exact. Qed.
Lemma big_Z k : (Z.abs k <= 2 ^ 53)%Z -> Rabs (IZR k) <= bpow radix2 1023.
Proof.
  intros H. rewrite <- abs_IZR. apply Rle_trans with (bpow radix2 53); [|apply bpow_le; lia]. change (bpow radix2 53) with (IZR (2 ^ 53)). now apply IZR_le.
Qed.
Lemma exZ_add x y a b : exZ x a -> exZ y b -> (Z.abs (a + b) <= 2 ^ 53)%Z -> exZ (fadd x y) (a + b).
Proof. intros [A B] [C D] H. destruct (fadd_fin x y A C) as [E G]; rewrite B, D, <- plus_IZR in *; [now apply big_Z|]. split; [exact E|]. rewrite G. now apply rnd_fmt, fmt_IZR. Qed.
Lemma exZ_sub x y a b : exZ x a -> exZ y b -> (Z.abs (a - b) <= 2 ^ 53)%Z -> exZ (fsub x y) (a - b).
Proof. intros [A B] [C D] H. destruct (fsub_fin x y A C) as [E G]; rewrite B, D, <- minus_IZR in *; [now apply big_Z|]. split; [exact E|]. rewrite G. now apply rnd_fmt, fmt_IZR. Qed.
Lemma exZ_mul x y a b : exZ x a -> exZ y b -> (Z.abs (a * b) <= 2 ^ 53)%Z -> exZ (fmul x y) (a * b).
Proof. intros [A B] [C D] H. destruct (fmul_fin x y A C) as [E G]; rewrite B, D, <- mult_IZR in *; [now apply big_Z|]. split; [exact E|]. rewrite G. now apply rnd_fmt, fmt_IZR. Qed.

(** The sums of the regression loop after [i] of at most [n] samples, in floats and exactly. *)
Definition stepY (n : Z) : R := (IZR n + 1) * u53.
Definition stepXY (n : Z) : R := (IZR n * IZR n + IZR n + 2) * u53.
Definition sums_near (n i : Z) (s : RegSums F) (r : RegSums R) : Prop :=
  (exists zx, exZ (rs_x s) zx /\ rs_x r = IZR zx /\ 2 * zx = i * (i - 1))%Z /\
  (exists zz, exZ (rs_x2 s) zz /\ rs_x2 r = IZR zz /\ 6 * zz = (i - 1) * i * (2 * i - 1))%Z /\
  ap (rs_y s) (rs_y r) (IZR i * stepY n) /\ 0 <= rs_y r <= IZR i /\
  ap (rs_xy s) (rs_xy r) (IZR i * stepXY n) /\ 0 <= rs_xy r <= IZR i * IZR n.
Lemma regLoop_near tr n : (2 <= n <= 10)%Z -> forall l i s r, (0 <= i)%Z -> (i + Z.of_nat (List.length l) = n)%Z -> Forall in_unit l -> sums_near n i s r ->
  sums_near n n (@regLoop F (FNum tr) i l s) (@regLoop R RNum i (map B2R l) r).
Proof.
  intros Hn. induction l as [|y l IH]; intros i s r Hi HL HU HS.
  - cbn [regLoop map]. cbn [List.length] in HL. replace n with i in * by lia. exact HS.
  - cbn [regLoop map]. cbn [List.length] in HL. rewrite Nat2Z.inj_succ in HL. inversion HU as [|? ? [Fy By] HU' E1]. subst.
    apply IH; auto; try lia. destruct HS as ((zx & X1 & X2 & X3) & (zz & Z1 & Z2 & Z3) & Y1 & Y2 & W1 & W2).
    set (n := (i + Z.succ (Z.of_nat (List.length l)))%Z) in *.
    assert (Ii : (i <= 9)%Z) by lia. assert (EI : exZ (fofZ i) i) by (apply exZ_of; lia).
    cbn [rs_x rs_y rs_xy rs_x2 nadd nmul nofZ FNum RNum].
    assert (RI : 0 <= IZR i <= 9) by (split; apply IZR_le; lia). assert (RN : 2 <= IZR n <= 10) by (split; apply IZR_le; lia). assert (RIN : IZR i + 1 <= IZR n) by (rewrite <- plus_IZR; apply IZR_le; lia).
    pose proof tiny_le_u as TU. pose proof tiny_pos as TP. pose proof u_pos as U. assert (TT : tiny <= u53 / 1000) by exact tiny_u1000. assert (U9 : u53 <= 1 / 1000000) by (unfold u53; lra).
    assert (P40 : 1000 <= 2 ^ 400) by (apply Rle_trans with (2 ^ 10); [lra|apply Rle_pow; [lra|lia]]).
    assert (SY : 0 <= stepY n <= 11 * u53) by (unfold stepY; split; [apply Rmult_le_pos; lra|apply Rmult_le_compat_r; lra]).
    assert (NN : 0 <= IZR n * IZR n <= 100) by (split; nra).
    assert (SX : 0 <= stepXY n <= 112 * u53) by (unfold stepXY; split; [apply Rmult_le_pos; lra|apply Rmult_le_compat_r; lra]).
    assert (SY' : IZR i * stepY n <= 1 / 100) by nra. assert (SX' : IZR i * stepXY n <= 1 / 100) by nra.
    assert (SY0 : 0 <= IZR i * stepY n) by nra. assert (SX0 : 0 <= IZR i * stepXY n) by nra.
    split; [|split; [|split; [|split; [|split]]]]; cbn [rs_x rs_y rs_xy rs_x2].
    + exists (zx + i)%Z. split; [apply exZ_add; auto; nia|]. split; [rewrite plus_IZR, X2; reflexivity|nia].
    + exists (zz + i * i)%Z. split; [apply exZ_add; auto; [apply exZ_mul; auto; nia|nia]|]. split; [rewrite plus_IZR, mult_IZR, Z2; reflexivity|nia].
    + assert (A : ap y (B2R y) 0) by now apply ap_exact. eapply ap_weak; [apply (ap_add _ _ _ _ _ _ (IZR n + 1 / 10) Y1 A); [lra|rewrite Rabs_pos_eq by lra; lra]|].
      rewrite plus_IZR. replace ((IZR i + 1) * stepY n) with (IZR i * stepY n + (IZR n + 1) * u53) by (unfold stepY; ring). lra.
    + rewrite plus_IZR. lra.
    + assert (A : ap y (B2R y) 0) by now apply ap_exact.
      assert (B : ap (fmul (fofZ i) y) (IZR i * B2R y) ((IZR n + 1 / 2) * u53)).
      { eapply ap_weak; [apply (ap_mul _ _ (IZR i) (B2R y) 0 0 (IZR n) (exZ_ap _ _ EI) A); try lra|].
        - rewrite !Rabs_pos_eq by lra. nra.
        - lra. }
      eapply ap_weak; [apply (ap_add _ _ _ _ _ _ (IZR n * IZR n + 1 / 2) W1 B)|].
      * lra.
      * rewrite Rabs_pos_eq by nra. assert ((IZR n + 1 / 2) * u53 <= 1 / 100) by nra. assert (IZR i * IZR n + IZR i * B2R y <= IZR n * IZR n) by nra. lra.
      * rewrite plus_IZR. replace ((IZR i + 1) * stepXY n) with (IZR i * stepXY n + (IZR n * IZR n + IZR n + 2) * u53) by (unfold stepXY; ring). lra.
    + rewrite plus_IZR. nra.
Qed.
(** Slopes of at most ten samples. *)
Lemma slope_near n (s : RegSums F) (r : RegSums R) : (2 <= n <= 10)%Z -> sums_near n n s r ->
  ap (fdiv (fsub (fmul (fofZ n) (rs_xy s)) (fmul (rs_x s) (rs_y s))) (fsub (fmul (fofZ n) (rs_x2 s)) (fmul (rs_x s) (rs_x s))))
     ((IZR n * rs_xy r - rs_x r * rs_y r) / (IZR n * rs_x2 r - rs_x r * rs_x r)) (/ 2 ^ 46).
Proof.
  intros Hn ((zx & X1 & X2 & X3) & (zz & Z1 & Z2 & Z3) & Y1 & Y2 & W1 & W2).
  assert (V46 : / 2 ^ 46 = 128 * u53) by (rewrite pow_Z; unfold u53; cbn; lra). rewrite V46. rewrite X2, Z2.
  assert (EN : exZ (fofZ n) n) by (apply exZ_of; lia).
  assert (BX : (0 <= zx <= 45)%Z) by nia. assert (BZ : (0 <= zz <= 285)%Z) by nia.
  assert (ED : exZ (fsub (fmul (fofZ n) (rs_x2 s)) (fmul (rs_x s) (rs_x s))) (n * zz - zx * zx)).
  { apply exZ_sub; [apply exZ_mul; auto; nia|apply exZ_mul; auto; nia|nia]. }
  destruct ED as [FD VD]. rewrite minus_IZR, !mult_IZR in VD.
  set (dn := fsub (fmul (fofZ n) (rs_x2 s)) _) in *. clearbody dn. apply exZ_ap in EN. apply exZ_ap in X1.
  pose proof tiny_le_u as TU. pose proof tiny_pos as TP. pose proof u_pos as U. assert (TT : tiny <= u53 / 1000) by exact tiny_u1000. assert (U9 : u53 <= 1 / 1000000) by (unfold u53; lra).
  assert (P40 : 10000 <= 2 ^ 400) by (apply Rle_trans with (2 ^ 14); [lra|apply Rle_pow; [lra|lia]]).
  unfold stepY, stepXY in *. clear X2 Z2.
  destruct s as [sx sy sxy sxx], r as [rx ry rxy rxx]. cbn [rs_x rs_y rs_xy rs_x2] in *.
  assert (G : forall k kx kz : R, 2 <= k <= 10 -> 1 <= kx <= 45 -> (k * kz - kx * kx) * 12 = k * k * (k * k - 1) -> 2 * kx = k * (k - 1) ->
    ap (fofZ n) k 0 -> ap sx kx 0 -> ap sy ry (k * ((k + 1) * u53)) -> 0 <= ry <= k -> ap sxy rxy (k * ((k * k + k + 2) * u53)) -> 0 <= rxy <= k * k ->
    B2R dn = k * kz - kx * kx -> ap (fdiv (fsub (fmul (fofZ n) sxy) (fmul sx sy)) dn) ((k * rxy - kx * ry) / (k * kz - kx * kx)) (128 * u53)).
  { clear - FD TT TP U U9 P40. intros k kx kz Bk Bkx HD Hx An Ax Ay By Axy Bxy VD.
    assert (kk : 4 <= k * k <= 100) by nra. assert (kkk : 8 <= k * k * k <= 1000) by nra.
    set (e1 := k * ((k + 1) * u53)) in *. set (e2 := k * ((k * k + k + 2) * u53)) in *.
    assert (B1 : 0 <= e1 <= 110 * u53) by (unfold e1; nra). assert (B2 : 0 <= e2 <= 1120 * u53) by (unfold e2; nra).
    assert (M1 : ap (fmul (fofZ n) sxy) (k * rxy) (k * e2 + u53 * (k * k * k + 1) + tiny)).
    { eapply ap_weak; [apply (ap_mul _ _ k rxy 0 e2 (k * k * k + 1) An Axy); try lra|].
      - rewrite !Rabs_pos_eq by lra. nra.
      - rewrite !Rabs_pos_eq by lra. lra. }
    assert (M2 : ap (fmul sx sy) (kx * ry) (kx * e1 + u53 * (kx * k + 1) + tiny)).
    { eapply ap_weak; [apply (ap_mul _ _ kx ry 0 e1 (kx * k + 1) Ax Ay); try lra; [nra|]|].
      - rewrite !Rabs_pos_eq by lra. nra.
      - rewrite !Rabs_pos_eq by lra. lra. }
    set (f1 := k * e2 + _ + tiny) in *. set (f2 := kx * e1 + _ + tiny) in *.
    assert (T1 : 0 <= k * e2) by (apply Rmult_le_pos; lra). assert (T2 : k * e2 <= 10 * (1120 * u53)) by (apply Rmult_le_compat; lra).
    assert (T3 : 0 <= kx * e1) by (apply Rmult_le_pos; lra). assert (T4 : kx * e1 <= 45 * (110 * u53)) by (apply Rmult_le_compat; lra).
    assert (T5 : 0 <= kx * k <= 450) by (split; [apply Rmult_le_pos; lra|replace 450 with (45 * 10) by lra; apply Rmult_le_compat; lra]).
    assert (T6 : 0 <= u53 * (k * k * k + 1) <= u53 * 1001) by (split; [apply Rmult_le_pos; lra|apply Rmult_le_compat_l; lra]).
    assert (T7 : 0 <= u53 * (kx * k + 1) <= u53 * 451) by (split; [apply Rmult_le_pos; lra|apply Rmult_le_compat_l; lra]).
    assert (C1 : 0 <= f1 <= 13000 * u53) by (unfold f1; lra). assert (C2 : 0 <= f2 <= 6000 * u53) by (unfold f2; lra).
    assert (N0 : 0 <= k * rxy <= k * k * k) by (split; nra). assert (N1 : 0 <= kx * ry <= k * k * k) by (split; nra).
    assert (N2 : Rabs (k * rxy - kx * ry) <= k * k * k) by (apply Rabs_le; lra).
    assert (S1 : ap (fsub (fmul (fofZ n) sxy) (fmul sx sy)) (k * rxy - kx * ry) (f1 + f2 + u53 * (k * k * k + 1) + tiny)).
    { apply (ap_sub _ _ _ _ f1 f2 (k * k * k + 1) M1 M2); lra. }
    set (g := f1 + f2 + _ + tiny) in *. set (dv := k * kz - kx * kx) in *.
    assert (DV : 1 <= dv) by nra. assert (Pg : 0 <= g) by (unfold g; lra).
    assert (GB : g <= 110 * u53 * dv).
    { assert (g <= (k * k * (k * k + k + 2) + k * k * k + 1 + k * (k - 1) / 2 * (k * (k + 1)) + k * (k - 1) / 2 * k + 1 + k * k * k + 1 + 1) * u53) by (unfold g, f1, f2, e1, e2; replace kx with (k * (k - 1) / 2) by lra; nra).
      assert (k * k * (k * k + k + 2) + k * k * k + 1 + k * (k - 1) / 2 * (k * (k + 1)) + k * (k - 1) / 2 * k + 1 + k * k * k + 1 + 1 <= 110 * dv); [|nra].
      assert (12 * dv = k * k * (k * k - 1)) by lra. nra. }
    assert (Ny : B2R dn <> 0) by lra.
    eapply ap_weak; [rewrite <- VD; apply (ap_div _ _ (k * rxy - kx * ry) g 10 S1 FD Ny); [lra|]|].
    - rewrite VD, (Rabs_pos_eq dv) by lra. apply Rmult_le_reg_r with dv; [lra|]. unfold Rdiv. rewrite Rmult_assoc, Rinv_l by lra. assert (k * k * k <= 9 * dv) by nra. assert (110 * u53 * dv <= dv) by nra. lra.
    - rewrite VD, (Rabs_pos_eq dv) by lra. assert (g / dv <= 110 * u53). { apply Rmult_le_reg_r with dv; [lra|]. unfold Rdiv. rewrite Rmult_assoc, Rinv_l by lra. lra. } lra. }
  apply (G (IZR n) (IZR zx) (IZR zz)); auto.
  - split; apply IZR_le; lia.
  - split; apply IZR_le; nia.
  - rewrite <- !mult_IZR, <- !minus_IZR, <- !mult_IZR. f_equal. nia.
  - rewrite <- !minus_IZR, <- !mult_IZR. f_equal. nia.
Qed.
Lemma lastn_map {A B} (f : A -> B) k l : lastn k (map f l) = map f (lastn k l).
Proof. unfold lastn. now rewrite map_length, skipn_map. Qed.
Lemma lastn_Forall {A} (P : A -> Prop) k l : Forall P l -> Forall P (lastn k l).
Proof. intros H. apply Forall_forall. intros x Hx. rewrite Forall_forall in H. apply H. destruct (lastn_split k l) as [p ->]. apply in_or_app. now right. Qed.
(** The same samples as exact numbers. *)
Definition exactly (m : CM F) (mr : CM R) : Prop := cm_hist mr = map B2R (cm_hist m).
Lemma rate_near tr (m : CM F) (mr : CM R) : exactly m mr -> Forall in_unit (cm_hist m) -> ap (@CMRate F (FNum tr) m) (@CMRate R RNum mr) (/ 2 ^ 46).
Proof.
  intros E HU. unfold exactly in E. unfold CMRate. cbv zeta. rewrite !E, !map_length. assert (V46 : / 2 ^ 46 = 128 * u53) by (rewrite pow_Z; unfold u53; cbn; lra). pose proof u_pos.
  destruct (Nat.ltb_spec (List.length (cm_hist m)) 2) as [L|L].
  { eapply ap_weak; [exact (ap_Z 0 ltac:(lia))|lra]. }
  set (k := if (List.length (cm_hist m) <? 10)%nat then List.length (cm_hist m) else 10%nat).
  assert (K : (2 <= k <= List.length (cm_hist m) /\ k <= 10)%nat) by (unfold k; destruct (Nat.ltb_spec (List.length (cm_hist m)) 10); lia).
  fold k. rewrite !lastn_map. set (w := lastn k (cm_hist m)). assert (LW : List.length w = k) by (apply lastn_length; lia).
  assert (HW : Forall in_unit w) by now apply lastn_Forall.
  change (@nsub F (FNum tr)) with fsub. change (@nmul F (FNum tr)) with fmul. change (@ndiv F (FNum tr)) with fdiv. change (@nofZ F (FNum tr)) with fofZ.
  change (@nsub R RNum) with Rminus. change (@nmul R RNum) with Rmult. change (@ndiv R RNum) with Rdiv. change (@nofZ R RNum) with IZR.
  apply slope_near; [lia|]. unfold regSums. apply regLoop_near; auto; try lia.
  change (@n0 F (FNum tr)) with (fofZ 0). change (@n0 R RNum) with 0. unfold sums_near. cbn [rs_x rs_y rs_xy rs_x2]. pose proof (exZ_of 0 ltac:(lia)) as E0. pose proof (exZ_ap _ _ E0) as A0.
  split; [exists 0%Z; auto|]. split; [exists 0%Z; auto|]. rewrite !Rmult_0_l. split; [exact A0|]. split; [lra|]. split; [exact A0|lra].
Qed.
(** The rate of coherence samples is the least-squares slope up to 2^-46. *)
Theorem C37_float_rate : forall tr (m : CM F) b, Forall in_unit (cm_hist m) -> (2 <= List.length (cm_hist m))%nat ->
  least_squares_slope (map B2R (lastn 10 (cm_hist m))) b -> ap (@CMRate F (FNum tr) m) b (/ 2 ^ 46).
Proof.
  intros tr m b HU HL HB. set (mr := hist_mon (map B2R (cm_hist m))). assert (E : exactly m mr) by reflexivity.
  assert (L2 : (2 <= List.length (cm_hist mr))%nat) by (cbn; now rewrite map_length).
  destruct (C37_least_squares mr L2) as [_ Q]. rewrite (Q b); [now apply rate_near|]. cbn [mr hist_mon cm_hist]. now rewrite lastn_map.
Qed.
(** So a clear trend is seen with the right sign. *)
Theorem C37_float_sign : forall tr (m : CM F) b, Forall in_unit (cm_hist m) -> (2 <= List.length (cm_hist m))%nat ->
  least_squares_slope (map B2R (lastn 10 (cm_hist m))) b ->
  (/ 2 ^ 46 < b -> flt (fofZ 0) (@CMRate F (FNum tr) m) = true) /\ (b < - / 2 ^ 46 -> flt (@CMRate F (FNum tr) m) (fofZ 0) = true).
Proof.
  intros tr m b HU HL HB. destruct (C37_float_rate tr m b HU HL HB) as [FR ER]. apply Rabs_le_inv in ER. destruct (exZ_of 0 ltac:(lia)) as [F0 V0].
  split; intros H; rewrite flt_fin, V0 by assumption; apply Rlt_bool_true; lra.
Qed.
Definition floats_mon (l : list F) : CM F := mkCM l [] (mkState (fofZ 0) 1 (fofZ 0)) (flit 9 10) 0 None (fofZ 0) (fofZ 1).
(** REFUTED in floats: a constant history has a positive rate, a strictly rising one a negative rate, and the rate of
    samples exactly on a line is not its slope. *)
Definition stalled : CM F := floats_mon (repeat (flit 1 10) 10).
Theorem C37_constant_refuted : forall tr, flt (fofZ 0) (@CMRate F (FNum tr) stalled) = true.
Proof. intros tr. vm_compute. reflexivity. Qed.
Definition rising : CM F := floats_mon (map (fun i => flit (8882615146008880 + Z.of_nat i) 9007199254740992) (seq 0 10)).
Fixpoint risingF (l : list F) : bool := match l with x :: ((y :: _) as r) => flt x y && risingF r | _ => true end.
Theorem C37_increasing_refuted : forall tr, risingF (cm_hist rising) = true /\ List.length (cm_hist rising) = 10%nat /\ flt (@CMRate F (FNum tr) rising) (fofZ 0) = true.
Proof. intros tr. split; [vm_compute; reflexivity|]. split; [reflexivity|]. vm_compute. reflexivity. Qed.
Definition onLine : CM F := floats_mon (map (fun i => flit (142235879629226 * Z.of_nat i) 4503599627370496) (seq 0 10)).
Lemma onLine_pt i : (i < 10)%nat -> is_finite (flit (142235879629226 * Z.of_nat i) 4503599627370496) = true /\ B2R (flit (142235879629226 * Z.of_nat i) 4503599627370496) = 142235879629226 / 2 ^ 52 * INR i.
Proof.
  intros Hi. destruct (flit_fin (142235879629226 * Z.of_nat i) 4503599627370496 ltac:(lia) ltac:(lia)) as [A B]. split; [exact A|]. rewrite B.
  rewrite rnd_fmt; [rewrite mult_IZR, <- INR_IZR_INZ, pow_Z; cbn [Z.of_nat Pos.of_succ_nat Pos.succ]; change (2 ^ 52)%Z with 4503599627370496%Z; field|].
  change 4503599627370496%Z with (2 ^ 52)%Z. apply (fmt_dyadic (142235879629226 * Z.of_nat i) 52); lia.
Qed.
Lemma onLine_nth i : (i < 10)%nat -> B2R (nth i (cm_hist onLine) (fofZ 0)) = 142235879629226 / 2 ^ 52 * INR i.
Proof.
  intros Hi. unfold onLine, floats_mon. cbn [cm_hist].
  rewrite (nth_indep _ _ (flit (142235879629226 * Z.of_nat 10) 4503599627370496)) by (rewrite map_length, seq_length; lia).
  rewrite (map_nth (fun i => flit (142235879629226 * Z.of_nat i) 4503599627370496)), seq_nth by lia. apply onLine_pt. lia.
Qed.
Lemma onLine_rate tr : flt (@CMRate F (FNum tr) onLine) (flit (142235879629226 * Z.of_nat 1) 4503599627370496) = true /\ is_finite (@CMRate F (FNum tr) onLine) = true.
Proof. split; vm_compute; reflexivity. Qed.
Theorem C37_linear_refuted : forall tr, (forall i, (i < 10)%nat -> B2R (nth i (cm_hist onLine) (fofZ 0)) = 142235879629226 / 2 ^ 52 * INR i) /\
  B2R (@CMRate F (FNum tr) onLine) <> 142235879629226 / 2 ^ 52.
Proof.
  intros tr. split; [exact onLine_nth|]. destruct (onLine_rate tr) as [Q FR]. destruct (onLine_pt 1 ltac:(lia)) as [A B]. change (INR 1) with 1 in B. rewrite Rmult_1_r in B.
  revert Q A B FR. generalize (flit (142235879629226 * Z.of_nat 1) 4503599627370496) as y. generalize (@CMRate F (FNum tr) onLine) as x. intros x y Q A B FR C.
  rewrite flt_fin in Q by assumption. rewrite C, B in Q. rewrite Rlt_bool_false in Q by apply Rle_refl. discriminate.
Qed.
Print Assumptions C37_float_rate.
Print Assumptions C37_linear_refuted.

(** ** Stability *)
(** How well [tr] computes e^x for x <= 0. *)
Definition exp_acc (tr : Trig) (e : R) : Prop := forall x, is_finite x = true -> -100 <= B2R x <= 0 -> ap (texp tr x) (exp (B2R x)) e.
Lemma cr_exp_acc : exp_acc crTrig (/ 2 ^ 52).
Proof.
  intros x Fx Bx. assert (0 < exp (B2R x) <= 1). { split; [apply exp_pos|]. rewrite <- exp_0. destruct (Req_dec (B2R x) 0) as [->|N]; [lra|]. left. apply exp_increasing. lra. }
  cbn [texp crTrig]. destruct (roundF_val (exp (B2R x))) as [A B]; [apply small400; rewrite Rabs_pos_eq by lra; lra|]. split; [exact A|]. rewrite B.
  pose proof (rnd_abs (exp (B2R x))) as E. rewrite (Rabs_pos_eq (exp (B2R x))) in E by lra. pose proof tiny_le_u. pose proof tiny_pos. pose proof u_pos. assert (tiny <= u53 / 1000) by nra.
  assert (V52 : / 2 ^ 52 = 2 * u53) by (rewrite pow_Z; unfold u53; cbn; lra). rewrite V52. nra.
Qed.
(** A sum of squared differences, with its relative error. *)
Lemma square_near (x c : F) : is_finite x = true -> is_finite c = true -> Rabs (B2R x - B2R c) <= 2 ->
  let t := B2R x - B2R c in let q := fmul (fsub x c) (fsub x c) in is_finite q = true /\ 0 <= B2R q /\ Rabs (B2R q - t * t) <= 4 * u53 * (t * t) + 10 * tiny.
Proof.
  intros Fx Fc B t q. pose proof tiny_le_u as TU. pose proof tiny_pos as TP. pose proof u_pos as U. assert (TT : tiny <= u53 / 1000) by exact tiny_u1000. assert (U9 : u53 <= 1 / 1000000) by (unfold u53; lra). pose proof big1023 as BG. assert (P5 : 2 ^ 10 <= 2 ^ 500) by (apply Rle_pow; [lra|lia]).
  fold t in B. destruct (fsub_fin x c Fx Fc) as [Fd Vd]; [fold t; lra|]. fold t in Vd. pose proof (rnd_abs t) as Ed. rewrite <- Vd in Ed. set (d := B2R (fsub x c)) in *.
  pose proof (Rabs_pos t) as P. assert (Bd : Rabs d <= 3). { replace d with (d - t + t) by ring. eapply Rle_trans; [apply Rabs_triang|]. assert (u53 * Rabs t <= u53 * 2) by (apply Rmult_le_compat_l; lra). lra. }
  assert (E2 : Rabs (d * d - t * t) <= (21 / 10 * u53) * (t * t) + 5 * tiny).
  { replace (d * d - t * t) with ((d - t) * (2 * t + (d - t))) by ring. rewrite Rabs_mult.
    assert (Q : Rabs (2 * t + (d - t)) <= 2 * Rabs t + (u53 * Rabs t + tiny)). { eapply Rle_trans; [apply Rabs_triang|]. rewrite Rabs_mult, (Rabs_pos_eq 2) by lra. lra. }
    apply Rle_trans with ((u53 * Rabs t + tiny) * (2 * Rabs t + (u53 * Rabs t + tiny))); [apply Rmult_le_compat; auto; apply Rabs_pos|].
    assert (S : t * t = Rabs t * Rabs t) by (rewrite <- Rabs_mult, Rabs_pos_eq; [reflexivity|nra]). rewrite S. set (a := Rabs t) in *. clearbody a. clear - P B TT TP U U9.
    assert (UA : 0 <= u53 * a <= 1 / 100) by (split; [apply Rmult_le_pos; lra|apply Rle_trans with (u53 * 2); [apply Rmult_le_compat_l; lra|lra]]).
    assert (AA : 0 <= a * a) by (apply Rmult_le_pos; lra).
    assert (G1 : u53 * u53 * (a * a) <= u53 * (1 / 10) * (a * a)) by (apply Rmult_le_compat_r; [exact AA|apply Rmult_le_compat_l; lra]).
    assert (G2 : u53 * a * tiny <= 1 / 100 * tiny) by (apply Rmult_le_compat_r; lra). assert (G3 : tiny * tiny <= 1 / 10 * tiny) by (apply Rmult_le_compat_r; lra).
    assert (G4 : tiny * a <= tiny * 2) by (apply Rmult_le_compat_l; lra). lra. }
  assert (Bq : Rabs (d * d) <= 9). { rewrite Rabs_mult. pose proof (Rabs_pos d). nra. }
  destruct (fmul_fin (fsub x c) (fsub x c) Fd Fd) as [Fq Vq]; [fold d; lra|]. fold q in Fq, Vq. fold d in Vq. split; [exact Fq|]. rewrite Vq. split; [apply rnd_ge_0; nra|].
  pose proof (rnd_abs (d * d)) as Er. rewrite (Rabs_pos_eq (d * d)) in Er by nra.
  assert (D2 : d * d <= 11 / 10 * (t * t) + 5 * tiny). { apply Rabs_le_inv in E2. assert (0 <= t * t) by nra. nra. }
  replace (rnd (d * d) - t * t) with ((rnd (d * d) - d * d) + (d * d - t * t)) by ring. eapply Rle_trans; [apply Rabs_triang|].
  assert (0 <= t * t) by nra. assert (0 <= u53 * (t * t)) by (apply Rmult_le_pos; lra). assert (u53 * (d * d) <= u53 * (11 / 10 * (t * t) + 5 * tiny)) by (apply Rmult_le_compat_l; lra). assert (u53 * tiny <= 1 / 10 * tiny) by (apply Rmult_le_compat_r; lra). lra.
Qed.
Lemma squares_near (c : F) (w : list F) : is_finite c = true -> Forall (fun x => is_finite x = true /\ Rabs (B2R x - B2R c) <= 2) w -> (List.length w <= 20)%nat ->
  let S := fold_left (fun v x => fadd v (fmul (fsub x c) (fsub x c))) w (fofZ 0) in
  let T := fold_left (fun v x => v + (B2R x - B2R c) * (B2R x - B2R c)) w 0 in
  is_finite S = true /\ 0 <= B2R S /\ 0 <= T <= 4 * INR (List.length w) /\ Rabs (B2R S - T) <= (INR (List.length w) + 5) * (11 / 10 * u53) * T + INR (List.length w) * (20 * tiny).
Proof.
  intros Fc. induction w as [|x w IH] using rev_ind; intros HF HL; cbv zeta.
  - cbn [fold_left List.length INR]. destruct (exZ_of 0 ltac:(lia)) as [A B]. split; [exact A|]. rewrite B. split; [lra|]. split; [lra|]. rewrite Rminus_0_r, Rabs_R0. lra.
  - apply Forall_app in HF. destruct HF as [HF HX]. inversion HX as [|? ? [Fx Bx] _]. subst. rewrite app_length in *. cbn [List.length] in HL. rewrite !fold_left_app. cbn [fold_left].
    destruct (IH HF ltac:(lia)) as (FS & PS & BT & ES). clear IH HF HX. rewrite plus_INR. cbn [List.length INR]. 
    set (S := fold_left _ w (fofZ 0)) in *. set (T := fold_left _ w 0) in *. destruct (square_near x c Fx Fc Bx) as (Fq & Pq & Eq). set (q := fmul _ _) in *. set (t := B2R x - B2R c) in *.
    assert (Bk : 0 <= INR (List.length w) <= 19) by (split; [apply pos_INR|rewrite INR_IZR_INZ; apply IZR_le; lia]). set (k := INR (List.length w)) in *. clearbody k S T q.
    pose proof tiny_le_u as TU. pose proof tiny_pos as TP. pose proof u_pos as U. assert (TT : tiny <= u53 / 1000) by exact tiny_u1000. assert (U9 : u53 <= 1 / 1000000) by (unfold u53; lra). pose proof big1023 as BG. assert (P5 : 2 ^ 10 <= 2 ^ 500) by (apply Rle_pow; [lra|lia]).
    assert (Ht : 0 <= t * t <= 4). { split; [nra|]. replace (t * t) with (Rabs t * Rabs t) by (rewrite <- Rabs_mult, Rabs_pos_eq; [reflexivity|nra]). pose proof (Rabs_pos t). nra. }
    set (a := t * t) in *. clearbody a.
    assert (K1 : (k + 5) * (11 / 10 * u53) <= 24 * (11 / 10 * u53)) by (apply Rmult_le_compat_r; lra). assert (K0 : 0 <= (k + 5) * (11 / 10 * u53)) by (apply Rmult_le_pos; lra). assert (K2 : k * (20 * tiny) <= 20 * (20 * tiny)) by (apply Rmult_le_compat_r; lra).
    assert (K3 : (k + 5) * (11 / 10 * u53) * T <= 1 / 100 * T) by (apply Rmult_le_compat_r; lra). assert (K4 : 4 * u53 * a <= 1 / 100 * a) by (apply Rmult_le_compat_r; lra).
    assert (BS : Rabs (B2R S) <= 101 / 100 * T + 400 * tiny). { replace (B2R S) with (B2R S - T + T) by ring. eapply Rle_trans; [apply Rabs_triang|]. rewrite (Rabs_pos_eq T) by lra. lra. }
    assert (Bq : Rabs (B2R q) <= 101 / 100 * a + 10 * tiny). { replace (B2R q) with (B2R q - a + a) by ring. eapply Rle_trans; [apply Rabs_triang|]. rewrite (Rabs_pos_eq a) by lra. lra. }
    assert (BSq : Rabs (B2R S + B2R q) <= 101 / 100 * (T + a) + 410 * tiny) by (eapply Rle_trans; [apply Rabs_triang|lra]).
    destruct (fadd_fin S q FS Fq) as [Fr Vr]; [lra|]. split; [exact Fr|]. rewrite Vr. split; [apply rnd_ge_0; lra|]. split; [lra|]. pose proof (rnd_abs (B2R S + B2R q)) as Er.
    replace (rnd (B2R S + B2R q) - (T + a)) with ((rnd (B2R S + B2R q) - (B2R S + B2R q)) + ((B2R S - T) + (B2R q - a))) by ring.
    eapply Rle_trans; [apply Rabs_triang|]. eapply Rle_trans; [apply Rplus_le_compat; [exact Er|eapply Rle_trans; [apply Rabs_triang|apply Rplus_le_compat; [exact ES|exact Eq]]]|].
    assert (u53 * Rabs (B2R S + B2R q) <= u53 * (101 / 100 * (T + a) + 410 * tiny)) by (apply Rmult_le_compat_l; lra). assert (u53 * (410 * tiny) <= 1 / 1000000 * (410 * tiny)) by (apply Rmult_le_compat_r; lra).
    assert (0 <= u53 * T) by (apply Rmult_le_pos; lra). assert (Q1 : 0 <= u53 * a) by (apply Rmult_le_pos; lra). assert (0 <= k * (u53 * a)) by (apply Rmult_le_pos; lra). lra.
Qed.
Lemma exp_lip a b : a <= 0 -> b <= 0 -> Rabs (exp a - exp b) <= Rabs (a - b).
Proof.
  assert (G : forall x y, x <= y -> y <= 0 -> 0 <= exp y - exp x <= y - x).
  { intros x y L N. assert (E : exp x = exp y * exp (x - y)) by (rewrite <- exp_plus; f_equal; ring). rewrite E.
    assert (P : 0 < exp y <= 1). { split; [apply exp_pos|]. rewrite <- exp_0. destruct (Req_dec y 0) as [->|Q]; [lra|]. left. apply exp_increasing. lra. }
    assert (Q : 1 + (x - y) <= exp (x - y)). { destruct (Req_dec (x - y) 0) as [->|Z]; [rewrite exp_0; lra|]. left. now apply exp_ineq1. }
    assert (Q1 : exp (x - y) <= 1). { rewrite <- exp_0. destruct (Req_dec (x - y) 0) as [->|Z]; [lra|]. left. apply exp_increasing. lra. }
    split; [nra|]. nra. }
  intros A B. destruct (Rle_or_lt a b) as [L|L].
  - pose proof (G a b L B). rewrite (Rabs_left1 (a - b)), (Rabs_left1 (exp a - exp b)) by lra. lra.
  - pose proof (G b a ltac:(lra) A). rewrite !Rabs_pos_eq by lra. lra.
Qed.
Lemma sqrt_rel a b e h : 0 <= a -> 0 <= b -> 0 <= e <= 1 -> 0 <= h -> Rabs (a - b) <= e * b + h -> Rabs (sqrt a - sqrt b) <= e * sqrt b + sqrt h.
Proof.
  intros A B E H D. apply Rabs_le_inv in D. pose proof (sqrt_pos a) as Pa. pose proof (sqrt_pos b) as Pb. pose proof (sqrt_pos h) as Ph.
  pose proof (sqrt_sqrt a A) as Sa. pose proof (sqrt_sqrt b B) as Sb. pose proof (sqrt_sqrt h H) as Sh. set (x := sqrt a) in *. set (y := sqrt b) in *. set (z := sqrt h) in *.
  assert (EY : 0 <= e * y <= y) by nra. assert (EY2 : 0 <= e * (y * y)) by nra.
  apply Rabs_le. split.
  - (* y - e y - z <= x *)
    destruct (Rle_or_lt (y - e * y - z) x) as [L|L]; [lra|]. exfalso.
    assert (x + z < y - e * y) by lra. assert ((x + z) * (x + z) < (y - e * y) * (y - e * y)) by (apply Rmult_le_0_lt_compat; lra).
    assert (0 <= x * z) by (apply Rmult_le_pos; lra). assert (0 <= e * (y * y) * (1 - e)) by (apply Rmult_le_pos; lra). assert ((y - e * y) * (y - e * y) = y * y - e * (y * y) - e * (y * y) * (1 - e)) by ring. rewrite <- Sb in D. lra.
  - destruct (Rle_or_lt x (y + e * y + z)) as [L|L]; [lra|]. exfalso.
    assert ((y + e * y + z) * (y + e * y + z) < x * x) by (apply Rmult_le_0_lt_compat; lra).
    assert (0 <= (y + e * y) * z) by (apply Rmult_le_pos; lra). assert (0 <= (e * y) * (e * y)) by nra. rewrite <- Sb in D. lra.
Qed.
(** The sum of squares around another centre. *)
Lemma squares_centre (w : list F) c mu : forall v, fold_left (fun v x => v + (B2R x - c) * (B2R x - c)) w v =
  fold_left (fun v x => v + (x - mu) * (x - mu)) (map B2R w) v + 2 * (mu - c) * (fold_left Rplus (map B2R w) 0 - INR (List.length w) * mu) + INR (List.length w) * ((mu - c) * (mu - c)).
Proof.
  induction w as [|x w IH]; intros v; [cbn [map fold_left List.length INR]; ring|]. cbn [map fold_left]. rewrite IH. rewrite (fold_sum (map B2R w) (0 + B2R x)). rewrite fold_sq, (fold_sq mu (map B2R w) (v + _)).
  change (List.length (x :: w)) with (S (List.length w)). rewrite S_INR. ring.
Qed.
Lemma fold_left_right l : fold_left Rplus l 0 = fold_right (fun x s => x + s) 0 l.
Proof. induction l as [|x l IH]; [reflexivity|]. cbn [fold_left fold_right]. rewrite fold_sum, IH. ring. Qed.
(** The standard deviation of at most twenty samples. *)
Lemma deviation_near tr (w : list F) : Forall in_unit w -> (1 <= List.length w <= 20)%nat ->
  ap (fsqrt (@varianceOf F (FNum tr) w)) (sqrt (@varianceOf R RNum (map B2R w))) (120 * u53) /\ 0 <= sqrt (@varianceOf R RNum (map B2R w)) <= 1 /\ 0 <= B2R (fsqrt (@varianceOf F (FNum tr) w)).
Proof.
  intros HU HL. pose proof tiny_le_u as TU. pose proof tiny_pos as TP. pose proof u_pos as U. assert (TT : tiny <= u53 / 1000) by exact tiny_u1000. assert (U9 : u53 <= 1 / 1000000) by (unfold u53; lra).
  assert (P40 : 10000 <= 2 ^ 400) by (apply Rle_trans with (2 ^ 14); [lra|apply Rle_pow; [lra|lia]]).
  set (n := IZR (Z.of_nat (List.length w))). assert (Hn : 1 <= n <= 20) by (unfold n; split; apply IZR_le; lia).
  assert (EN : exZ (fofZ (Z.of_nat (List.length w))) (Z.of_nat (List.length w))) by (apply exZ_of; lia). destruct EN as [Fn Vn]. fold n in Vn.
  rewrite Forall_forall in HU.
  (* mean *)
  assert (HS : forall x, In x w -> is_finite ((fun x : F => x) x) = true /\ Rabs (B2R ((fun x : F => x) x)) <= 1 /\ Rabs (B2R ((fun x : F => x) x) - B2R x) <= 0).
  { intros x Hx. destruct (HU x Hx) as [A B]. split; [exact A|]. split; [rewrite Rabs_pos_eq; lra|]. rewrite Rminus_diag_eq, Rabs_R0 by reflexivity. lra. }
  destruct (exZ_of 0 ltac:(lia)) as [F0 V0].
  destruct (sum_acc (fun x => x) B2R 0 w ltac:(lra) HS (fofZ 0) 0%Z 0 0 F0) as (FS & BS & ES); try lia; try (rewrite V0, ?Rminus_0_r, Rabs_R0; lra).
  change (fold_left (fun s x : F => fadd s x) w (fofZ 0)) with (@nsum F (FNum tr) w) in *. rewrite Z.add_0_l in BS, ES. fold n in BS, ES.
  assert (SR : fold_right (fun x s => B2R x + s) 0 w = fold_left Rplus (map B2R w) 0). { rewrite fold_left_right. clear. induction w as [|x w IH]; [reflexivity|]. cbn. now rewrite IH. }
  rewrite SR in ES. set (sigma := fold_left Rplus (map B2R w) 0) in *.
  assert (BG : 0 <= sigma <= n).
  { rewrite <- SR. unfold n. clear - HU. induction w as [|x w IH]; [cbn; lra|]. change (List.length (x :: w)) with (S (List.length w)). rewrite Nat2Z.inj_succ. unfold Z.succ. rewrite plus_IZR. cbn [fold_right].
    destruct (HU x ltac:(now left)) as [_ B]. assert (I : 0 <= fold_right (fun x s => B2R x + s) 0 w <= IZR (Z.of_nat (List.length w))) by (apply IH; intros y Hy; apply HU; now right). lra. }
  set (mu := sigma / n). assert (IN : 0 < / n <= 1). { split; [apply Rinv_0_lt_compat; lra|]. rewrite <- Rinv_1. apply Rinv_le_contravar; lra. }
  assert (Bmu : 0 <= mu <= 1). { unfold mu. split; [apply Rmult_le_pos; lra|]. apply Rmult_le_reg_r with n; [lra|]. unfold Rdiv. rewrite Rmult_assoc, Rinv_l by lra. lra. }
  set (c := @meanOf F (FNum tr) w).
  assert (Ac : ap c mu (45 * u53)).
  { unfold c, meanOf. change (@ndiv F (FNum tr)) with fdiv. change (@nofZ F (FNum tr)) with fofZ.
    assert (Hs : ap (@nsum F (FNum tr) w) sigma (n * (2 * u53 * n))). { split; [exact FS|]. eapply Rle_trans; [|apply (Rle_trans _ _ _ ES)]; [right; f_equal; ring|lra]. }
    eapply ap_weak; [unfold mu; rewrite <- Vn; apply (ap_div _ _ sigma (n * (2 * u53 * n)) 2 Hs Fn); try rewrite Vn; try lra|].
    - rewrite (Rabs_pos_eq n), (Rabs_pos_eq sigma) by lra. apply Rmult_le_reg_r with n; [lra|]. unfold Rdiv. rewrite Rmult_assoc, Rinv_l by lra. assert (n * (2 * u53 * n) <= n) by nra. lra.
    - rewrite Vn, (Rabs_pos_eq n) by lra. fold n. replace (n * (2 * u53 * n) / n) with (2 * u53 * n) by (field; lra). assert (2 * u53 * n <= 2 * u53 * 20) by (apply Rmult_le_compat_l; lra). lra. }
  destruct Ac as [Fc Ec]. apply Rabs_le_inv in Ec.
  (* squares *)
  assert (HQ : Forall (fun x => is_finite x = true /\ Rabs (B2R x - B2R c) <= 2) w).
  { apply Forall_forall. intros x Hx. destruct (HU x Hx) as [A B]. split; [exact A|]. apply Rabs_le. lra. }
  destruct (squares_near c w Fc HQ ltac:(lia)) as (FQ & PQ & BT & EQ). assert (INn : INR (List.length w) = n) by (unfold n; apply INR_IZR_INZ). rewrite INn in BT, EQ.
  rewrite (squares_centre w (B2R c) mu 0) in BT, EQ. rewrite INn in BT, EQ. fold sigma in BT, EQ.
  assert (Z0 : sigma - n * mu = 0) by (unfold mu; field; lra). rewrite Z0, Rmult_0_r, Rplus_0_r in BT, EQ.
  assert (ER : meanOf (map B2R w) = mu). { unfold meanOf, nsum, mu, n. rewrite map_length. reflexivity. }
  assert (VR : @varianceOf R RNum (map B2R w) = fold_left (fun v x => v + (x - mu) * (x - mu)) (map B2R w) 0 / n). { rewrite var_formula, ER, map_length, INn. reflexivity. }
  set (ss := fold_left (fun v x => v + (x - mu) * (x - mu)) (map B2R w) 0) in *. rewrite VR.
  assert (Pss : 0 <= ss) by apply (proj1 (sq_sum mu (map B2R w))).
  assert (Vs : @varianceOf F (FNum tr) w = fdiv (fold_left (fun v x => fadd v (fmul (fsub x c) (fsub x c))) w (fofZ 0)) (fofZ (Z.of_nat (List.length w)))) by reflexivity.
  rewrite Vs. set (SF := fold_left (fun v x => fadd v (fmul (fsub x c) (fsub x c))) w (fofZ 0)) in *. clearbody SF. clear Vs VR.
  set (dl := mu - B2R c) in *. assert (Bdl : Rabs dl <= 45 * u53) by (apply Rabs_le; unfold dl; lra).
  set (T := ss + n * (dl * dl)) in *. set (V := T / n). assert (PV : 0 <= V) by (apply Rmult_le_pos; lra). assert (EV : V = ss / n + dl * dl) by (unfold V, T; field; lra).
  assert (BV : V <= 4). { unfold V. apply Rmult_le_reg_r with n; [lra|]. unfold Rdiv. rewrite Rmult_assoc, Rinv_l by lra. lra. }
  assert (BV1 : ss / n <= 1).
  { apply Rmult_le_reg_r with n; [lra|]. unfold Rdiv. rewrite Rmult_assoc, Rinv_l by lra. rewrite Rmult_1_r, Rmult_1_l. unfold ss, n. clearbody mu. clear - HU Bmu.
    induction w as [|x w IH]; [cbn; lra|]. cbn [map fold_left]. change (List.length (x :: w)) with (S (List.length w)). rewrite Nat2Z.inj_succ. unfold Z.succ. rewrite plus_IZR, fold_sq.
    destruct (HU x ltac:(now left)) as [_ B]. assert (I : fold_left (fun v x => v + (x - mu) * (x - mu)) (map B2R w) 0 <= IZR (Z.of_nat (List.length w))) by (apply IH; intros y Hy; apply HU; now right).
    assert ((B2R x - mu) * (B2R x - mu) <= 1) by nra. lra. }
  (* variance *)
  assert (AV : ap (fdiv SF (fofZ (Z.of_nat (List.length w)))) V (30 * u53 * V + 30 * tiny) /\ 0 <= B2R (fdiv SF (fofZ (Z.of_nat (List.length w))))).
  { assert (E5 : (n + 5) * (11 / 10 * u53) <= 25 * (11 / 10 * u53)) by (apply Rmult_le_compat_r; lra).
    assert (E6 : (n + 5) * (11 / 10 * u53) * T <= 25 * (11 / 10 * u53) * T) by (apply Rmult_le_compat_r; lra).
    set (e := 25 * (11 / 10 * u53) * T + n * (20 * tiny)). assert (Hs : ap SF T e) by (split; [exact FQ|unfold e; lra]).
    assert (Pe : 0 <= e) by (unfold e; apply Rplus_le_le_0_compat; apply Rmult_le_pos; lra).
    assert (Q : e / n = 55 / 2 * u53 * V + 20 * tiny) by (unfold e, V; field; lra). assert (UV : 0 <= u53 * V) by (apply Rmult_le_pos; lra).
    assert (QM : (T + e) / n = V + e / n) by (unfold V; field; lra). assert (UV1 : u53 * V <= 1 / 1000000 * V) by (apply Rmult_le_compat_r; lra).
    assert (Ny : B2R (fofZ (Z.of_nat (List.length w))) <> 0) by (rewrite Vn; lra). split.
    - eapply ap_weak; [unfold V; rewrite <- Vn; apply (ap_div _ _ T e ((T + e) / n) Hs Fn Ny)|].
      + rewrite QM, Q. lra.
      + rewrite Vn, (Rabs_pos_eq T), (Rabs_pos_eq n) by lra. lra.
      + rewrite Vn, (Rabs_pos_eq n) by lra. fold n. rewrite QM, Q. assert (u53 * (V + (55 / 2 * u53 * V + 20 * tiny)) <= u53 * (2 * V + 20 * tiny)) by (apply Rmult_le_compat_l; lra). assert (u53 * tiny <= 1 / 1000 * tiny) by (apply Rmult_le_compat_r; lra). lra.
    - destruct (fdiv_fin SF _ FQ Fn Ny) as [_ VQ].
      { rewrite Vn. apply Rle_trans with (2 ^ 10); [|pose proof big1023; assert (2 ^ 10 <= 2 ^ 500) by (apply Rle_pow; [lra|lia]); lra].
        destruct Hs as [_ Hs]. apply Rabs_le_inv in Hs. assert (B2R SF / n <= (T + e) / n) by (apply Rmult_le_compat_r; lra). rewrite Rabs_pos_eq by (apply Rmult_le_pos; lra). rewrite QM, Q in H. lra. }
      rewrite VQ. apply rnd_ge_0. rewrite Vn. apply Rmult_le_pos; lra. }
  destruct AV as [[FV EVr] PVr]. set (vf := fdiv SF _) in *. clearbody vf.
  destruct (fsqrt_fin vf FV PVr) as [Fq Vq].
  pose proof (sqrt_rel (B2R vf) V (30 * u53) (30 * tiny) PVr PV ltac:(lra) ltac:(lra) EVr) as SQ.
  assert (ST : sqrt (30 * tiny) <= u53).
  { rewrite <- (sqrt_square u53) by lra. apply sqrt_le_1_alt. pose proof tiny_small as TS. assert (30 * / 2 ^ 200 <= u53 * u53); [|lra]. unfold u53. rewrite pow_Z. cbn [Z.of_nat Pos.of_succ_nat Pos.succ]. change (2 ^ 200)%Z with 1606938044258990275541962092341162602522202993782792835301376%Z. lra. }
  pose proof (sqrt_pos (ss / n)) as P1. assert (PA : 0 <= ss / n) by (apply Rmult_le_pos; lra). pose proof (Rle_0_sqr dl) as PD. unfold Rsqr in PD.
  assert (L1 : sqrt (ss / n) <= sqrt V) by (apply sqrt_le_1_alt; lra).
  assert (L2 : sqrt V <= sqrt (ss / n) + Rabs dl).
  { rewrite <- (sqrt_square (sqrt (ss / n) + Rabs dl)) by (pose proof (Rabs_pos dl); lra). apply sqrt_le_1_alt. rewrite EV. pose proof (sqrt_sqrt (ss / n) PA) as Q. pose proof (Rabs_pos dl) as Q1.
    assert (Q2 : Rabs dl * Rabs dl = dl * dl) by (rewrite <- Rabs_mult, Rabs_pos_eq by lra; reflexivity). assert (0 <= sqrt (ss / n) * Rabs dl) by (apply Rmult_le_pos; lra). lra. }
  assert (L3 : sqrt (ss / n) <= 1) by (rewrite <- sqrt_1; apply sqrt_le_1_alt; lra).
  assert (L4 : 30 * u53 * sqrt V <= 30 * u53 * 2) by (apply Rmult_le_compat_l; lra). pose proof (sqrt_pos V) as P2. pose proof (sqrt_pos (B2R vf)) as P3.
  apply Rabs_le_inv in SQ. pose proof (rnd_abs (sqrt (B2R vf))) as RQ. rewrite (Rabs_pos_eq (sqrt (B2R vf))) in RQ by lra. rewrite <- Vq in RQ.
  assert (L5 : u53 * sqrt (B2R vf) <= u53 * 3) by (apply Rmult_le_compat_l; lra).
  split; [split; [exact Fq|]|split; [lra|rewrite Vq; apply rnd_ge_0; lra]]. apply Rabs_le_inv in RQ. apply Rabs_le. lra.
Qed.
Lemma fneg_fin x : is_finite x = true -> is_finite (fneg x) = true /\ B2R (fneg x) = - B2R x.
Proof. intros H. unfold fneg. split; [now rewrite is_finite_Bopp|apply B2R_Bopp]. Qed.
(** Stability in floats is the exact one up to the error of math.Exp and 2^-42. *)
Theorem C37_float_stability : forall tr e (m : CM F) (mr : CM R), exactly m mr -> Forall in_unit (cm_hist m) -> 0 <= e -> exp_acc tr e ->
  ap (@CMStability F (FNum tr) m) (@CMStability R RNum mr) (e + / 2 ^ 42).
Proof.
  intros tr e m mr E HU He HE. unfold exactly in E. unfold CMStability. cbv zeta. rewrite !E, !map_length. pose proof tiny_le_u as TU. pose proof tiny_pos as TP. pose proof u_pos as U. assert (TT : tiny <= u53 / 1000) by exact tiny_u1000.
  assert (V42 : / 2 ^ 42 = 2048 * u53) by (rewrite pow_Z; unfold u53; cbn; lra). rewrite V42.
  destruct (Nat.ltb_spec (List.length (cm_hist m)) 2) as [L|L]; [eapply ap_weak; [exact (ap_Z 1 ltac:(lia))|lra]|].
  set (k := if (List.length (cm_hist m) <? 20)%nat then List.length (cm_hist m) else 20%nat).
  assert (K : (2 <= k <= List.length (cm_hist m) /\ k <= 20)%nat) by (unfold k; destruct (Nat.ltb_spec (List.length (cm_hist m)) 20); lia).
  rewrite lastn_map. set (w := lastn k (cm_hist m)). assert (LW : List.length w = k) by (apply lastn_length; lia).
  destruct (deviation_near tr w (lastn_Forall _ _ _ HU) ltac:(lia)) as ([Fs Es] & Bs & Ps).
  change (@nsqrt F (FNum tr)) with fsqrt. change (@nsqrt R RNum) with sqrt. change (@nexp F (FNum tr)) with (texp tr). change (@nexp R RNum) with exp. change (@nmul F (FNum tr)) with fmul. change (@nmul R RNum) with Rmult.
  change (@nneg F (FNum tr)) with fneg. change (@nneg R RNum) with Ropp. change (@nofZ F (FNum tr)) with fofZ. change (@nofZ R RNum) with IZR.
  set (sf := fsqrt _) in *. set (s := sqrt _) in *. clearbody sf s.
  assert (An : ap (fneg sf) (- s) (120 * u53)). { destruct (fneg_fin sf Fs) as [A B]. split; [exact A|]. rewrite B. replace (- B2R sf - - s) with (- (B2R sf - s)) by ring. now rewrite Rabs_Ropp. }
  assert (P40 : 10000 <= 2 ^ 400) by (apply Rle_trans with (2 ^ 14); [lra|apply Rle_pow; [lra|lia]]).
  assert (Am : ap (fmul (fneg sf) (fofZ 10)) (- s * 10) (1220 * u53)).
  { eapply ap_weak; [apply (ap_mul _ _ (- s) 10 (120 * u53) 0 12 An (ap_Z 10 ltac:(lia))); try lra|]; rewrite Rabs_Ropp, (Rabs_pos_eq s), (Rabs_pos_eq 10) by lra; [unfold u53 in *|]; lra. }
  assert (N : B2R (fmul (fneg sf) (fofZ 10)) <= 0).
  { destruct (fneg_fin sf Fs) as [A B]. destruct (exZ_of 10 ltac:(lia)) as [F1 V1]. destruct (fmul_fin (fneg sf) (fofZ 10) A F1) as [_ ->].
    - rewrite B, V1, Rabs_mult, Rabs_Ropp, (Rabs_pos_eq 10) by lra. rewrite (Rabs_pos_eq (B2R sf)) by lra. apply Rabs_le_inv in Es. pose proof big1023 as BG. assert (P5 : 2 ^ 10 <= 2 ^ 500) by (apply Rle_pow; [lra|lia]). lra.
    - rewrite <- rnd_0. apply rnd_le. rewrite B, V1. lra. }
  destruct Am as [Fm Em]. pose proof Em as Em'. apply Rabs_le_inv in Em'. destruct (HE _ Fm ltac:(lra)) as [Fx Ex]. split; [exact Fx|].
  pose proof (exp_lip (B2R (fmul (fneg sf) (fofZ 10))) (- s * 10) N ltac:(lra)) as EL. set (a := exp (B2R _)) in *.
  replace (B2R (texp tr (fmul (fneg sf) (fofZ 10))) - exp (- s * 10)) with ((B2R (texp tr (fmul (fneg sf) (fofZ 10))) - a) + (a - exp (- s * 10))) by ring.
  eapply Rle_trans; [apply Rabs_triang|]. lra.
Qed.
(** Values up to 1 are rounded within 2^-54. *)
Lemma rnd_unit v : 0 < v <= 1 -> Rabs (rnd v - v) <= / 2 ^ 54.
Proof.
  intros [P L]. destruct (Req_dec v 1) as [->|N].
  - rewrite (rnd_fmt 1) by (apply (fmt_IZR 1); lia). rewrite Rminus_diag_eq, Rabs_R0 by reflexivity. left. apply Rinv_0_lt_compat, pow_lt. lra.
  - pose proof (error_le_half_ulp radix2 fexp64 (fun z => negb (Z.even z)) v) as H. eapply Rle_trans; [exact H|]. rewrite ulp_neq_0 by lra.
    assert (M : (mag radix2 v <= 0)%Z) by (apply mag_le_bpow; [lra|]; change (bpow radix2 0) with 1; rewrite Rabs_pos_eq; lra).
    assert (C : (cexp radix2 fexp64 v <= -53)%Z) by (unfold cexp; change fexp64 with (FLT_exp (-1074) 53); unfold FLT_exp; lia).
    pose proof (bpow_le radix2 _ _ C) as Q. assert (V : / 2 ^ 54 = / 2 * bpow radix2 (-53)) by (rewrite pow_Z; change (bpow radix2 (-53)) with (/ IZR (2 ^ 53)); cbn; lra). rewrite V. lra.
Qed.
Lemma cr_exp54 : exp_acc crTrig (/ 2 ^ 54).
Proof.
  intros x Fx Bx. assert (0 < exp (B2R x) <= 1). { split; [apply exp_pos|]. rewrite <- exp_0. destruct (Req_dec (B2R x) 0) as [->|N]; [lra|]. left. apply exp_increasing. lra. }
  cbn [texp crTrig]. destruct (roundF_val (exp (B2R x))) as [A B]; [apply small400; rewrite Rabs_pos_eq by lra; lra|]. split; [exact A|]. rewrite B. now apply rnd_unit.
Qed.
(** REFUTED in floats: with an exponential function that is always within 2^-54 (so rounds correctly) the stability of a
    constant history is below 1. *)
Definition stallArg : F := fmul (fneg (fsqrt (@varianceOf F (FNum crTrig) (cm_hist stalled)))) (fofZ 10).
Lemma stallArg_neg : flt stallArg (flit (-1) 9007199254740992) = true /\ flt (fofZ (-1)) stallArg = true /\ is_finite stallArg = true.
Proof. split; [vm_compute; reflexivity|]. split; vm_compute; reflexivity. Qed.
Theorem C37_stability_refuted : forall tr, exp_acc tr (/ 2 ^ 54) -> B2R (@CMStability F (FNum tr) stalled) < 1.
Proof.
  intros tr HE. assert (Q : @CMStability F (FNum tr) stalled = texp tr stallArg) by reflexivity. rewrite Q. clear Q.
  destruct stallArg_neg as (L1 & L2 & FA). revert L1 L2 FA. generalize stallArg as x. intros x L1 L2 FA.
  destruct (flit_fin (-1) 9007199254740992 ltac:(lia) ltac:(lia)) as [F1 V1].
  destruct (exZ_of (-1) ltac:(lia)) as [F2 V2]. rewrite flt_fin in L1, L2 by assumption. rewrite V2 in L2.
  destruct (Rlt_bool_spec (B2R x) (B2R (flit (-1) 9007199254740992))) as [A|]; [|discriminate]. destruct (Rlt_bool_spec (-1) (B2R x)) as [B|]; [|discriminate].
  assert (N : B2R (flit (-1) 9007199254740992) <= - (11 / 100000000000000000)).
  { rewrite V1. pose proof (rnd_abs (-1 / 9007199254740992)) as E. rewrite (Rabs_left (-1 / 9007199254740992)) in E by lra. apply Rabs_le_inv in E. pose proof tiny_small as TS. unfold u53 in E. rewrite pow_Z in TS. cbn [Z.of_nat Pos.of_succ_nat Pos.succ] in TS. change (2 ^ 200)%Z with 1606938044258990275541962092341162602522202993782792835301376%Z in TS. lra. }
  destruct (HE x FA ltac:(lra)) as [_ EX]. apply Rabs_le_inv in EX.
  assert (U : exp (B2R x) <= 1 - 10 / 100000000000000000).
  { set (a := 11 / 100000000000000000) in *. assert (exp (B2R x) <= exp (- a)). { destruct (Req_dec (B2R x) (- a)) as [->|Z]; [lra|]. left. apply exp_increasing. lra. }
    rewrite exp_Ropp in H. assert (1 + a <= exp a) by (left; apply exp_ineq1; unfold a; lra). assert (/ exp a <= / (1 + a)) by (apply Rinv_le_contravar; unfold a in *; lra).
    assert (/ (1 + a) <= 1 - 10 / 100000000000000000) by (unfold a; lra). lra. }
  rewrite pow_Z in EX. cbn [Z.of_nat Pos.of_succ_nat Pos.succ] in EX. change (2 ^ 54)%Z with 18014398509481984%Z in EX. lra.
Qed.
Example stalled_constant : Forall in_unit (cm_hist stalled) /\ (forall x y, In x (cm_hist stalled) -> In y (cm_hist stalled) -> x = y) /\ List.length (cm_hist stalled) = 10%nat /\ exp_acc crTrig (/ 2 ^ 54).
Proof.
  refine (conj _ (conj _ (conj eq_refl cr_exp54))).
  - apply Forall_forall. intros x Hx. apply repeat_spec in Hx. subst x. destruct (flit_fin 1 10 ltac:(lia) ltac:(lia)) as [A B]. split; [exact A|]. rewrite B. pose proof (rnd_unit (1 / 10) ltac:(lra)) as E. apply Rabs_le_inv in E.
    rewrite pow_Z in E. cbn [Z.of_nat Pos.of_succ_nat Pos.succ] in E. change (2 ^ 54)%Z with 18014398509481984%Z in E. lra.
  - intros x y Hx Hy. apply repeat_spec in Hx. apply repeat_spec in Hy. congruence.
Qed.
Print Assumptions C37_float_stability.
Print Assumptions C37_stability_refuted.
