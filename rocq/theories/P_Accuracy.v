(** Float accuracy: the float results of the core functions are close to the exact ones (C02, C03, C04). *)
From Coq Require Import ZArith Reals Psatz Bool List Lia Permutation.
From Flocq Require Import Core.Core IEEE754.BinarySingleNaN.
From Verif Require Import Num F64 RealNum M_Core S_Circle S_Sync S_Acc L_F64 L_F64x L_Circle L_PhaseF L_Coherence L_Acc.
Import ListNotations.
Open Scope R_scope.

Lemma u_pos : 0 < u53 < / 1000000. Proof. unfold u53. lra. Qed.
Lemma vlen_sq c s : vlen c s * vlen c s = c * c + s * s.
Proof. unfold vlen. apply sqrt_sqrt. nra. Qed.
Lemma vlen_le2 c s W : Rabs c <= 5 / 4 * W -> Rabs s <= 5 / 4 * W -> vlen c s <= 2 * W.
Proof.
  intros A B. pose proof (Rabs_pos c). unfold vlen. replace (2 * W) with (sqrt (2 * W * (2 * W))) by (apply sqrt_square; lra).
  apply sqrt_le_1_alt. apply Rabs_le_inv in A. apply Rabs_le_inv in B. nra.
Qed.
Lemma vlen_ge c s : Rabs c <= vlen c s /\ Rabs s <= vlen c s.
Proof.
  pose proof (vlen_sq c s) as E. pose proof (vlen_ge0 c s) as P. split; apply Rabs_le; split; nra.
Qed.
Lemma vlen_lip a b c d : Rabs (vlen a b - vlen c d) <= Rabs (a - c) + Rabs (b - d).
Proof.
  assert (H : forall a b c d, vlen a b <= vlen c d + (Rabs (a - c) + Rabs (b - d))).
  { clear. intros a b c d. pose proof (vlen_ge c d) as [A B]. pose proof (vlen_ge0 c d) as P. pose proof (vlen_sq c d) as E.
    set (p := vlen c d) in *. set (x := a - c). set (y := b - d). replace a with (c + x) by (unfold x; ring). replace b with (d + y) by (unfold y; ring).
    pose proof (Rabs_pos x) as Px. pose proof (Rabs_pos y) as Py. unfold vlen. rewrite <- (sqrt_square (p + (Rabs x + Rabs y))) by lra. apply sqrt_le_1_alt.
    assert (C1 : c * x <= p * Rabs x). { eapply Rle_trans; [apply Rle_abs|]. rewrite Rabs_mult. apply Rmult_le_compat_r; auto. }
    assert (C2 : d * y <= p * Rabs y). { eapply Rle_trans; [apply Rle_abs|]. rewrite Rabs_mult. apply Rmult_le_compat_r; auto. }
    assert (Q1 : x * x = Rabs x * Rabs x) by (rewrite <- Rabs_mult, Rabs_pos_eq; nra).
    assert (Q2 : y * y = Rabs y * Rabs y) by (rewrite <- Rabs_mult, Rabs_pos_eq; nra).
    assert (0 <= Rabs x * Rabs y) by now apply Rmult_le_pos. nra. }
  apply Rabs_le. pose proof (H a b c d). pose proof (H c d a b). rewrite (Rabs_minus_sym c a), (Rabs_minus_sym d b) in *. lra.
Qed.
Lemma sqrt_slack v V k t : 0 <= v -> 0 <= V -> 0 <= k -> 0 <= t -> v <= (1 + k) * V + t * t -> sqrt v <= (1 + k) * sqrt V + t.
Proof.
  intros Hv HV Hk Ht H. pose proof (sqrt_pos V) as P. pose proof (sqrt_sqrt V HV) as E.
  rewrite <- (sqrt_square ((1 + k) * sqrt V + t)) by nra. apply sqrt_le_1_alt. eapply Rle_trans; [exact H|].
  rewrite <- E at 1. set (q := sqrt V) in *. assert (0 <= k * (q * q)) by (apply Rmult_le_pos; nra). assert (0 <= q * t) by nra. assert (0 <= k * (q * t)) by now apply Rmult_le_pos. nra.
Qed.
(** The computed length of a vector. *)
Lemma norm_acc c s : is_finite c = true -> is_finite s = true -> Rabs (B2R c) <= 2 ^ 60 -> Rabs (B2R s) <= 2 ^ 60 ->
  let q := fsqrt (fadd (fmul c c) (fmul s s)) in
  is_finite q = true /\ 0 <= B2R q /\ Rabs (B2R q - vlen (B2R c) (B2R s)) <= 8 * u53 * vlen (B2R c) (B2R s) + 8 * (u53 * u53).
Proof.
  intros Fc Fs Bc Bs q. set (x := B2R c) in *. set (y := B2R s) in *. pose proof u_pos as U. pose proof tiny_le_u as TU. pose proof tiny_pos as TP.
  assert (BIGB : 4 * (2 ^ 60 * 2 ^ 60) <= bpow radix2 1023).
  { replace (4 * (2 ^ 60 * 2 ^ 60)) with (2 ^ 122) by (rewrite <- pow_add; simpl; lra). eapply Rle_trans; [|apply big1023]. apply Rle_pow; [lra|lia]. }
  assert (P60 : 0 < 2 ^ 60) by (apply pow_lt; lra).
  assert (SQ : forall r, Rabs r <= 2 ^ 60 -> 0 <= r * r <= 2 ^ 60 * 2 ^ 60).
  { intros r Hr. apply Rabs_le_inv in Hr. split; nra. }
  pose proof (SQ x Bc) as X2. pose proof (SQ y Bs) as Y2.
  destruct (fmul_fin c c Fc Fc) as [F1 V1]; [fold x; rewrite Rabs_pos_eq; lra|]. destruct (fmul_fin s s Fs Fs) as [F2 V2]; [fold y; rewrite Rabs_pos_eq; lra|].
  fold x in V1. fold y in V2. pose proof (rnd_abs (x * x)) as E1. pose proof (rnd_abs (y * y)) as E2. rewrite <- V1 in E1. rewrite <- V2 in E2. rewrite (Rabs_pos_eq (x * x)) in E1 by lra. rewrite (Rabs_pos_eq (y * y)) in E2 by lra.
  assert (P1 : 0 <= B2R (fmul c c)) by (rewrite V1; apply rnd_ge_0; lra). assert (P2 : 0 <= B2R (fmul s s)) by (rewrite V2; apply rnd_ge_0; lra).
  set (V := x * x + y * y) in *. set (w := B2R (fmul c c) + B2R (fmul s s)) in *.
  assert (EW : Rabs (w - V) <= u53 * V + 2 * tiny).
  { unfold w, V. replace (B2R (fmul c c) + B2R (fmul s s) - (x * x + y * y)) with ((B2R (fmul c c) - x * x) + (B2R (fmul s s) - y * y)) by ring. eapply Rle_trans; [apply Rabs_triang|]. lra. }
  assert (PV : 0 <= V) by (unfold V; lra). assert (PW : 0 <= w) by (unfold w; lra). apply Rabs_le_inv in EW.
  assert (T1 : tiny < 1) by nra. assert (UV : 0 <= u53 * V) by (apply Rmult_le_pos; lra).
  assert (WB : w <= 2 * V + 2). { assert (u53 * V <= V) by nra. lra. }
  assert (P60' : 1 <= 2 ^ 60) by (apply pow_R1_Rle; lra). assert (Q60 : 1 <= 2 ^ 60 * 2 ^ 60) by nra.
  destruct (fadd_fin _ _ F1 F2) as [F3 V3].
  { change (Rabs w <= bpow radix2 1023). rewrite Rabs_pos_eq by lra. destruct (Rle_dec (2 ^ 60 * 2 ^ 60) 1) as [Z|Z].
    - eapply Rle_trans; [exact WB|]. unfold V. pose proof big1023. assert (2 ^ 4 <= 2 ^ 500) by (apply Rle_pow; [lra|lia]). lra.
    - unfold w. assert (B2R (fmul c c) <= 2 ^ 60 * 2 ^ 60 * (2)) by (apply Rabs_le_inv in E1; nra). assert (B2R (fmul s s) <= 2 ^ 60 * 2 ^ 60 * 2) by (apply Rabs_le_inv in E2; nra). lra. }
  fold w in V3. set (v := B2R (fadd (fmul c c) (fmul s s))) in *. assert (Pv : 0 <= v) by (rewrite V3; apply rnd_ge_0; lra).
  pose proof (rnd_abs w) as E3. rewrite <- V3, (Rabs_pos_eq w) in E3 by lra. apply Rabs_le_inv in E3.
  assert (UW : u53 * w <= u53 * V + u53 * V + tiny). { assert (u53 * w <= u53 * (V + u53 * V + 2 * tiny)) by (apply Rmult_le_compat_l; lra). assert (u53 * (u53 * V) <= u53 * V) by nra. assert (u53 * (2 * tiny) <= tiny) by nra. lra. }
  assert (D1 : v <= V + 3 * (u53 * V) + 4 * tiny) by lra. assert (D2 : V <= v + 3 * (u53 * V) + 4 * tiny) by lra.
  assert (T4 : 8 * tiny <= (u53 * u53) * (u53 * u53)).
  { unfold tiny. rewrite u53_bpow. replace 8 with (bpow radix2 3) by (simpl; lra). rewrite <- !bpow_plus. apply bpow_le. lia. }
  assert (S1 : sqrt v <= (1 + 4 * u53) * sqrt V + u53 * u53) by (apply sqrt_slack; try lra; try nra).
  assert (S2 : sqrt V <= (1 + 4 * u53) * sqrt v + u53 * u53).
  { apply sqrt_slack; try lra; try nra. }
  fold (vlen x y) in S1, S2. change (sqrt V) with (vlen x y) in S1, S2. set (L := vlen x y) in *. assert (PL : 0 <= L) by apply vlen_ge0.
  destruct (fsqrt_fin _ F3 Pv) as [F4 V4]. fold q in F4, V4. fold v in V4. pose proof (sqrt_pos v) as Pq. set (r := sqrt v) in *.
  split; [exact F4|]. split; [rewrite V4; now apply rnd_ge_0|]. pose proof (rnd_abs r) as E4. rewrite <- V4, (Rabs_pos_eq r) in E4 by lra.
  assert (UL : 0 <= u53 * L) by (apply Rmult_le_pos; lra).
  assert (UR : u53 * r <= 11 / 10 * (u53 * L) + u53 * u53).
  { assert (u53 * r <= u53 * ((1 + 4 * u53) * L + u53 * u53)) by (apply Rmult_le_compat_l; lra). assert (u53 * (4 * u53 * L) <= u53 * L / 10) by nra. assert (u53 * (u53 * u53) <= u53 * u53) by nra. lra. }
  apply Rabs_le_inv in E4. apply Rabs_le. assert (r <= L + 4 * (u53 * L) + u53 * u53) by lra. assert (L <= r + 4 * (u53 * r) + u53 * u53) by lra. split; lra.
Qed.
Lemma fold_rsumF (g : R -> R) l : fold_right (fun (x : F) s => g (B2R x) + s) 0 l = rsum g (map B2R l).
Proof. induction l; simpl; [reflexivity|]. now rewrite IHl. Qed.
(** The float coherence is within [2e + (n+5) 2^-51] of the order parameter, whatever the order of the phases. *)
Theorem C03_float_accuracy : forall tr e (l : list F), trig_sane tr -> trig_acc tr e -> 0 <= e -> l <> [] -> (Z.of_nat (length l) <= 2 ^ 50)%Z ->
  Forall (fun x => is_finite x = true /\ Rabs (B2R x) <= 2 ^ 29) l ->
  let z := @MeasureCoherence F (FNum tr) l in
  is_finite z = true /\ 0 <= B2R z /\
  Rabs (B2R z - @MeasureCoherence R RNum (map B2R l)) <= 2 * e + (IZR (Z.of_nat (length l)) + 5) / 2 ^ 51.
Proof.
  intros tr e l HS HA He Hne Hn Hl z. rewrite Forall_forall in Hl. pose proof u_pos as U. pose proof tiny_le_u as TU. pose proof tiny_pos as TP.
  set (n := Z.of_nat (length l)) in *. assert (N1 : (1 <= n)%Z) by (unfold n; destruct l; [contradiction|cbn [length]; lia]).
  assert (N1' : 1 <= IZR n) by (apply (IZR_le 1); lia).
  destruct (ap_Z 0 ltac:(lia)) as [F0 V0].
  destruct (sum_acc (tcos tr) (fun x => cos (B2R x)) e l He) with (a := fofZ 0) (k := 0%Z) (S := 0) (E := 0) as (Fc & Bc & Ec); auto; try lia.
  { intros x Hx. destruct (Hl x Hx) as [Fx Bx]. destruct (sane_cos tr HS x Fx) as [A B]. split; [exact A|]. split; [exact B|]. now apply (acc_cos tr e HA). }
  { rewrite Rminus_0_r in V0. exact V0. }
  destruct (sum_acc (tsin tr) (fun x => sin (B2R x)) e l He) with (a := fofZ 0) (k := 0%Z) (S := 0) (E := 0) as (Fs & Bs & Es); auto; try lia.
  { intros x Hx. destruct (Hl x Hx) as [Fx Bx]. destruct (sane_sin tr HS x Fx) as [A B]. split; [exact A|]. split; [exact B|]. now apply (acc_sin tr e HA). }
  { rewrite Rminus_0_r in V0. exact V0. }
  rewrite Z.add_0_l in *. fold n in Bc, Bs, Ec, Es. rewrite (fold_rsumF cos) in Ec. rewrite (fold_rsumF sin) in Es.
  set (c := fold_left (fun s x => fadd s (tcos tr x)) l (fofZ 0)) in *. set (s := fold_left (fun s x => fadd s (tsin tr x)) l (fofZ 0)) in *.
  assert (NB : IZR n <= 2 ^ 60). { rewrite pow_Z. apply IZR_le. eapply Z.le_trans; [exact Hn|]. apply Z.pow_le_mono_r; lia. }
  destruct (norm_acc c s Fc Fs ltac:(lra) ltac:(lra)) as (Fq & Pq & Eq). set (q := fsqrt _) in *.
  assert (EZ : z = fdiv q (fofZ n)). { unfold z, MeasureCoherence. destruct l as [|x0 l0]; [contradiction|]. reflexivity. }
  assert (ER : @MeasureCoherence R RNum (map B2R l) = vlen (rsum cos (map B2R l)) (rsum sin (map B2R l)) / IZR n).
  { rewrite RMC_unfold; [|destruct l; [contradiction|discriminate]]. rewrite map_length, INR_IZR_INZ. reflexivity. }
  set (C := rsum cos (map B2R l)) in *. set (Sn := rsum sin (map B2R l)) in *.
  pose proof (vlen_lip (B2R c) (B2R s) C Sn) as VL. rewrite Rplus_0_l in Ec, Es.
  assert (LB : vlen (B2R c) (B2R s) <= 2 * IZR n).
  { pose proof (vlen_sq (B2R c) (B2R s)). pose proof (vlen_ge0 (B2R c) (B2R s)). apply Rabs_le_inv in Bc. apply Rabs_le_inv in Bs. nra. }
  set (L := vlen (B2R c) (B2R s)) in *. assert (PL : 0 <= L) by apply vlen_ge0.
  destruct (fofZ_fin n) as [Fn Vn]; [lia|].
  assert (UN : u53 * 1 <= u53 * IZR n) by (apply Rmult_le_compat_l; lra).
  assert (AQ : ap q (vlen C Sn) (2 * (IZR n * (e + 2 * u53 * IZR n)) + 8 * u53 * L + 8 * (u53 * u53))).
  { split; [exact Fq|]. replace (B2R q - vlen C Sn) with ((B2R q - L) + (L - vlen C Sn)) by ring. eapply Rle_trans; [apply Rabs_triang|]. lra. }
  assert (QB : Rabs (B2R q / IZR n) <= 3).
  { rewrite Rabs_pos_eq by (apply Rmult_le_pos; [lra|left; apply Rinv_0_lt_compat; lra]). apply Rmult_le_reg_r with (IZR n); [lra|]. unfold Rdiv. rewrite Rmult_assoc, Rinv_l, Rmult_1_r by lra.
    apply Rabs_le_inv in Eq. assert (8 * u53 * L <= IZR n / 2) by nra. assert (8 * (u53 * u53) <= 1 / 2) by nra. lra. }
  pose proof big1023 as BG. assert (P5 : 2 ^ 2 <= 2 ^ 500) by (apply Rle_pow; [lra|lia]).
  destruct (fdiv_fin q (fofZ n) Fq Fn) as [Fz Vz]; [rewrite Vn; lra|rewrite Vn; lra|]. rewrite Vn in Vz. rewrite <- EZ in Fz, Vz.
  split; [exact Fz|]. split; [rewrite Vz; apply rnd_ge_0; apply Rmult_le_pos; [lra|left; apply Rinv_0_lt_compat; lra]|].
  rewrite ER, Vz. pose proof (rnd_abs (B2R q / IZR n)) as E5.
  assert (DQ : Rabs (B2R q / IZR n - vlen C Sn / IZR n) <= 2 * e + 4 * u53 * IZR n + 33 / 2 * u53).
  { replace (B2R q / IZR n - vlen C Sn / IZR n) with ((B2R q - vlen C Sn) * / IZR n) by (field; lra). rewrite Rabs_mult, (Rabs_pos_eq (/ IZR n)) by (left; apply Rinv_0_lt_compat; lra).
    apply Rmult_le_reg_r with (IZR n); [lra|]. rewrite Rmult_assoc, Rinv_l, Rmult_1_r by lra. destruct AQ as [_ AQ]. eapply Rle_trans; [exact AQ|].
    assert (8 * u53 * L <= 16 * (u53 * IZR n)) by nra. assert (8 * (u53 * u53) <= u53 * IZR n / 2) by nra. nra. }
  set (w := B2R q / IZR n) in *. replace (rnd w - vlen C Sn / IZR n) with ((rnd w - w) + (w - vlen C Sn / IZR n)) by ring. eapply Rle_trans; [apply Rabs_triang|].
  assert (u53 * Rabs w <= u53 * 3) by (apply Rmult_le_compat_l; lra).
  assert (TT : tiny <= u53 / 1000) by exact tiny_u1000. change (2 ^ 51) with (2 ^ 51). rewrite pow_Z. cbn [Z.of_nat Pos.of_succ_nat Pos.succ]. change (2 ^ 51)%Z with 2251799813685248%Z. unfold u53 in *. lra.
Qed.

(** Any order of the same phases gives nearly the same coherence. *)
Theorem C03_float_order : forall tr e (l l' : list F), trig_sane tr -> trig_acc tr e -> 0 <= e -> l <> [] -> (Z.of_nat (length l) <= 2 ^ 50)%Z ->
  Forall (fun x => is_finite x = true /\ Rabs (B2R x) <= 2 ^ 29) l -> Permutation l l' ->
  Rabs (B2R (@MeasureCoherence F (FNum tr) l) - B2R (@MeasureCoherence F (FNum tr) l')) <= 4 * e + (IZR (Z.of_nat (length l)) + 5) / 2 ^ 50.
Proof.
  intros tr e l l' HS HA He Hne Hn Hl HP.
  assert (Hne' : l' <> []) by (intros ->; apply Permutation_sym, Permutation_nil in HP; contradiction).
  assert (Hl' : Forall (fun x => is_finite x = true /\ Rabs (B2R x) <= 2 ^ 29) l') by (apply (Permutation_Forall HP); exact Hl).
  destruct (C03_float_accuracy tr e l HS HA He Hne Hn Hl) as (_ & _ & A). pose proof (Permutation_length HP) as LE.
  destruct (C03_float_accuracy tr e l' HS HA He Hne' ltac:(rewrite <- LE; exact Hn) Hl') as (_ & _ & B). rewrite <- LE in B.
  rewrite <- (RMC_perm (map B2R l) (map B2R l') (Permutation_map _ HP)) in B. set (r := MeasureCoherence (map B2R l)) in *.
  set (x := B2R _) in *. set (y := B2R (@MeasureCoherence F (FNum tr) l')) in *. apply Rabs_le_inv in A. apply Rabs_le_inv in B. apply Rabs_le.
  replace (/ 2 ^ 50) with (2 * / 2 ^ 51) in * by (change (2 ^ 51) with (2 * 2 ^ 50); field; apply pow_nonzero; lra). unfold Rdiv in *. replace (/ 2 ^ 50) with (2 * / 2 ^ 51) by (change (2 ^ 51) with (2 * 2 ^ 50); field; apply pow_nonzero; lra). lra.
Qed.

(** ** C02 *)
Lemma B2R_fabs x : B2R (fabs x) = Rabs (B2R x). Proof. apply B2R_Babs. Qed.
Lemma fin_fabs x : is_finite (fabs x) = is_finite x. Proof. apply is_finite_Babs. Qed.
Lemma eps_val : is_finite (flit 1 10000000000) = true /\ B2R (flit 1 10000000000) <= 101 / 100 * / 10 ^ 10.
Proof.
  destruct (flit_fin 1 10000000000 ltac:(lia) ltac:(lia)) as [A B]. split; [exact A|]. rewrite B. pose proof (rnd_abs (1 / 10000000000)) as E. rewrite (Rabs_pos_eq (1 / 10000000000)) in E by lra.
  apply Rabs_le_inv in E. pose proof tiny_le_u. unfold u53 in *. lra.
Qed.
Lemma f32_val : is_finite (fhalfpi 3) = true /\ Rabs (B2R (fhalfpi 3) - 3 * PI / 2) <= / 10 ^ 15.
Proof.
  assert (H : exists m, B2SF (fhalfpi 3) = SpecFloat.S754_finite false m (-50) /\ m = 5305678314021330%positive) by (eexists; split; [vm_compute; reflexivity|reflexivity]).
  destruct H as (m & H & ->). apply B2R_of_B2SF in H. destruct H as [A B]. split; [exact A|]. rewrite B. unfold F2R. cbn [Fnum Fexp cond_Zopp]. change (bpow radix2 (-50)) with (/ IZR (2 ^ 50)). pose proof PI_bounds. apply Rabs_le. lra.
Qed.
(** The pairs the code treats specially lie in these two squares of side 4e-10. *)
Definition near0 (p : R) : Prop := Rabs p < 2 / 10 ^ 10.
Definition near34 (p : R) : Prop := Rabs (p - 3 * PI / 2) < 2 / 10 ^ 10.
Lemma near0_test x : is_finite x = true -> flt (fabs x) (flit 1 10000000000) = true -> near0 (B2R x).
Proof.
  intros Fx H. destruct eps_val as [Fe Ve]. apply flt_true in H as (_ & _ & H). rewrite ford_fin, ford_fin in H by (auto; now rewrite fin_fabs). rewrite B2R_fabs in H. unfold near0. lra.
Qed.
Lemma near34_test x : is_finite x = true -> Rabs (B2R x) <= 2 ^ 28 -> flt (fabs (fsub x (fhalfpi 3))) (flit 1 10000000000) = true -> near34 (B2R x).
Proof.
  intros Fx Bx H. destruct f32_val as [F3 V3]. pose proof PI_bounds as PB. assert (P28 : 2 ^ 28 = 268435456) by lra. apply Rabs_le_inv in V3. apply Rabs_le_inv in Bx.
  destruct (fsub_fin x (fhalfpi 3) Fx F3) as [Fd Vd].
  { pose proof big1023. assert (2 ^ 29 <= 2 ^ 500) by (apply Rle_pow; [lra|lia]). assert (2 ^ 29 = 536870912) by lra. apply Rabs_le. lra. }
  destruct eps_val as [Fe Ve]. apply flt_true in H as (_ & _ & H). rewrite ford_fin, ford_fin in H by (auto; now rewrite fin_fabs). rewrite B2R_fabs, Vd in H.
  set (q := B2R x - B2R (fhalfpi 3)) in *. pose proof (rnd_abs q) as E. pose proof tiny_le_u as TU. unfold near34.
  assert (Q : Rabs q <= 11 / 10 * / 10 ^ 10).
  { assert (Rabs q <= Rabs (rnd q) + Rabs (rnd q - q)). { replace q with (rnd q - (rnd q - q)) at 1 by ring. eapply Rle_trans; [apply Rabs_triang|]. rewrite Rabs_Ropp. lra. }
    unfold u53 in *. lra. }
  replace (B2R x - 3 * PI / 2) with (q + (B2R (fhalfpi 3) - 3 * PI / 2)) by (unfold q; ring). apply Rabs_le_inv in Q. apply Rabs_def1; lra.
Qed.
(** Outside the special-cased squares the float result is the difference up to whole turns and up to
    [8 e + (|a| + |b| + 1) 2^-52]; its magnitude is the arc up to that error. *)
Theorem C02_float_accuracy : forall tr e a b d, trig_sane tr -> trig_acc tr e -> 0 <= e <= 1 / 4 ->
  is_finite a = true -> is_finite b = true -> Rabs (B2R a) <= 2 ^ 28 -> Rabs (B2R b) <= 2 ^ 28 ->
  ~ (near0 (B2R a) /\ near34 (B2R b)) -> ~ (near34 (B2R a) /\ near0 (B2R b)) -> is_arc (B2R a) (B2R b) d ->
  let r := @PhaseDifference F (FNum tr) a b in let del := 8 * e + (Rabs (B2R a) + Rabs (B2R b) + 1) / 2 ^ 52 in
  is_finite r = true /\ Rabs (B2R r) <= PI /\ (exists k, Rabs (B2R r - (B2R a - B2R b) - IZR k * (2 * PI)) <= del) /\ Rabs (Rabs (B2R r) - d) <= del.
Proof.
  intros tr e a b d HS HA He Fa Fb Ba Bb N1 N2 Hd r del.
  assert (Er : r = tatan2 tr (tsin tr (fsub a b)) (tcos tr (fsub a b))).
  { unfold r, PhaseDifference, pd_eps. cbn [nabs nsub nlt nlit nhalfpi natan2 nsin ncos FNum].
    destruct (flt (fabs a) (flit 1 10000000000)) eqn:T1; cbn [andb].
    - destruct (flt (fabs (fsub b (fhalfpi 3))) (flit 1 10000000000)) eqn:T2.
      + exfalso. apply N1. split; [now apply near0_test|now apply near34_test].
      + destruct (flt (fabs (fsub a (fhalfpi 3))) (flit 1 10000000000)) eqn:T3; cbn [andb]; [|reflexivity].
        destruct (flt (fabs b) (flit 1 10000000000)) eqn:T4; [|reflexivity]. exfalso. apply N2. split; [now apply near34_test|now apply near0_test].
    - destruct (flt (fabs (fsub a (fhalfpi 3))) (flit 1 10000000000)) eqn:T3; cbn [andb]; [|reflexivity].
      destruct (flt (fabs b) (flit 1 10000000000)) eqn:T4; [|reflexivity]. exfalso. apply N2. split; [now apply near34_test|now apply near0_test]. }
  assert (P29 : 2 ^ 29 = 2 * 2 ^ 28) by (simpl; ring). assert (P28 : 1 <= 2 ^ 28) by (apply pow_R1_Rle; lra).
  assert (BD : Rabs (B2R a - B2R b) <= Rabs (B2R a) + Rabs (B2R b)) by (unfold Rminus; eapply Rle_trans; [apply Rabs_triang|]; rewrite Rabs_Ropp; lra).
  destruct (fsub_fin a b Fa Fb) as [Fd Vd]. { pose proof big1023. assert (2 ^ 29 <= 2 ^ 500) by (apply Rle_pow; [lra|lia]). lra. }
  pose proof (rnd_abs (B2R a - B2R b)) as E1. rewrite <- Vd in E1. set (x := fsub a b) in *.
  assert (FM : fmt (2 ^ 29)). { rewrite pow_Z. apply fmt_IZR. cbn. lia. }
  assert (Bx : Rabs (B2R x) <= 2 ^ 29).
  { rewrite Vd. apply Rabs_le. assert (Q : Rabs (B2R a - B2R b) <= 2 ^ 29) by lra. apply Rabs_le_inv in Q. split; [apply rnd_ge_fmt; [now apply fmt_opp|lra]|apply rnd_le_fmt; [exact FM|lra]]. }
  destruct (sane_sin tr HS x Fd) as [Fs _]. destruct (sane_cos tr HS x Fd) as [Fc _].
  pose proof (acc_sin tr e HA x Fd Bx) as As. pose proof (acc_cos tr e HA x Fd Bx) as Ac.
  destruct (dir_acc (B2R (tsin tr x)) (B2R (tcos tr x)) 1 (B2R x) e) as (NZ & t & Ht & Ct); try lra; [now rewrite Rmult_1_l|now rewrite Rmult_1_l|].
  destruct (sane_atan2 tr HS _ _ Fs Fc) as [Fr Br]. rewrite <- Er in Fr, Br.
  destruct (acc_atan2 tr e HA _ _ Fs Fc NZ) as (t' & Ct' & _ & At). rewrite <- Er in At.
  assert (Bpi : Rabs (B2R r) <= PI). { pose proof fpi_near as FN. unfold fpi in FN. lra. }
  assert (K : exists k, Rabs (B2R r - (B2R a - B2R b) - IZR k * (2 * PI)) <= del).
  { destruct (cong_trans _ _ _ Ct' Ct) as [k Ck]. exists k.
    replace (B2R r - (B2R a - B2R b) - IZR k * (2 * PI)) with ((B2R r - t') + (t + (B2R x - (B2R a - B2R b)))) by lra.
    eapply Rle_trans; [apply Rabs_triang|]. eapply Rle_trans; [apply Rplus_le_compat_l, Rabs_triang|]. unfold del. pose proof tiny_le_u as TU. pose proof (Rabs_pos (B2R a)). pose proof (Rabs_pos (B2R b)).
    replace (2 ^ 52) with 4503599627370496 by (rewrite pow_Z; reflexivity). unfold u53 in *. lra. }
  split; [exact Fr|]. split; [exact Bpi|]. split; [exact K|]. destruct K as [k K]. exact (arc_near _ _ _ _ _ k Hd Bpi K).
Qed.
(** The hypotheses are met by correctly rounded functions. *)
Example C02_float_applies : trig_sane crTrig /\ trig_acc crTrig (/ 2 ^ 51) /\ 0 <= / 2 ^ 51 <= 1 / 4 /\
  is_finite (fofZ 1) = true /\ ~ near0 (B2R (fofZ 1)) /\ ~ near34 (B2R (fofZ 1)) /\ Rabs (B2R (fofZ 1)) <= 2 ^ 28.
Proof.
  split; [exact cr_sane|]. split; [exact cr_acc|]. split; [split; [left; apply Rinv_0_lt_compat, pow_lt; lra|rewrite pow_Z; cbn; lra]|].
  destruct (fofZ_fin 1 ltac:(lia)) as [A B]. rewrite B. split; [exact A|]. pose proof PI_bounds. unfold near0, near34. rewrite (Rabs_pos_eq 1), (Rabs_left1 (1 - 3 * PI / 2)) by lra. split; [lra|]. split; [lra|]. apply pow_R1_Rle; lra.
Qed.
(** Phases 0, 1, 2 meet the hypotheses of the coherence theorems. *)
Example C03_float_applies : Forall (fun x => is_finite x = true /\ Rabs (B2R x) <= 2 ^ 29) [fofZ 0; fofZ 1; fofZ 2] /\
  Permutation [fofZ 0; fofZ 1; fofZ 2] [fofZ 2; fofZ 0; fofZ 1] /\ trig_sane crTrig /\ trig_acc crTrig (/ 2 ^ 51).
Proof.
  assert (1 <= 2 ^ 28) by (apply pow_R1_Rle; lra). assert (2 ^ 29 = 2 * 2 ^ 28) by (simpl; ring).
  split; [|split; [apply (Permutation_app_comm [fofZ 0; fofZ 1] [fofZ 2])|split; [exact cr_sane|exact cr_acc]]].
  destruct (fofZ_fin 0 ltac:(lia)) as [A0 B0]. destruct (fofZ_fin 1 ltac:(lia)) as [A1 B1]. destruct (fofZ_fin 2 ltac:(lia)) as [A2 B2].
  repeat constructor; auto; rewrite ?B0, ?B1, ?B2, Rabs_pos_eq; lra.
Qed.
Print Assumptions C03_float_accuracy.
Print Assumptions C03_float_order.
Print Assumptions C02_float_accuracy.
