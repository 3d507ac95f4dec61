(** Float accuracy of the resultant of unit vectors: its components, its length and its direction. *)
From Coq Require Import ZArith Reals Psatz Bool List Lia.
From Flocq Require Import Core.Core IEEE754.BinarySingleNaN.
From Verif Require Import Num F64 RealNum M_Core S_Circle S_Sync S_Acc L_F64 L_F64x L_Circle L_PhaseF L_Coherence L_Acc P_Accuracy.
Import ListNotations.
Open Scope R_scope.

Lemma sin_abs x : Rabs (sin x) <= Rabs x.
Proof.
  assert (P : forall x, 0 <= x -> Rabs (sin x) <= x).
  { clear. intros x H. destruct (Req_dec x 0) as [->|N]; [rewrite sin_0, Rabs_R0; lra|]. destruct (Rle_dec x 1) as [L|L].
    - assert (0 < sin x) by (apply sin_gt_0; [lra|pose proof PI_bounds; lra]). rewrite Rabs_pos_eq by lra. left. apply sin_lt_x. lra.
    - pose proof (SIN_bound x). apply Rabs_le. lra. }
  destruct (Rle_dec 0 x) as [H|H]; [rewrite (Rabs_pos_eq x) by lra; auto|].
  rewrite <- (Rabs_Ropp (sin x)), <- sin_neg, <- (Rabs_Ropp x), (Rabs_pos_eq (- x)) by lra. apply P. lra.
Qed.
Lemma cos_near a b : Rabs (cos a - cos b) <= Rabs (a - b).
Proof.
  rewrite form2. pose proof (sin_abs ((a - b) / 2)) as A. pose proof (SIN_bound ((a + b) / 2)) as B.
  assert (B' : Rabs (sin ((a + b) / 2)) <= 1) by (apply Rabs_le; lra).
  replace (-2 * sin ((a - b) / 2) * sin ((a + b) / 2)) with (- (2 * (sin ((a - b) / 2) * sin ((a + b) / 2)))) by ring. rewrite Rabs_Ropp, Rabs_mult, Rabs_mult, (Rabs_pos_eq 2) by lra.
  assert (E : Rabs ((a - b) / 2) = Rabs (a - b) / 2) by (unfold Rdiv; rewrite Rabs_mult, (Rabs_pos_eq (/ 2)) by lra; reflexivity). rewrite E in A.
  pose proof (Rabs_pos (sin ((a - b) / 2))). pose proof (Rabs_pos (sin ((a + b) / 2))). nra.
Qed.
Lemma sin_near a b : Rabs (sin a - sin b) <= Rabs (a - b).
Proof.
  replace (sin a) with (cos (a - PI / 2)) by (rewrite <- cos_shift, <- (cos_neg (PI / 2 - a)); f_equal; lra).
  replace (sin b) with (cos (b - PI / 2)) by (rewrite <- cos_shift, <- (cos_neg (PI / 2 - b)); f_equal; lra).
  eapply Rle_trans; [apply cos_near|]. right. f_equal. ring.
Qed.

(** The resultant of [n] vectors whose components are known within [e]. *)
Lemma resultant_acc (fc fs : F -> F) (gc gs : F -> R) e l : 0 <= e <= 1 -> l <> [] -> (Z.of_nat (length l) <= 2 ^ 50)%Z ->
  (forall x, In x l -> is_finite (fc x) = true /\ Rabs (B2R (fc x)) <= 1 /\ Rabs (B2R (fc x) - gc x) <= e) ->
  (forall x, In x l -> is_finite (fs x) = true /\ Rabs (B2R (fs x)) <= 1 /\ Rabs (B2R (fs x) - gs x) <= e) ->
  let n := IZR (Z.of_nat (length l)) in
  let c := fold_left (fun s x => fadd s (fc x)) l (fofZ 0) in let s := fold_left (fun s x => fadd s (fs x)) l (fofZ 0) in
  let C := fold_right (fun x s => gc x + s) 0 l in let Sn := fold_right (fun x s => gs x + s) 0 l in
  let z := fdiv (fsqrt (fadd (fmul c c) (fmul s s))) (fofZ (Z.of_nat (length l))) in
  (is_finite z = true /\ 0 <= B2R z /\ B2R z <= 3 /\ Rabs (B2R z - vlen C Sn / n) <= 2 * e + (n + 5) / 2 ^ 51) /\
  ap (fdiv c (fofZ (Z.of_nat (length l)))) (C / n) (e + (2 * n + 2) * u53) /\
  ap (fdiv s (fofZ (Z.of_nat (length l)))) (Sn / n) (e + (2 * n + 2) * u53).
Proof.
  intros He Hne Hn Hc Hs n0 c s C Sn z. pose proof u_pos as U. pose proof tiny_le_u as TU. pose proof tiny_pos as TP.
  set (n := Z.of_nat (length l)) in *. assert (N1 : (1 <= n)%Z) by (unfold n; destruct l; [contradiction|cbn [length]; lia]).
  assert (N1' : 1 <= IZR n) by (apply (IZR_le 1); lia).
  destruct (ap_Z 0 ltac:(lia)) as [F0 V0].
  destruct (sum_acc fc gc e l ltac:(lra) Hc) with (a := fofZ 0) (k := 0%Z) (S := 0) (E := 0) as (Fc & Bc & Ec); auto; try lia.
  { rewrite Rminus_0_r in V0. exact V0. }
  destruct (sum_acc fs gs e l ltac:(lra) Hs) with (a := fofZ 0) (k := 0%Z) (S := 0) (E := 0) as (Fs & Bs & Es); auto; try lia.
  { rewrite Rminus_0_r in V0. exact V0. }
  rewrite Z.add_0_l in *. fold n in Bc, Bs, Ec, Es. fold c in Fc, Bc, Ec. fold s in Fs, Bs, Es. fold C in Ec. fold Sn in Es. rewrite Rplus_0_l in Ec, Es.
  assert (NB : IZR n <= 2 ^ 60). { rewrite pow_Z. apply IZR_le. eapply Z.le_trans; [exact Hn|]. apply Z.pow_le_mono_r; lia. }
  destruct (norm_acc c s Fc Fs ltac:(lra) ltac:(lra)) as (Fq & Pq & Eq). set (q := fsqrt _) in *.
  pose proof (vlen_lip (B2R c) (B2R s) C Sn) as VL. rewrite Rplus_0_l in Ec, Es.
  assert (LB : vlen (B2R c) (B2R s) <= 2 * IZR n).
  { pose proof (vlen_sq (B2R c) (B2R s)). pose proof (vlen_ge0 (B2R c) (B2R s)). apply Rabs_le_inv in Bc. apply Rabs_le_inv in Bs. nra. }
  set (L := vlen (B2R c) (B2R s)) in *. assert (PL : 0 <= L) by apply vlen_ge0.
  destruct (fofZ_fin n) as [Fn Vn]; [lia|].
  assert (UN : u53 * 1 <= u53 * IZR n) by (apply Rmult_le_compat_l; lra).
  assert (AQ : ap q (vlen C Sn) (2 * (IZR n * (e + 2 * u53 * IZR n)) + 8 * u53 * L + 8 * (u53 * u53))).
  { split; [exact Fq|]. replace (B2R q - vlen C Sn) with ((B2R q - L) + (L - vlen C Sn)) by ring. eapply Rle_trans; [apply Rabs_triang|]. lra. }
  assert (QB : Rabs (B2R q / IZR n) <= 3).
  { rewrite Rabs_pos_eq by (apply Rmult_le_pos; [lra|left; apply Rinv_0_lt_compat; lra]). apply Rmult_le_reg_r with (IZR n); [lra|]. unfold Rdiv. rewrite Rmult_assoc, Rinv_l, Rmult_1_r by lra.
    apply Rabs_le_inv in Eq. assert (8 * u53 * L <= IZR n / 2) by nra. assert (8 * (u53 * u53) <= 1 / 2) by nra. lra. }
  pose proof big1023 as BG. assert (P5 : 2 ^ 2 <= 2 ^ 500) by (apply Rle_pow; [lra|lia]).
  destruct (fdiv_fin q (fofZ n) Fq Fn) as [Fz Vz]; [rewrite Vn; lra|rewrite Vn; lra|]. rewrite Vn in Vz. change (fdiv q (fofZ n)) with z in Fz, Vz.
  assert (TT : tiny <= u53 / 1000) by exact tiny_u1000.
  assert (AV : forall x X, is_finite x = true -> Rabs (B2R x) <= IZR n -> Rabs (B2R x - X) <= 0 + IZR n * (e + 2 * u53 * IZR n) -> ap (fdiv x (fofZ n)) (X / IZR n) (e + (2 * IZR n + 2) * u53)).
  { intros x X Fx Bx Ex. assert (B1 : Rabs (B2R x / IZR n) <= 1).
    { unfold Rdiv. rewrite Rabs_mult, (Rabs_pos_eq (/ IZR n)) by (left; apply Rinv_0_lt_compat; lra). apply Rmult_le_reg_r with (IZR n); [lra|]. rewrite Rmult_assoc, Rinv_l by lra. lra. }
    destruct (fdiv_fin x (fofZ n) Fx Fn) as [Fd Vd]; [rewrite Vn; lra|rewrite Vn; lra|]. rewrite Vn in Vd. split; [exact Fd|]. rewrite Vd. pose proof (rnd_abs (B2R x / IZR n)) as RA.
    assert (D : Rabs (B2R x / IZR n - X / IZR n) <= e + 2 * u53 * IZR n).
    { replace (B2R x / IZR n - X / IZR n) with ((B2R x - X) * / IZR n) by (field; lra). rewrite Rabs_mult, (Rabs_pos_eq (/ IZR n)) by (left; apply Rinv_0_lt_compat; lra).
      apply Rmult_le_reg_r with (IZR n); [lra|]. rewrite Rmult_assoc, Rinv_l, Rmult_1_r by lra. lra. }
    replace (rnd (B2R x / IZR n) - X / IZR n) with ((rnd (B2R x / IZR n) - B2R x / IZR n) + (B2R x / IZR n - X / IZR n)) by ring. eapply Rle_trans; [apply Rabs_triang|].
    assert (u53 * Rabs (B2R x / IZR n) <= u53 * 1) by (apply Rmult_le_compat_l; lra). lra. }
  split; [|split; [apply (AV c C Fc Bc); lra|apply (AV s Sn Fs Bs); lra]].
  split; [exact Fz|]. split; [rewrite Vz; apply rnd_ge_0; apply Rmult_le_pos; [lra|left; apply Rinv_0_lt_compat; lra]|].
  split; [rewrite Vz; apply rnd_le_fmt; [apply (fmt_IZR 3); lia|apply Rabs_le_inv in QB; lra]|].
  rewrite Vz. change n0 with (IZR n). pose proof (rnd_abs (B2R q / IZR n)) as E5.
  assert (DQ : Rabs (B2R q / IZR n - vlen C Sn / IZR n) <= 2 * e + 4 * u53 * IZR n + 33 / 2 * u53).
  { replace (B2R q / IZR n - vlen C Sn / IZR n) with ((B2R q - vlen C Sn) * / IZR n) by (field; lra). rewrite Rabs_mult, (Rabs_pos_eq (/ IZR n)) by (left; apply Rinv_0_lt_compat; lra).
    apply Rmult_le_reg_r with (IZR n); [lra|]. rewrite Rmult_assoc, Rinv_l, Rmult_1_r by lra. destruct AQ as [_ AQ]. eapply Rle_trans; [exact AQ|].
    assert (8 * u53 * L <= 16 * (u53 * IZR n)) by nra. assert (8 * (u53 * u53) <= u53 * IZR n / 2) by nra. nra. }
  set (w := B2R q / IZR n) in *. replace (rnd w - vlen C Sn / IZR n) with ((rnd w - w) + (w - vlen C Sn / IZR n)) by ring. eapply Rle_trans; [apply Rabs_triang|].
  assert (u53 * Rabs w <= u53 * 3) by (apply Rmult_le_compat_l; lra).
  change (2 ^ 51) with (2 ^ 51). rewrite pow_Z. cbn [Z.of_nat Pos.of_succ_nat Pos.succ]. change (2 ^ 51)%Z with 2251799813685248%Z. unfold u53 in *. lra.
Qed.
