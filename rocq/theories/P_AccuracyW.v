(** Float accuracy of the weighted coherence (C04), and the sizes of weights for which it is lost. *)
From Coq Require Import ZArith Reals Psatz Bool List Lia.
From Flocq Require Import Core.Core IEEE754.BinarySingleNaN.
From Verif Require Import Num F64 RealNum M_Core S_Circle S_Sync S_Acc L_F64 L_F64x L_Circle L_PhaseF L_Coherence L_Acc L_AccW L_TrigZero P_Accuracy.
Import ListNotations.
Open Scope R_scope.

Lemma combine_map2 {A B C D} (f : A -> C) (g : B -> D) l m : combine (map f l) (map g m) = map (fun q => (f (fst q), g (snd q))) (combine l m).
Proof. revert m. induction l as [|x l IH]; intros [|y m]; cbn; try reflexivity. now rewrite IH. Qed.
Lemma total_rsum {A} (g : A -> R) l : total g l = rsum g l.
Proof. induction l as [|x l IH]; [reflexivity|]. cbn [total fold_right rsum]. fold (total g l). now rewrite IH. Qed.
Lemma sum_firstn (ps : list F) : forall ws : list F, fold_right Rplus 0 (firstn (length ps) (map B2R ws)) = total (fun q => B2R (snd q)) (combine ps ws).
Proof. induction ps as [|p ps IH]; intros [|w ws]; cbn; try reflexivity. fold (total (fun q : F * F => B2R (snd q)) (combine ps ws)). now rewrite IH. Qed.

Theorem C04_float_accuracy : forall tr e (ps ws : list F), trig_sane tr -> trig_acc tr e -> 0 <= e <= 1 / 8 -> (Z.of_nat (length ps) <= 2 ^ 40)%Z ->
  Forall (fun x => is_finite x = true /\ Rabs (B2R x) <= 2 ^ 29) ps -> Forall (fun w => is_finite w = true /\ 0 <= B2R w) ws ->
  / 2 ^ 40 <= fold_right Rplus 0 (firstn (length ps) (map B2R ws)) <= 2 ^ 56 ->
  let z := @MeasureCoherenceWeighted F (FNum tr) ps ws in
  is_finite z = true /\ 0 <= B2R z /\
  Rabs (B2R z - @MeasureCoherenceWeighted R RNum (map B2R ps) (map B2R ws)) <= 5 / 2 * e + (IZR (Z.of_nat (length ps)) + 3) / 2 ^ 49.
Proof.
  intros tr e ps ws HS HA He Hn Hp Hw HW z. rewrite Forall_forall in Hp, Hw. rewrite sum_firstn in HW.
  assert (NP : ps <> []). { intros ->. cbn in HW. assert (0 < / 2 ^ 40) by (apply Rinv_0_lt_compat, pow_lt; lra). lra. }
  assert (NW : ws <> []). { intros ->. destruct ps; cbn in HW; assert (0 < / 2 ^ 40) by (apply Rinv_0_lt_compat, pow_lt; lra); lra. }
  set (pw := combine ps ws) in *. set (W := total (fun q => B2R (snd q)) pw) in *.
  assert (LP : (length pw <= length ps)%nat) by (unfold pw; rewrite combine_length; lia).
  assert (HI : forall q, In q pw -> (is_finite (fst q) = true /\ Rabs (B2R (fst q)) <= 2 ^ 29) /\ (is_finite (snd q) = true /\ 0 <= B2R (snd q))).
  { intros [p w] Hq. split; [apply Hp; now apply in_combine_l in Hq|apply Hw; now apply in_combine_r in Hq]. }
  pose proof u_pos as U. pose proof tiny_le_u as TU. pose proof tiny_pos as TP.
  assert (W40 : / 2 ^ 40 = / 1099511627776) by (rewrite pow_Z; reflexivity). rewrite W40 in HW.
  assert (W58 : W <= 2 ^ 60 / 16) by (assert (2 ^ 56 = 2 ^ 60 / 16) by (rewrite !pow_Z; cbn [Z.of_nat Pos.of_succ_nat Pos.succ]; change (2 ^ 56)%Z with 72057594037927936%Z; change (2 ^ 60)%Z with 1152921504606846976%Z; lra); lra).
  assert (PW : 0 < W) by lra.
  set (n := IZR (Z.of_nat (length pw))). set (m := IZR (Z.of_nat (length ps))).
  assert (N0 : 0 <= n) by (apply (IZR_le 0); lia). assert (NM : n <= m) by (apply IZR_le; lia). assert (M40 : m <= 1099511627776) by (apply (IZR_le _ (2 ^ 40)); exact Hn).
  assert (M1 : 1 <= m) by (apply (IZR_le 1); destruct ps; [contradiction|cbn [length]; lia]).
  assert (NU : n * u53 <= / 8192). { unfold u53. lra. }
  assert (WB : forall q, In q pw -> B2R (snd q) <= W).
  { intros q. unfold W. clear - HI. induction pw as [|p l IH]; intros [].
    - subst p. cbn [total fold_right]. assert (0 <= total (fun q => B2R (snd q)) l) by (apply total_nonneg; intros x Hx; apply HI; now right). unfold total in *. lra.
    - cbn [total fold_right]. destruct (HI p (or_introl eq_refl)) as [_ [_ P]]. assert (B2R (snd q) <= total (fun q => B2R (snd q)) l) by (apply IH; auto; intros; apply HI; now right). unfold total in *. lra. }
  set (M := 4 * W). assert (HM : 0 <= M <= 2 ^ 400). { unfold M. assert (2 ^ 60 <= 2 ^ 400) by (apply Rle_pow; [lra|lia]). lra. }
  assert (TW : tiny <= u53 * W / 100). { assert (u53 * u53 <= u53 * (W / 100)) by (apply Rmult_le_compat_l; [lra|]; unfold u53; lra). lra. }
  assert (ST : u53 * M + 2 * tiny <= 5 * (u53 * W)) by (unfold M; lra).
  assert (NST : n * (u53 * M + 2 * tiny) <= 5 * (n * u53) * W). { assert (n * (u53 * M + 2 * tiny) <= n * (5 * (u53 * W))) by (apply Rmult_le_compat_l; lra). lra. }
  assert (NST' : 5 * (n * u53) * W <= W / 1000). { assert (n * u53 * W <= / 8192 * W) by (apply Rmult_le_compat_r; lra). lra. }
  (* one of the two sums of products *)
  assert (PS : forall (t : F -> F) (g : R -> R), (forall x, is_finite x = true -> Rabs (B2R x) <= 2 ^ 29 -> is_finite (t x) = true /\ Rabs (B2R (t x)) <= 1 /\ Rabs (B2R (t x) - g (B2R x)) <= e) -> (forall x, Rabs (g x) <= 1) ->
    let s := fold_left (fun s q => fadd s (fmul (snd q) (t (fst q)))) pw (fofZ 0) in
    is_finite s = true /\ Rabs (B2R s - rsum (fun q => snd q * g (fst q)) (combine (map B2R ps) (map B2R ws))) <= (e + u53 + 5 * (n * u53)) * W /\ Rabs (B2R s) <= 5 / 4 * W).
  { intros t g Ht Hg s. destruct (ap_Z 0 ltac:(lia)) as [F0 V0]. rewrite Rminus_0_r in V0.
    assert (EX : rsum (fun q => snd q * g (fst q)) (combine (map B2R ps) (map B2R ws)) = total (fun q => B2R (snd q) * g (B2R (fst q))) pw).
    { rewrite combine_map2, rsum_map, total_rsum. reflexivity. }
    assert (BG : Rabs (total (fun q => B2R (snd q) * g (B2R (fst q))) pw) <= W).
    { apply total_le. intros q Hq. destruct (HI q Hq) as [_ [_ P]]. rewrite Rabs_mult, (Rabs_pos_eq _ P). pose proof (Hg (B2R (fst q))). nra. }
    destruct (wsum_acc (fun q => fmul (snd q) (t (fst q))) (fun q => B2R (snd q)) (fun q => B2R (snd q) * g (B2R (fst q))) (e + u53) M pw) with (a := fofZ 0) (S := 0) (V := 0) (E := 0) as [A B]; try lra.
    - intros q Hq. destruct (HI q Hq) as [[Fp Bp] [Fw Pw]]. pose proof (WB q Hq) as Wq. destruct (Ht (fst q) Fp Bp) as (Ft & Bt & Et).
      assert (BM : Rabs (B2R (snd q) * B2R (t (fst q))) <= B2R (snd q)) by (rewrite Rabs_mult, (Rabs_pos_eq _ Pw); nra).
      destruct (fmul_fin (snd q) (t (fst q)) Fw Ft) as [Fm Vm]. { pose proof big1023. assert (2 ^ 60 <= 2 ^ 500) by (apply Rle_pow; [lra|lia]). lra. }
      split; [exact Fm|]. split; [exact Pw|]. split; [rewrite Rabs_mult, (Rabs_pos_eq _ Pw); pose proof (Hg (B2R (fst q))); nra|].
      rewrite Vm. pose proof (rnd_abs (B2R (snd q) * B2R (t (fst q)))) as RA.
      replace (rnd (B2R (snd q) * B2R (t (fst q))) - B2R (snd q) * g (B2R (fst q))) with ((rnd (B2R (snd q) * B2R (t (fst q))) - B2R (snd q) * B2R (t (fst q))) + B2R (snd q) * (B2R (t (fst q)) - g (B2R (fst q)))) by ring.
      eapply Rle_trans; [apply Rabs_triang|]. rewrite (Rabs_mult (B2R (snd q)) (_ - _)), (Rabs_pos_eq _ Pw).
      assert (B2R (snd q) * Rabs (B2R (t (fst q)) - g (B2R (fst q))) <= B2R (snd q) * e) by (apply Rmult_le_compat_l; lra).
      assert (u53 * Rabs (B2R (snd q) * B2R (t (fst q))) <= u53 * B2R (snd q)) by (apply Rmult_le_compat_l; lra). lra.
    - exact F0.
    - rewrite Rminus_0_r. exact V0.
    - rewrite Rabs_R0. lra.
    - fold W n. assert ((e + u53) * W <= 1 / 4 * W) by (apply Rmult_le_compat_r; lra). unfold M in *. lra.
    - fold W n s in A, B. rewrite !Rplus_0_l in B. rewrite EX. split; [exact A|].
      assert (C : Rabs (B2R s - total (fun q => B2R (snd q) * g (B2R (fst q))) pw) <= (e + u53 + 5 * (n * u53)) * W) by (eapply Rle_trans; [exact B|]; lra).
      split; [exact C|]. assert ((e + u53) * W <= 1 / 5 * W) by (apply Rmult_le_compat_r; lra). apply Rabs_le_inv in C. apply Rabs_le_inv in BG. apply Rabs_le. lra. }
  destruct (PS (tcos tr) cos) as (Fc & Ec & Bc).
  { intros x Fx Bx. destruct (sane_cos tr HS x Fx) as [A B]. split; [exact A|]. split; [exact B|]. now apply (acc_cos tr e HA). }
  { intros x. apply Rabs_le, COS_bound. }
  destruct (PS (tsin tr) sin) as (Fs & Es & Bs).
  { intros x Fx Bx. destruct (sane_sin tr HS x Fx) as [A B]. split; [exact A|]. split; [exact B|]. now apply (acc_sin tr e HA). }
  { intros x. apply Rabs_le, SIN_bound. }
  clear PS.
  (* the sum of the weights *)
  assert (SW : let s := fold_left (fun s q => fadd s (snd q)) pw (fofZ 0) in is_finite s = true /\ Rabs (B2R s - W) <= 5 * (n * u53) * W).
  { intros s. destruct (ap_Z 0 ltac:(lia)) as [F0 V0]. rewrite Rminus_0_r in V0.
    destruct (wsum_acc (fun q : F * F => snd q) (fun q => B2R (snd q)) (fun q => B2R (snd q)) 0 M pw) with (a := fofZ 0) (S := 0) (V := 0) (E := 0) as [A B]; try lra.
    - intros q Hq. destruct (HI q Hq) as [_ [Fw Pw]]. split; [exact Fw|]. split; [exact Pw|]. split; [rewrite Rabs_pos_eq; lra|]. rewrite Rminus_diag_eq, Rabs_R0 by reflexivity. lra.
    - exact F0.
    - rewrite Rminus_0_r. exact V0.
    - rewrite Rabs_R0. lra.
    - fold W n. unfold M in *. lra.
    - fold W n s in A, B. rewrite !Rplus_0_l in B. split; [exact A|]. eapply Rle_trans; [exact B|]. lra. }
  destruct SW as [Fw Ew].
  set (c := fold_left (fun s q => fadd s (fmul (snd q) (tcos tr (fst q)))) pw (fofZ 0)) in *. set (s := fold_left (fun s q => fadd s (fmul (snd q) (tsin tr (fst q)))) pw (fofZ 0)) in *.
  set (sw := fold_left (fun s q => fadd s (snd q)) pw (fofZ 0)) in *.
  set (C := rsum (fun q => snd q * cos (fst q)) (combine (map B2R ps) (map B2R ws))) in *. set (Sn := rsum (fun q => snd q * sin (fst q)) (combine (map B2R ps) (map B2R ws))) in *.
  assert (ERW : rsum snd (combine (map B2R ps) (map B2R ws)) = W) by (unfold W; rewrite combine_map2, rsum_map, total_rsum; reflexivity).
  assert (ER : @MeasureCoherenceWeighted R RNum (map B2R ps) (map B2R ws) = vlen C Sn / W).
  { rewrite RMCW_unfold by (intros Q; apply map_eq_nil in Q; contradiction). cbv zeta. fold C Sn. rewrite ERW, Req_bool_false by lra. reflexivity. }
  assert (LW : vlen C Sn / W <= 1).
  { rewrite <- ER. apply RMCW_bounds. intros w Hin. apply in_map_iff in Hin. destruct Hin as (x & <- & Hx). now apply Hw. }
  assert (SWP : 999 / 1000 * W <= B2R sw <= 1001 / 1000 * W) by (apply Rabs_le_inv in Ew; lra).
  assert (EZ : z = fdiv (fsqrt (fadd (fmul c c) (fmul s s))) sw).
  { assert (Z0 : feq sw (fofZ 0) = false). { destruct (fofZ_fin 0) as [F0 V0]; [lia|]. unfold feq. rewrite (Beqb_correct 53 1024 sw (fofZ 0) Fw F0), V0. apply Req_bool_false. lra. }
    unfold z, MeasureCoherenceWeighted. destruct ps as [|p0 ps0]; [contradiction|]. destruct ws as [|w0 ws0]; [contradiction|]. cbv zeta. fold pw.
    change (@neqb F (FNum tr)) with feq. change (@n0 F (FNum tr)) with (fofZ 0). change (fold_left (fun s q => @nadd F (FNum tr) s (snd q)) pw (fofZ 0)) with sw. rewrite Z0. reflexivity. }
  destruct (norm_acc c s Fc Fs ltac:(lra) ltac:(lra)) as (Fq & Pq & Eq). set (q := fsqrt _) in *.
  pose proof (vlen_lip (B2R c) (B2R s) C Sn) as VL. set (L := vlen (B2R c) (B2R s)) in *. assert (PL : 0 <= L) by apply vlen_ge0.
  assert (LB : L <= 2 * W).
  { apply vlen_le2; assumption. }
  assert (UW : u53 * L <= u53 * (2 * W)) by (apply Rmult_le_compat_l; lra).
  assert (UU : 8 * (u53 * u53) <= u53 * W). { assert (u53 * (8 * u53) <= u53 * W) by (apply Rmult_le_compat_l; [lra|]; unfold u53; lra). lra. }
  assert (QV : Rabs (B2R q - vlen C Sn) <= (2 * e + 19 * u53 + 10 * (n * u53)) * W).
  { replace (B2R q - vlen C Sn) with ((B2R q - L) + (L - vlen C Sn)) by ring. eapply Rle_trans; [apply Rabs_triang|]. lra. }
  set (V := vlen C Sn) in *. assert (PV : 0 <= V) by apply vlen_ge0.
  assert (PSW : 0 < B2R sw) by lra.
  assert (VW : V <= W). { apply Rmult_le_reg_r with (/ W); [now apply Rinv_0_lt_compat|]. rewrite Rinv_r by lra. exact LW. }
  (* the quotient *)
  assert (DQ : Rabs (B2R q / B2R sw - V / W) <= 1001 / 999 * (2 * e + 19 * u53 + 15 * (n * u53))).
  { replace (B2R q / B2R sw - V / W) with (((B2R q - V) - V / W * (B2R sw - W)) * / B2R sw) by (field; lra).
    rewrite Rabs_mult, (Rabs_pos_eq (/ B2R sw)) by (left; now apply Rinv_0_lt_compat).
    apply Rmult_le_reg_r with (B2R sw); [lra|]. rewrite Rmult_assoc, Rinv_l, Rmult_1_r by lra.
    assert (A1 : Rabs (V / W * (B2R sw - W)) <= 5 * (n * u53) * W).
    { rewrite Rabs_mult, (Rabs_pos_eq (V / W)) by (apply Rmult_le_pos; [lra|left; now apply Rinv_0_lt_compat]). assert (V / W * Rabs (B2R sw - W) <= 1 * Rabs (B2R sw - W)) by (apply Rmult_le_compat_r; [apply Rabs_pos|exact LW]). lra. }
    eapply Rle_trans; [unfold Rminus at 1; apply Rabs_triang|]. rewrite Rabs_Ropp.
    assert (A0 : 0 <= 2 * e + 19 * u53 + 15 * (n * u53)). { assert (0 <= n * u53) by (apply Rmult_le_pos; lra). lra. }
    apply Rle_trans with ((2 * e + 19 * u53 + 15 * (n * u53)) * W); [lra|].
    replace (1001 / 999 * (2 * e + 19 * u53 + 15 * (n * u53)) * B2R sw) with ((2 * e + 19 * u53 + 15 * (n * u53)) * (1001 / 999 * B2R sw)) by ring.
    apply Rmult_le_compat_l; lra. }
  assert (NU0 : 0 <= n * u53) by (apply Rmult_le_pos; lra).
  assert (X1 : 0 <= V / W) by (apply Rmult_le_pos; [lra|left; now apply Rinv_0_lt_compat]).
  set (r := B2R q / B2R sw) in *. assert (QB : Rabs r <= 2). { apply Rabs_le_inv in DQ. apply Rabs_le. lra. }
  destruct (fdiv_fin q sw Fq Fw) as [Fz Vz]; [lra|fold r; pose proof big1023; assert (2 ^ 2 <= 2 ^ 500) by (apply Rle_pow; [lra|lia]); lra|]. fold r in Vz. rewrite <- EZ in Fz, Vz.
  split; [exact Fz|]. split; [rewrite Vz; apply rnd_ge_0; apply Rmult_le_pos; [lra|left; now apply Rinv_0_lt_compat]|].
  rewrite ER, Vz. fold V. pose proof (rnd_abs r) as E5. assert (u53 * Rabs r <= u53 * 2) by (apply Rmult_le_compat_l; lra).
  replace (rnd r - V / W) with ((rnd r - r) + (r - V / W)) by ring. eapply Rle_trans; [apply Rabs_triang|].
  assert (TT : tiny <= u53 / 1000) by exact tiny_u1000. fold m. assert (P49 : 1 / 2 ^ 49 = 16 * u53). { rewrite pow_Z. cbn [Z.of_nat Pos.of_succ_nat Pos.succ]. change (2 ^ 49)%Z with 562949953421312%Z. unfold u53. lra. }
  replace ((m + 3) / 2 ^ 49) with ((m + 3) * (1 / 2 ^ 49)) by (unfold Rdiv; ring). rewrite P49. assert (n * u53 <= m * u53) by (apply Rmult_le_compat_r; lra). lra.
Qed.
Print Assumptions C04_float_accuracy.

(** The sizes matter: equal weights of 2^-600 on two agents with the same phase give 0 (their squares underflow) and weights
    of 2^600 give infinity (they overflow), where the weighted coherence is 1. *)
Definition two (w : F) : list F := [w; w].
Theorem C04_float_scale_refuted : forall tr, trig_zero tr -> exists (ps : list F) (small large : F),
  is_finite small = true /\ is_finite large = true /\ 0 < B2R small /\ 0 < B2R large /\ (forall p q, In p ps -> In q ps -> p = q) /\
  @MeasureCoherenceWeighted R RNum (map B2R ps) (map B2R (two small)) = 1 /\ @MeasureCoherenceWeighted R RNum (map B2R ps) (map B2R (two large)) = 1 /\
  B2R (@MeasureCoherenceWeighted F (FNum tr) ps (two small)) = 0 /\
  is_finite (@MeasureCoherenceWeighted F (FNum tr) ps (two small)) = true /\
  is_finite (@MeasureCoherenceWeighted F (FNum tr) ps (two large)) = false.
Proof.
  intros tr HZ. set (sm := flit 1 (2 ^ 600)). set (la := fofZ (2 ^ 600)).
  assert (Fs : is_finite sm = true) by (vm_compute; reflexivity). assert (Fl : is_finite la = true) by (vm_compute; reflexivity).
  assert (POS : forall x, is_finite x = true -> flt (fofZ 0) x = true -> 0 < B2R x).
  { intros x Fx H. destruct (fofZ_fin 0) as [F0 V0]; [lia|]. unfold flt in H. rewrite (Bltb_correct 53 1024 (fofZ 0) x F0 Fx), V0 in H. revert H. case Rlt_bool_spec; [intros Q _; exact Q|intros _ Q; discriminate Q]. }
  assert (Ps : 0 < B2R sm) by (apply POS; [exact Fs|vm_compute; reflexivity]). assert (Pl : 0 < B2R la) by (apply POS; [exact Fl|vm_compute; reflexivity]).
  exists (two (fofZ 0)), sm, la. split; [exact Fs|]. split; [exact Fl|]. split; [exact Ps|]. split; [exact Pl|].
  split; [intros p q [<-|[<-|[]]] [<-|[<-|[]]]; reflexivity|].
  assert (ONE : forall w : F, 0 < B2R w -> @MeasureCoherenceWeighted R RNum (map B2R (two (fofZ 0))) (map B2R (two w)) = 1).
  { intros w Pw. change (map B2R (two w)) with (repeat (B2R w) (length (map (@B2R 53 1024) (two (fofZ 0))))). rewrite RMCW_equal by exact Pw.
    apply RMC_one_iff; [discriminate|]. intros p q [<-|[<-|[]]] [<-|[<-|[]]]; apply cong_refl. }
  split; [now apply ONE|]. split; [now apply ONE|].
  assert (EV : forall w, @MeasureCoherenceWeighted F (FNum tr) (two (fofZ 0)) (two w) = @MeasureCoherenceWeighted F (FNum flatTrig) (two (fofZ 0)) (two w)).
  { intros w. unfold MeasureCoherenceWeighted, two. cbn [combine fold_left fst snd].
    change (@ncos F (FNum tr)) with (tcos tr). change (@nsin F (FNum tr)) with (tsin tr). change (@ncos F (FNum flatTrig)) with (tcos flatTrig). change (@nsin F (FNum flatTrig)) with (tsin flatTrig).
    rewrite (zero_sin tr HZ), (zero_cos tr HZ), (zero_sin _ flat_zero), (zero_cos _ flat_zero). reflexivity. }
  rewrite !EV. split; [|split; vm_compute; reflexivity].
  assert (Z : feq (@MeasureCoherenceWeighted F (FNum flatTrig) (two (fofZ 0)) (two sm)) (fofZ 0) = true) by (vm_compute; reflexivity).
  set (x := MeasureCoherenceWeighted _ _) in *. assert (Fx : is_finite x = true) by (vm_compute; reflexivity). clearbody x.
  destruct (fofZ_fin 0) as [F0 V0]; [lia|]. unfold feq in Z. rewrite (Beqb_correct 53 1024 x (fofZ 0) Fx F0), V0 in Z. revert Z. case Req_bool_spec; [intros Q _; exact Q|intros _ Q; discriminate Q].
Qed.
Print Assumptions C04_float_scale_refuted.
(** Three agents with weights 1, 0 and 3 under correctly rounded functions meet the hypotheses. *)
Example C04_float_applies : trig_sane crTrig /\ trig_acc crTrig (/ 2 ^ 51) /\ 0 <= / 2 ^ 51 <= 1 / 8 /\
  Forall (fun w : F => is_finite w = true /\ 0 <= B2R w) [fofZ 1; fofZ 0; fofZ 3] /\
  / 2 ^ 40 <= fold_right Rplus 0 (firstn 3 (map B2R [fofZ 1; fofZ 0; fofZ 3])) <= 2 ^ 56 /\ trig_zero crTrig.
Proof.
  destruct (fofZ_fin 0) as [F0 V0]; [lia|]. destruct (fofZ_fin 1) as [F1 V1]; [lia|]. destruct (fofZ_fin 3) as [F3 V3]; [lia|].
  split; [apply cr_sane|]. split; [apply cr_acc|]. split; [rewrite pow_Z; cbn; lra|].
  split; [repeat constructor; auto; rewrite ?V0, ?V1, ?V3; lra|]. split; [|apply cr_zero].
  cbn [map firstn fold_right]. rewrite V0, V1, V3, !pow_Z. cbn. lra.
Qed.
