(** C61-C66: the panels of the terminal display. *)
From Coq Require Import ZArith Reals Psatz Bool List String Lia.
From Flocq Require Import Core.Core IEEE754.BinarySingleNaN.
From Flocq.Prop Require Import Mult_error Relative.
From Verif Require Import Num F64 RealNum GoBase M_Display S_Agent S_Circle S_Display L_F64 L_F64x L_Ford L_PhaseF L_Display.
Import ListNotations.
Open Scope R_scope.

(** A float with a known exact value. *)
Definition rep (x : F) (r : R) : Prop := is_finite x = true /\ B2R x = r.
Lemma rep_Z k : (Z.abs k <= 2 ^ 53)%Z -> rep (fofZ k) (IZR k).
Proof. intros H. apply fofZ_fin. exact H. Qed.
Lemma rep_add x y a b : rep x a -> rep y b -> fmt (a + b) -> Rabs (a + b) <= bpow radix2 1023 -> rep (fadd x y) (a + b).
Proof. intros [Fx Vx] [Fy Vy] H B. destruct (fadd_fin x y Fx Fy) as [A C]; rewrite Vx, Vy in *; [exact B|]. split; [exact A|]. rewrite C. now apply round_generic; [apply valid_rnd_N|]. Qed.
Lemma rep_sub x y a b : rep x a -> rep y b -> fmt (a - b) -> Rabs (a - b) <= bpow radix2 1023 -> rep (fsub x y) (a - b).
Proof. intros [Fx Vx] [Fy Vy] H B. destruct (fsub_fin x y Fx Fy) as [A C]; rewrite Vx, Vy in *; [exact B|]. split; [exact A|]. rewrite C. now apply round_generic; [apply valid_rnd_N|]. Qed.
Lemma rep_mul x y a b : rep x a -> rep y b -> fmt (a * b) -> Rabs (a * b) <= bpow radix2 1023 -> rep (fmul x y) (a * b).
Proof. intros [Fx Vx] [Fy Vy] H B. destruct (fmul_fin x y Fx Fy) as [A C]; rewrite Vx, Vy in *; [exact B|]. split; [exact A|]. rewrite C. now apply round_generic; [apply valid_rnd_N|]. Qed.
Lemma rep_div x y a b : rep x a -> rep y b -> b <> 0 -> fmt (a / b) -> Rabs (a / b) <= bpow radix2 1023 -> rep (fdiv x y) (a / b).
Proof. intros [Fx Vx] [Fy Vy] N H B. destruct (fdiv_fin x y Fx Fy) as [A C]; rewrite ?Vx, ?Vy in *; auto. split; [exact A|]. rewrite C. now apply round_generic; [apply valid_rnd_N|]. Qed.

(** Multiples of 1/64 up to 2^50. *)
Lemma fmt64 c : (Z.abs c <= 2 ^ 53)%Z -> fmt (IZR c / 64) /\ Rabs (IZR c / 64) <= bpow radix2 1023.
Proof.
  intros H. split.
  - replace (IZR c / 64) with (F2R (Float radix2 c (-6))); [apply fmt_F2R; lia|]. unfold F2R. cbn [Fnum Fexp]. change (bpow radix2 (-6)) with (/ 64). reflexivity.
  - apply Rle_trans with (IZR (2 ^ 53)); [|apply (bpow1023_ge 53); lia].
    unfold Rdiv. rewrite Rabs_mult, (Rabs_pos_eq (/ 64)) by lra. rewrite <- abs_IZR.
    assert (IZR (Z.abs c) <= IZR (2 ^ 53)) by (apply IZR_le; lia). assert (0 <= IZR (Z.abs c)) by (apply IZR_le; lia). lra.
Qed.
Ltac r64 c := destruct (fmt64 c) as [? ?]; [nia|].

Section S.
Variable tr : Trig.
Notation NF := (FNum tr).

(** ** C61 *)
Lemma region_turn a : in_turn (an_phase a) -> (2 <= @region F NF a <= 3)%Z.
Proof.
  intros [Fx Bx]. unfold region, npi, n2pi. cbn [nadd ndiv nmul nhalfpi nofZ FNum ntrunc].
  fold f2pi in *. rewrite f2pi_val in Bx. destruct fpi_val as [Fp Vp]. pose proof r2pi_bounds as Hr.
  assert (B8 : 1024 <= bpow radix2 1023) by (apply (bpow1023_ge 10); lia).
  destruct (fadd_fin _ _ Fx Fp) as [Fs Vs]. { rewrite Vp. apply Rabs_le. lra. } rewrite Vp in Vs.
  assert (Bs : r2pi / 2 <= B2R (fadd (an_phase a) (fhalfpi 2)) <= 16).
  { rewrite Vs. split; [rewrite <- Vp; apply rnd_ge_fmt; [apply generic_format_B2R|lra]|].
    apply rnd_le_fmt; [apply (fmt_IZR 16); lia|lra]. }
  destruct (fdiv_fin _ _ Fs f2pi_fin) as [Fd Vd].
  { rewrite f2pi_val. lra. }
  { rewrite f2pi_val. apply Rabs_le. split.
    - apply Rle_trans with 0; [lra|]. apply Rmult_le_pos; [lra|]. apply Rlt_le, Rinv_0_lt_compat. lra.
    - apply Rmult_le_reg_r with r2pi; [lra|]. unfold Rdiv. rewrite Rmult_assoc, Rinv_l by lra. nra. }
  rewrite f2pi_val in Vd.
  assert (Bd : / 2 <= B2R (fdiv (fadd (an_phase a) (fhalfpi 2)) f2pi) <= 16).
  { rewrite Vd. split.
    - apply rnd_ge_fmt. { replace (/ 2) with (F2R (Float radix2 1 (-1))) by (unfold F2R; simpl; lra). apply fmt_F2R; lia. }
      apply Rmult_le_reg_r with r2pi; [lra|]. unfold Rdiv. rewrite (Rmult_assoc (B2R _)), Rinv_l by lra. lra.
    - apply rnd_le_fmt; [apply (fmt_IZR 16); lia|].
      apply Rmult_le_reg_r with r2pi; [lra|]. unfold Rdiv. rewrite Rmult_assoc, Rinv_l by lra. nra. }
  destruct (rep_Z 4 ltac:(lia)) as [F4 V4].
  destruct (fmul_fin _ _ Fd F4) as [Fm Vm]. { rewrite V4. apply Rabs_le. lra. } rewrite V4 in Vm.
  assert (Bm : 2 <= B2R (fmul (fdiv (fadd (an_phase a) (fhalfpi 2)) f2pi) (fofZ 4)) <= 64).
  { rewrite Vm. split; [apply rnd_ge_fmt; [apply (fmt_IZR 2); lia|lra]|apply rnd_le_fmt; [apply (fmt_IZR 64); lia|lra]]. }
  assert (TB : (2 <= Ztrunc (B2R (fmul (fdiv (fadd (an_phase a) (fhalfpi 2)) f2pi) (fofZ 4))) <= 64)%Z).
  { rewrite Ztrunc_floor by lra. split; [apply Zfloor_lub; lra|]. apply le_IZR. eapply Rle_trans; [apply Zfloor_lb|]. lra. }
  rewrite ftrunc_spec; auto; [|lia]. destruct (Z.leb_spec 4 (Ztrunc (B2R (fmul (fdiv (fadd (an_phase a) (fhalfpi 2)) f2pi) (fofZ 4))))); lia.
Qed.
Lemma four_bins (b : list Z) : List.length b = 4%nat -> b = [nth 0 b 0%Z; nth 1 b 0%Z; nth 2 b 0%Z; nth 3 b 0%Z].
Proof. destruct b as [|? [|? [|? [|? [|? ?]]]]]; intros H; try discriminate H. reflexivity. Qed.
Lemma tally4 idx (agents : list (ASnap F)) : Forall (fun a => (0 <= idx a < 4)%Z) agents ->
  tally idx agents [0; 0; 0; 0]%Z = Some (map (fun k => howMany (fun a => (idx a =? k)%Z) agents) [0; 1; 2; 3]%Z).
Proof.
  intros H. destruct (tally_spec idx agents [0; 0; 0; 0]%Z) as (b & E & L & K); [exact H|]. rewrite E. f_equal.
  rewrite (four_bins b L). cbn [map].
  pose proof (K 0%Z ltac:(cbn; lia)) as K0. pose proof (K 1%Z ltac:(cbn; lia)) as K1. pose proof (K 2%Z ltac:(cbn; lia)) as K2. pose proof (K 3%Z ltac:(cbn; lia)) as K3.
  rewrite !count_filter in *. unfold howMany. change (Z.to_nat 0) with 0%nat in K0. change (Z.to_nat 1) with 1%nat in K1. change (Z.to_nat 2) with 2%nat in K2. change (Z.to_nat 3) with 3%nat in K3.
  cbn [nth] in K0, K1, K2, K3. rewrite K0, K1, K2, K3. reflexivity.
Qed.
Lemma quotdiv4 n : (0 <= n)%Z -> Z.quot n 4 = (n / 4)%Z.
Proof. intros H. apply Z.quot_div_nonneg; lia. Qed.
(** The standard deviation of four whole loads compared with 2, exactly. *)
Lemma stddev4 a b c d : (0 <= a)%Z -> (0 <= b)%Z -> (0 <= c)%Z -> (0 <= d)%Z -> (a + b + c + d <= 2 ^ 20)%Z ->
  flt (fofZ 2) (@calculateLoadVariance F NF [a; b; c; d]%Z) = (256 <? spread16 [a; b; c; d] (a + b + c + d))%Z.
Proof.
  intros Ha Hb Hc Hd Hn. set (n := (a + b + c + d)%Z) in *. unfold calculateLoadVariance. cbn [fold_left]. unfold lenZ, n0. cbn [List.length nadd nsub nmul ndiv nofZ nsqrt FNum].
  change (Z.of_nat 4) with 4%Z.
  assert (R0 := rep_Z 0 ltac:(lia)). assert (Ra := rep_Z a ltac:(lia)). assert (Rb := rep_Z b ltac:(lia)).
  assert (Rc := rep_Z c ltac:(lia)). assert (Rd := rep_Z d ltac:(lia)). assert (R4 := rep_Z 4 ltac:(lia)).
  assert (ADD : forall x y p q, rep x (IZR p / 64) -> rep y (IZR q / 64) -> (Z.abs (p + q) <= 2 ^ 53)%Z -> rep (fadd x y) (IZR (p + q) / 64)).
  { intros x y p q X Y H. destruct (fmt64 (p + q) H) as [A B].
    replace (IZR (p + q) / 64) with (IZR p / 64 + IZR q / 64) in * by (rewrite plus_IZR; field). now apply rep_add. }
  assert (INT : forall x p, rep x (IZR p) -> rep x (IZR (64 * p) / 64)) by (intros x p [A B]; split; [exact A|rewrite B, mult_IZR; field]).
  assert (ST : rep (fadd (fadd (fadd (fadd (fofZ 0) (fofZ a)) (fofZ b)) (fofZ c)) (fofZ d)) (IZR (64 * 0 + 64 * a + 64 * b + 64 * c + 64 * d) / 64)).
  { repeat apply ADD; try (apply INT; assumption); lia. }
  set (tot := fadd _ (fofZ d)) in *. clearbody tot.
  assert (SM : rep (fdiv tot (fofZ 4)) (IZR (16 * n) / 64)).
  { destruct (fmt64 (16 * n)) as [A B]; [lia|].
    replace (IZR (16 * n) / 64) with (IZR (64 * 0 + 64 * a + 64 * b + 64 * c + 64 * d) / 64 / 4) in *.
    - apply rep_div; auto; lra.
    - replace (64 * 0 + 64 * a + 64 * b + 64 * c + 64 * d)%Z with (64 * n)%Z by (unfold n; lia). rewrite !mult_IZR. field. }
  set (mean := fdiv tot (fofZ 4)) in *. clearbody mean.
  assert (SQ : forall l, (0 <= l <= n)%Z -> rep (fmul (fsub (fofZ l) mean) (fsub (fofZ l) mean)) (IZR (4 * ((4 * l - n) * (4 * l - n))) / 64)).
  { intros l Hl. assert (Rl := rep_Z l ltac:(lia)).
    assert (D : rep (fsub (fofZ l) mean) (IZR (16 * (4 * l - n)) / 64)).
    { destruct (fmt64 (16 * (4 * l - n))) as [A B]; [lia|].
      replace (IZR (16 * (4 * l - n)) / 64) with (IZR l - IZR (16 * n) / 64) in * by (rewrite ?mult_IZR, ?minus_IZR, ?mult_IZR; field).
      apply rep_sub; assumption. }
    destruct (fmt64 (4 * ((4 * l - n) * (4 * l - n)))) as [A B]; [nia|].
    replace (IZR (4 * ((4 * l - n) * (4 * l - n))) / 64) with (IZR (16 * (4 * l - n)) / 64 * (IZR (16 * (4 * l - n)) / 64)) in *
      by (rewrite ?mult_IZR, ?minus_IZR, ?mult_IZR; field).
    apply rep_mul; assumption. }
  set (sq := fun l => (4 * ((4 * l - n) * (4 * l - n)))%Z).
  assert (SB : forall l, (0 <= l <= n)%Z -> (0 <= sq l <= 2 ^ 47)%Z) by
    (intros l Hl; unfold sq; assert (Q : (-(3 * 2 ^ 20) <= 4 * l - n <= 3 * 2 ^ 20)%Z) by lia; revert Q; generalize (4 * l - n)%Z; clear; intros z Q; nia).
  assert (SV : rep (fadd (fadd (fadd (fadd (fofZ 0) (fmul (fsub (fofZ a) mean) (fsub (fofZ a) mean))) (fmul (fsub (fofZ b) mean) (fsub (fofZ b) mean)))
      (fmul (fsub (fofZ c) mean) (fsub (fofZ c) mean))) (fmul (fsub (fofZ d) mean) (fsub (fofZ d) mean))) (IZR (64 * 0 + sq a + sq b + sq c + sq d) / 64)).
  { pose proof (SB a ltac:(lia)). pose proof (SB b ltac:(lia)). pose proof (SB c ltac:(lia)). pose proof (SB d ltac:(lia)).
    apply ADD; [apply ADD; [apply ADD; [apply ADD|..]|..]|..]; try (apply SQ; lia); try (apply INT; assumption); lia. }
  set (var := fadd _ (fmul (fsub (fofZ d) mean) (fsub (fofZ d) mean))) in *. clearbody var.
  set (s := spread16 [a; b; c; d] n).
  assert (ES : (64 * 0 + sq a + sq b + sq c + sq d = 4 * s)%Z) by (unfold s, sq, spread16; cbn [fold_right map]; ring). rewrite ES in SV.
  assert (HS : (0 <= s <= 2 ^ 49)%Z).
  { pose proof (SB a ltac:(lia)). pose proof (SB b ltac:(lia)). pose proof (SB c ltac:(lia)). pose proof (SB d ltac:(lia)). lia. }
  assert (SD : rep (fdiv var (fofZ 4)) (IZR s / 64)).
  { destruct (fmt64 s) as [A B]; [lia|]. replace (IZR s / 64) with (IZR (4 * s) / 64 / 4) in * by (rewrite mult_IZR; field).
    apply rep_div; auto; lra. }
  set (v := fdiv var (fofZ 4)) in *. clearbody v. destruct SD as [Fv Vv].
  assert (Pv : 0 <= B2R v) by (rewrite Vv; assert (0 <= IZR s) by (apply IZR_le; lia); lra).
  destruct (Bsqrt_correct 53 1024 _ _ mode_NE v) as (VQ & FQ & _). fold (fsqrt v) in VQ, FQ.
  assert (FQ' : is_finite (fsqrt v) = true).
  { rewrite FQ. destruct v as [[]|[]| |[] m e He]; try reflexivity; try discriminate Fv.
    exfalso. apply (Rlt_not_le _ _ (F2R_lt_0 radix2 (Float radix2 (Zneg m) e) ltac:(cbn; lia))). exact Pv. }
  change (round_mode mode_NE) with ZnearestE in VQ. fold (rnd (sqrt (B2R v))) in VQ.
  destruct (rep_Z 2 ltac:(lia)) as [F2 V2].
  rewrite flt_ord, !ford_fin by (auto using fin_nan). rewrite V2, VQ, Vv.
  destruct (Z.ltb_spec 256 s) as [L|L].
  - apply Rlt_bool_true. apply Rlt_le_trans with (2 + / 1024); [lra|]. apply rnd_ge_fmt.
    + replace (2 + / 1024) with (F2R (Float radix2 2049 (-10))) by (unfold F2R; simpl; lra). apply fmt_F2R; lia.
    + assert (257 <= IZR s) by (apply IZR_le; lia). rewrite <- (sqrt_square (2 + / 1024)) by lra. apply sqrt_le_1_alt. lra.
  - apply Rlt_bool_false. apply rnd_le_fmt; [apply (fmt_IZR 2); lia|].
    assert (IZR s <= 256) by (apply IZR_le; lia). rewrite <- (sqrt_square 2) by lra. apply sqrt_le_1_alt. lra.
Qed.

(** Four servers, every agent counted once; the bars are 20 cells per [n/4+1] agents, rounded down; a server is
    red when it has more than [n/4+1] agents; BALANCED is shown when the standard deviation is at most 2 (all
    stated in whole numbers, with no rounding error). *)
Theorem C61_load : forall agents : list (ASnap F), Forall (fun a => in_turn (an_phase a)) agents -> (lenZ agents <= 2 ^ 20)%Z ->
  exists v, @displayLoadDistribution F NF agents = Some v /\ List.length (lv_loads v) = 4%nat /\
    fold_right Z.add 0%Z (lv_loads v) = lenZ agents /\
    lv_bars v = map (fun l => ((20 * l) / (lenZ agents / 4 + 1), if lenZ agents / 4 + 1 <? l then CRed else CGreen)%Z) (lv_loads v) /\
    lv_balanced v = (spread16 (lv_loads v) (lenZ agents) <=? 256)%Z /\
    nth 0 (lv_loads v) 0%Z = 0%Z /\ nth 1 (lv_loads v) 0%Z = 0%Z.
Proof.
  intros agents H Hn. unfold displayLoadDistribution.
  assert (RB : Forall (fun a => (2 <= @region F NF a <= 3)%Z) agents) by (eapply Forall_impl; [|exact H]; intros a; apply region_turn).
  assert (RB4 : Forall (fun a => (0 <= @region F NF a < 4)%Z) agents) by (eapply Forall_impl; [|exact RB]; cbn; lia).
  rewrite (tally4 _ _ RB4). eexists. split; [reflexivity|]. cbn [lv_loads lv_bars lv_balanced].
  assert (TOT := bins_total (@region F NF) 4 agents RB4). cbn [seq map] in TOT. unfold zsum in TOT.
  rewrite !count_filter in TOT. cbn [map Z.of_nat Pos.of_succ_nat Pos.succ] in *. fold (howMany (fun a => (@region F NF a =? 0)%Z) agents) in TOT.
  fold (howMany (fun a => (@region F NF a =? 1)%Z) agents) in TOT. fold (howMany (fun a => (@region F NF a =? 2)%Z) agents) in TOT. fold (howMany (fun a => (@region F NF a =? 3)%Z) agents) in TOT.
  assert (NN : forall p, (0 <= howMany p agents)%Z) by (intros; unfold howMany; lia).
  assert (ZZ : forall k, (k < 2)%Z -> howMany (fun a => (@region F NF a =? k)%Z) agents = 0%Z).
  { intros k Hk. unfold howMany. rewrite <- count_filter. apply count_none. intros a Ha. rewrite Forall_forall in RB. specialize (RB a Ha). apply Z.eqb_neq. lia. }
  rewrite quotdiv4 by (unfold lenZ; lia).
  set (a := howMany (fun a => (@region F NF a =? 0)%Z) agents) in *. set (b := howMany (fun a => (@region F NF a =? 1)%Z) agents) in *.
  set (c := howMany (fun a => (@region F NF a =? 2)%Z) agents) in *. set (d := howMany (fun a => (@region F NF a =? 3)%Z) agents) in *.
  assert (Pa := NN (fun a => (@region F NF a =? 0)%Z)). assert (Pb := NN (fun a => (@region F NF a =? 1)%Z)).
  assert (Pc := NN (fun a => (@region F NF a =? 2)%Z)). assert (Pd := NN (fun a => (@region F NF a =? 3)%Z)). fold a in Pa. fold b in Pb. fold c in Pc. fold d in Pd.
  assert (Za : a = 0%Z) by (apply ZZ; lia). assert (Zb : b = 0%Z) by (apply ZZ; lia).
  cbn [fold_right] in *.
  assert (D4 := Z.div_mod (lenZ agents) 4 ltac:(lia)). assert (M4 := Z.mod_pos_bound (lenZ agents) 4 ltac:(lia)).
  split; [reflexivity|]. split; [exact TOT|]. split.
  - cbn [map]. repeat (f_equal; try (rewrite share_exact20 by lia; reflexivity)).
  - split.
    + cbn [nlt nofZ FNum]. rewrite stddev4 by lia. replace (a + b + c + d)%Z with (lenZ agents) by lia.
      destruct (Z.ltb_spec 256 (spread16 [a; b; c; d] (lenZ agents))), (Z.leb_spec (spread16 [a; b; c; d] (lenZ agents)) 256); cbn; lia.
    + cbn [nth]. auto.
Qed.
(** Servers 1 and 2 are always empty, so with nine agents or more BALANCED is never shown, whatever the phases. *)
Theorem C61_never_balanced_refuted : forall agents : list (ASnap F), Forall (fun a => in_turn (an_phase a)) agents ->
  (9 <= lenZ agents <= 2 ^ 20)%Z -> exists v, @displayLoadDistribution F NF agents = Some v /\ lv_balanced v = false.
Proof.
  intros agents H Hn. destruct (C61_load agents H ltac:(lia)) as (v & E & L & S & _ & B & N0 & N1). exists v. split; [exact E|].
  rewrite B. rewrite (four_bins _ L) in *. cbn [nth] in N0, N1. rewrite N0, N1 in *. cbn [fold_right spread16 map] in *.
  unfold spread16. cbn [fold_right map]. apply Z.leb_gt.
  set (n := lenZ agents) in *. set (x := nth 2 (lv_loads v) 0%Z) in *. set (y := nth 3 (lv_loads v) 0%Z) in *.
  assert (Q : (y = n - x)%Z) by lia. rewrite Q. clear - Hn. clearbody n x.
  
  assert (P : (0 <= (2 * n - 4 * x) * (2 * n - 4 * x))%Z) by apply Z.square_nonneg. assert (81 <= n * n)%Z by nia.
  match goal with |- (_ < ?g)%Z => replace g with (4 * (n * n) + 2 * ((2 * n - 4 * x) * (2 * n - 4 * x)))%Z by ring end. lia.
Qed.

(** The regions over the exact reals: what the code intends for phases in [-PI, PI), and what it does to phases
    in [0, 2PI), which is where the agents keep them: one quarter goes to server 3, three quarters to server 4. *)
Lemma region_R x s : (0 <= (x + PI) / (2 * PI) * 4) -> @region R RNum (mkASnap x s) = Z.min 3 (Zfloor ((x + PI) / (2 * PI) * 4)).
Proof.
  intros H. unfold region, npi, n2pi. cbn [nadd ndiv nmul nhalfpi nofZ RNum ntrunc an_phase].
  replace (2 * PI / 2) with PI by field. replace (4 * PI / 2) with (2 * PI) by field.
  rewrite Ztrunc_floor by exact H. destruct (Z.leb_spec 4 (Zfloor ((x + PI) / (2 * PI) * 4))); lia.
Qed.
Theorem C61_centred : forall x s, - PI <= x < PI ->
  (0 <= @region R RNum (mkASnap x s) <= 3)%Z /\
  - PI + IZR (@region R RNum (mkASnap x s)) * (PI / 2) <= x < - PI + (IZR (@region R RNum (mkASnap x s)) + 1) * (PI / 2).
Proof.
  intros x s H. pose proof PI_RGT_0 as P.
  assert (E : (x + PI) / (2 * PI) * 4 * (PI / 2) = x + PI) by (field; lra).
  set (t := (x + PI) / (2 * PI) * 4) in *.
  assert (T : 0 <= t < 4) by (split; [apply Rmult_le_reg_r with (PI / 2)|apply Rmult_lt_reg_r with (PI / 2)]; lra).
  rewrite region_R by (fold t; lra). fold t. pose proof (Zfloor_lb t). pose proof (Zfloor_ub t).
  assert (0 <= Zfloor t)%Z by (apply Zfloor_lub; lra). assert (Zfloor t < 4)%Z by (apply lt_IZR; lra).
  rewrite Z.min_r by lia. split; [lia|]. split; [|].
  - assert (IZR (Zfloor t) * (PI / 2) <= t * (PI / 2)) by (apply Rmult_le_compat_r; lra). lra.
  - assert (t * (PI / 2) < (IZR (Zfloor t) + 1) * (PI / 2)) by (apply Rmult_lt_compat_r; lra). lra.
Qed.
Theorem C61_quarters : forall x s, 0 <= x < 2 * PI ->
  @region R RNum (mkASnap x s) = if Rlt_bool x (PI / 2) then 2%Z else 3%Z.
Proof.
  intros x s H. pose proof PI_RGT_0 as P.
  assert (E : (x + PI) / (2 * PI) * 4 * (PI / 2) = x + PI) by (field; lra).
  set (t := (x + PI) / (2 * PI) * 4) in *.
  assert (T : 2 <= t) by (apply Rmult_le_reg_r with (PI / 2); lra).
  rewrite region_R by (fold t; lra). fold t. destruct (Rlt_bool_spec x (PI / 2)).
  - assert (t < 3) by (apply Rmult_lt_reg_r with (PI / 2); lra). replace (Zfloor t) with 2%Z; [reflexivity|]. symmetry. apply Zfloor_imp. simpl. lra.
  - assert (3 <= t) by (apply Rmult_le_reg_r with (PI / 2); lra). apply Z.min_l. apply Zfloor_lub. lra.
Qed.
(** A phase below [-PI] makes the panel panic (index out of range). *)
Theorem C61_panic_refuted : exists agents : list (ASnap F), Forall (fun a => is_finite (an_phase a) = true) agents /\
  @displayLoadDistribution F NF agents = None.
Proof.
  exists [mkASnap (fofZ (-20)) ""%string]. split; [constructor; [|constructor]; vm_compute; reflexivity|].
  unfold displayLoadDistribution. cbn [tally]. unfold bump.
  assert (E : @region F NF (mkASnap (fofZ (-20)) ""%string) = (-10)%Z) by (vm_compute; reflexivity). rewrite E. reflexivity.
Qed.
Example C61_applies : Forall (fun a => in_turn (an_phase a)) (repeat (mkASnap (fofZ 3) ""%string) 12) /\ (9 <= lenZ (repeat (mkASnap (fofZ 3) ""%string) 12) <= 2 ^ 20)%Z.
Proof.
  split; [|cbn; lia]. apply Forall_forall. intros a Ha. apply repeat_spec in Ha. subst. destruct (rep_Z 3 ltac:(lia)) as [A B].
  split; [exact A|]. cbn [an_phase]. rewrite B. fold f2pi. rewrite f2pi_val. pose proof r2pi_bounds. lra.
Qed.

(** ** C62 *)
Lemma voteFor_spec v m : NoDup (map fst m) -> NoDup (map fst (voteFor v m)) /\
  (forall w c, In (w, c) (voteFor v m) <-> (w <> v /\ In (w, c) m) \/ (w = v /\ exists c', In (v, c') m /\ c = (c' + 1)%Z) \/ (w = v /\ c = 1%Z /\ ~ In v (map fst m))).
Proof.
  induction m as [|[w c] m IH]; intros H.
  - cbn. split; [repeat constructor; auto|]. intros w c. split.
    + intros [E|[]]. injection E as -> ->. right. right. auto.
    + intros [[_ []]|[[_ (c' & [] & _)]|(-> & -> & _)]]. now left.
  - cbn [map fst] in H. apply NoDup_cons_iff in H as [Nw H]. specialize (IH H). cbn [voteFor]. destruct (Z.eqb_spec w v) as [->|Hn].
    + split; [cbn [map fst]; constructor; auto|]. intros u d. cbn [In map fst]. split.
      * intros [E|Hi].
        -- injection E as <- <-. right. left. split; [reflexivity|]. exists c. auto.
        -- destruct (Z.eq_dec u v) as [->|Hu]; [exfalso; apply Nw; apply in_map_iff; now exists (v, d)|]. left. auto.
      * intros [[Hu [E|Hi]]|[[-> (c' & [E|Hi] & ->)]|(-> & -> & Hx)]].
        -- injection E as -> ->. contradiction.
        -- now right.
        -- injection E as <-. now left.
        -- exfalso. apply Nw. apply in_map_iff. now exists (v, c').
        -- exfalso. apply Hx. now left.
    + destruct IH as [I1 I2]. split.
      * cbn [map fst]. constructor; [|exact I1]. intros Hin. apply in_map_iff in Hin as ([u d] & Eu & Hi). cbn in Eu. subst u.
        apply I2 in Hi as [[_ Hi]|[[E _]|[E _]]]; [|contradiction|contradiction]. apply Nw. apply in_map_iff. now exists (w, d).
      * intros u d. cbn [In map fst]. split.
        -- intros [E|Hi]; [injection E as <- <-; left; auto|]. apply I2 in Hi as [[Hu Hi]|[[-> (c' & Hi & ->)]|(-> & -> & Hx)]].
           ++ left. auto.
           ++ right. left. split; [reflexivity|]. exists c'. auto.
           ++ right. right. repeat split; auto. intros [E|Hi]; [contradiction|auto].
        -- intros [[Hu [E|Hi]]|[[-> (c' & [E|Hi] & ->)]|(-> & -> & Hx)]].
           ++ now left.
           ++ right. apply I2. left. auto.
           ++ injection E as -> ->. contradiction.
           ++ right. apply I2. right. left. split; [reflexivity|]. now exists c'.
           ++ right. apply I2. right. right. repeat split; auto.
Qed.
Lemma groups_spec (vote : ASnap F -> Z) agents : forall seen m,
  NoDup (map fst m) -> (forall w c, In (w, c) m <-> (c = howMany (fun a => (vote a =? w)%Z) seen /\ (0 < c)%Z)) ->
  let m' := fold_left (fun m a => voteFor (vote a) m) agents m in
  NoDup (map fst m') /\ (forall w c, In (w, c) m' <-> (c = howMany (fun a => (vote a =? w)%Z) (seen ++ agents) /\ (0 < c)%Z)).
Proof.
  induction agents as [|a r IH]; intros seen m N H; cbn [fold_left].
  - rewrite app_nil_r. auto.
  - replace (seen ++ a :: r) with ((seen ++ [a]) ++ r) by (rewrite <- app_assoc; reflexivity).
    destruct (voteFor_spec (vote a) m N) as [N' S]. apply IH; [exact N'|]. intros w c. rewrite S.
    assert (HM : forall w, howMany (fun b => (vote b =? w)%Z) (seen ++ [a]) = (howMany (fun b => (vote b =? w)%Z) seen + if (vote a =? w)%Z then 1 else 0)%Z).
    { intros u. unfold howMany. rewrite filter_app, app_length. cbn [filter]. destruct (vote a =? u)%Z; cbn [List.length]; lia. }
    rewrite HM. assert (NN : forall u, (0 <= howMany (fun b => (vote b =? u)%Z) seen)%Z) by (intros; unfold howMany; lia).
    destruct (Z.eqb_spec (vote a) w) as [E|E].
    + subst w. split.
      * intros [[X _]|[[_ (c' & Hi & ->)]|(_ & -> & Hx)]]; [contradiction| |].
        -- apply H in Hi. lia.
        -- assert (Z0 : howMany (fun b => (vote b =? vote a)%Z) seen = 0%Z); [|lia].
           destruct (Z.eq_dec (howMany (fun b => (vote b =? vote a)%Z) seen) 0) as [E|E]; [exact E|]. exfalso. apply Hx. apply in_map_iff.
           exists (vote a, howMany (fun b => (vote b =? vote a)%Z) seen). split; [reflexivity|]. apply H. specialize (NN (vote a)). lia.
      * intros [-> _]. specialize (NN (vote a)). destruct (Z.eq_dec (howMany (fun b => (vote b =? vote a)%Z) seen) 0) as [E|E].
        -- right. right. rewrite E. repeat split. intros Hi. apply in_map_iff in Hi as ([u d] & Eu & Hi). cbn in Eu. subst u. apply H in Hi. lia.
        -- right. left. split; [reflexivity|]. eexists. split; [|reflexivity]. apply H. lia.
    + rewrite Z.add_0_r. split.
      * intros [[_ Hi]|[[-> _]|[-> _]]]; [now apply H|contradiction|contradiction].
      * intros Hc. left. split; [congruence|]. now apply H.
Qed.
Lemma maxVotes_spec (m : list (Z * Z)) : (forall w c, In (w, c) m -> (0 < c)%Z) -> forall x, (0 <= x)%Z ->
  let r := fold_left (fun mx kc => if (mx <? snd kc)%Z then snd kc else mx) m x in
  (x <= r)%Z /\ (forall w c, In (w, c) m -> (c <= r)%Z) /\ (r = x \/ exists w, In (w, r) m).
Proof.
  induction m as [|[w c] m IH]; intros H x Hx; cbn [fold_left snd].
  - repeat split; [lia|intros ? ? []|auto].
  - assert (Pc := H w c (or_introl eq_refl)).
    destruct (IH (fun w c Hi => H w c (or_intror Hi)) (if (x <? c)%Z then c else x)) as (A & B & C).
    { destruct (x <? c)%Z; lia. }
    set (r := fold_left _ m _) in *. split; [destruct (Z.ltb_spec x c); lia|]. split.
    + intros u d [E|Hi]; [injection E as <- <-; destruct (Z.ltb_spec x c); lia|eauto].
    + destruct C as [C|[u C]]; [|right; exists u; now right]. destruct (Z.ltb_spec x c); [|now left].
      right. exists w. left. rewrite C. reflexivity.
Qed.
Lemma bar20_lit n : (0 <= n <= 20)%Z -> bar20 n = litCells n 20.
Proof.
  intros H. assert (T : forallb (fun k => if list_eq_dec Bool.bool_dec (bar20 (Z.of_nat k)) (litCells (Z.of_nat k) 20) then true else false) (seq 0 21) = true) by (vm_compute; reflexivity).
  rewrite forallb_forall in T. specialize (T (Z.to_nat n)). rewrite in_seq in T. specialize (T ltac:(lia)). rewrite Z2Nat.id in T by lia.
  destruct (list_eq_dec Bool.bool_dec (bar20 n) (litCells n 20)); [assumption|discriminate].
Qed.
Lemma lenZ_ne {A} (l : list A) : l <> [] -> (0 < lenZ l)%Z.
Proof. destruct l; [contradiction|]. unfold lenZ. cbn [List.length]. lia. Qed.
(** The vote of an agent is the half-radian interval its phase lies in. *)
Theorem C62_vote : forall a : ASnap F, in_turn (an_phase a) ->
  (0 <= @voteOf F NF a <= 12)%Z /\ IZR (@voteOf F NF a) / 2 <= B2R (an_phase a) < IZR (@voteOf F NF a) / 2 + / 2.
Proof.
  intros a [Fx Bx]. unfold voteOf. cbn [nmul nofZ FNum ntrunc]. fold f2pi in Bx. rewrite f2pi_val in Bx. pose proof r2pi_bounds as Hr.
  assert (B8 : 1024 <= bpow radix2 1023) by (apply (bpow1023_ge 10); lia).
  destruct (rep_Z 2 ltac:(lia)) as [F2 V2].
  destruct (fmul_fin _ _ Fx F2) as [Fm Vm]. { rewrite V2. apply Rabs_le. lra. } rewrite V2 in Vm.
  assert (E : B2R (fmul (an_phase a) (fofZ 2)) = B2R (an_phase a) * 2).
  { rewrite Vm. apply round_generic; [apply valid_rnd_N|]. change 2 with (bpow radix2 1). 
    apply (mult_bpow_pos_exact_FLT radix2 (-1074) 53); [apply generic_format_B2R|lia]. }
  assert (T0 : Ztrunc (B2R (fmul (an_phase a) (fofZ 2))) = Zfloor (B2R (an_phase a) * 2)) by (rewrite E; apply Ztrunc_floor; lra).
  pose proof (Zfloor_lb (B2R (an_phase a) * 2)). pose proof (Zfloor_ub (B2R (an_phase a) * 2)).
  assert (0 <= Zfloor (B2R (an_phase a) * 2))%Z by (apply Zfloor_lub; lra).
  assert (Zfloor (B2R (an_phase a) * 2) < 13)%Z by (apply lt_IZR; lra).
  rewrite ftrunc_spec; rewrite ?T0; auto; [|lia]. split; [lia|]. lra.
Qed.
(** The percentage, the cells and the announcement follow the largest group of agents with the same vote:
    the cells are its share of the agents in twentieths, rounded down, and consensus is announced when it has
    at least 19 of every 20 agents. *)
Theorem C62_consensus : forall agents : list (ASnap F), agents <> [] -> (lenZ agents <= 2 ^ 40)%Z ->
  exists m, (exists w, m = howMany (fun a => (@voteOf F NF a =? w)%Z) agents) /\
    (forall w, (howMany (fun a => (@voteOf F NF a =? w)%Z) agents <= m)%Z) /\
    cv_cells (@displayConsensusProgress F NF agents) = litCells (20 * m / lenZ agents) 20 /\
    cv_reached (@displayConsensusProgress F NF agents) = (19 * lenZ agents <=? 20 * m)%Z.
Proof.
  intros agents Hne Hn. assert (Pn := lenZ_ne agents Hne).
  destruct (groups_spec (@voteOf F NF) agents [] [] (NoDup_nil _)) as [N S].
  { intros w c. split; [intros []|]. unfold howMany. cbn. lia. }
  cbn [app] in S. set (m' := fold_left _ agents []) in *.
  destruct (maxVotes_spec m') with (x := 0%Z) as (A & B & C); [intros w c Hi; now apply S in Hi|lia|].
  fold (maxVotes m') in A, B, C. exists (maxVotes m').
  assert (AL : forall w, (howMany (fun a => (@voteOf F NF a =? w)%Z) agents <= maxVotes m')%Z).
  { intros w. destruct (Z_le_gt_dec (howMany (fun a => (@voteOf F NF a =? w)%Z) agents) 0); [lia|]. apply (B w). apply S. lia. }
  assert (EX : exists w, maxVotes m' = howMany (fun a => (@voteOf F NF a =? w)%Z) agents).
  { destruct C as [C|[w Hw]]; [|exists w; now apply S in Hw].
    exists 0%Z. rewrite C. specialize (AL 0%Z). unfold howMany in *. lia. }
  assert (MB : (0 <= maxVotes m' <= lenZ agents)%Z).
  { split; [exact A|]. destruct EX as [w ->]. unfold howMany. rewrite <- count_filter. apply count_range. }
  split; [exact EX|]. split; [exact AL|]. unfold displayConsensusProgress. fold m'. cbn [cv_cells cv_reached nmul ndiv nofZ nle FNum ntrunc].
  fold (pct (maxVotes m') (lenZ agents)). rewrite bar_cells by lia. split.
  - apply bar20_lit. split; [apply Z.div_pos; lia|apply Z.div_le_upper_bound; lia].
  - destruct (pct_cmp (maxVotes m') (lenZ agents) 95 MB ltac:(lia) ltac:(lia)) as (_ & _ & E); [vm_compute; reflexivity|].
    rewrite E. destruct (Z.leb_spec (95 * lenZ agents) (100 * maxVotes m')), (Z.leb_spec (19 * lenZ agents) (20 * maxVotes m')); lia.
Qed.
(** Agents in almost the same state, on both sides of phase 0, are not counted as agreeing. *)
Theorem C62_wraparound_refuted : exists agents : list (ASnap F),
  Forall (fun a => in_turn (an_phase a)) agents /\
  (forall a b, In a agents -> In b agents -> exists k : Z, Rabs (B2R (an_phase a) - B2R (an_phase b) + IZR k * B2R (fhalfpi 4)) <= 1 / 50) /\
  cv_reached (@displayConsensusProgress F NF agents) = false /\
  cv_cells (@displayConsensusProgress F NF agents) = litCells 10 20.
Proof.
  set (hi := fsub f2pi (flit 1 128)).
  assert (S1 : B2SF (flit 1 128) = SpecFloat.S754_finite false 4503599627370496 (-59)) by (vm_compute; reflexivity).
  apply B2R_of_B2SF in S1. destruct S1 as [F1 V1].
  assert (V1' : B2R (flit 1 128) = / 128) by (rewrite V1; unfold F2R; cbn [Fnum Fexp cond_Zopp]; change (bpow radix2 (-59)) with (/ 576460752303423488); lra).
  assert (SH : B2SF hi = SpecFloat.S754_finite false 7065441659006232 (-50)) by (vm_compute; reflexivity).
  apply B2R_of_B2SF in SH. destruct SH as [FH VH].
  assert (VH' : B2R hi = r2pi - / 128) by (rewrite VH; unfold r2pi, F2R; cbn [Fnum Fexp cond_Zopp]; change (bpow radix2 (-50)) with (/ 1125899906842624); lra).
  pose proof r2pi_bounds as Hr.
  exists [mkASnap (flit 1 128) ""%string; mkASnap hi ""%string]. split; [|split].
  - constructor; [|constructor; [|constructor]]; split; cbn [an_phase]; auto; fold f2pi; rewrite f2pi_val, ?V1', ?VH'; lra.
  - fold f2pi. intros a b [<-|[<-|[]]] [<-|[<-|[]]]; cbn [an_phase]; rewrite f2pi_val, ?V1', ?VH'.
    + exists 0%Z. rewrite Rabs_pos_eq; lra.
    + exists 1%Z. apply Rabs_le. lra.
    + exists (-1)%Z. apply Rabs_le. lra.
    + exists 0%Z. replace (r2pi - / 128 - (r2pi - / 128) + 0 * r2pi) with 0 by ring. rewrite Rabs_R0. lra.
  - split; vm_compute; reflexivity.
Qed.
Example C62_applies : exists agents : list (ASnap F), agents <> [] /\ (lenZ agents <= 2 ^ 40)%Z /\ cv_reached (@displayConsensusProgress F NF agents) = true.
Proof.
  exists (repeat (mkASnap (fofZ 3) ""%string) 19 ++ [mkASnap (fofZ 5) ""%string]). split; [discriminate|]. split; [cbn; lia|]. vm_compute. reflexivity.
Qed.

(** ** C63 *)
Lemma turn_ge a : in_turn (an_phase a) -> is_finite (@fabs (an_phase a)) = true /\ B2R (fabs (an_phase a)) = B2R (an_phase a) /\ 0 <= B2R (an_phase a) < 629 / 100.
Proof.
  intros [Fx Bx]. fold f2pi in Bx. rewrite f2pi_val in Bx. pose proof r2pi_bounds as Hr.
  unfold fabs. rewrite is_finite_Babs, B2R_Babs, Rabs_pos_eq by lra. split; [exact Fx|]. lra.
Qed.
Lemma latency_turn a : in_turn (an_phase a) -> (1 <= @latencyBin F NF a <= 4)%Z.
Proof.
  intros H. destruct (turn_ge a H) as (Fa & Va & Ba). unfold latencyBin. cbn [nadd ndiv nmul nabs nofZ FNum ntrunc].
  assert (B8 : 1024 <= bpow radix2 1023) by (apply (bpow1023_ge 10); lia).
  destruct (rep_Z 5 ltac:(lia)) as [F5 V5]. destruct (rep_Z 10 ltac:(lia)) as [F10 V10].
  destruct (fmul_fin _ _ Fa F5) as [Fm Vm]. { rewrite Va, V5. apply Rabs_le. lra. } rewrite Va, V5 in Vm.
  assert (Bm : 0 <= B2R (fmul (fabs (an_phase a)) (fofZ 5)) <= 32).
  { rewrite Vm. split; [apply rnd_ge_0; lra|apply rnd_le_fmt; [apply (fmt_IZR 32); lia|lra]]. }
  destruct (fadd_fin _ _ F10 Fm) as [Fs Vs]. { rewrite V10. apply Rabs_le. lra. } rewrite V10 in Vs.
  set (lat := fadd _ _) in *.
  assert (Bs : 10 <= B2R lat <= 42).
  { rewrite Vs. split; [apply rnd_ge_fmt; [apply (fmt_IZR 10); lia|lra]|apply rnd_le_fmt; [apply (fmt_IZR 42); lia|lra]]. }
  destruct (fdiv_fin _ _ Fs F10) as [Fd Vd]. { rewrite V10. lra. } { rewrite V10. apply Rabs_le. lra. } rewrite V10 in Vd.
  assert (Bd : 1 <= B2R (fdiv lat (fofZ 10)) <= 5).
  { rewrite Vd. split; [apply rnd_ge_fmt; [apply (fmt_IZR 1); lia|lra]|apply rnd_le_fmt; [apply (fmt_IZR 5); lia|lra]]. }
  assert (TB : (1 <= Ztrunc (B2R (fdiv lat (fofZ 10))) <= 5)%Z).
  { rewrite Ztrunc_floor by lra. split; [apply Zfloor_lub; lra|]. apply le_IZR. eapply Rle_trans; [apply Zfloor_lb|]. lra. }
  rewrite ftrunc_spec; auto; [|lia]. destruct (Z.leb_spec 5 (Ztrunc (B2R (fdiv lat (fofZ 10))))); lia.
Qed.
Lemma five_bins (b : list Z) : List.length b = 5%nat -> b = [nth 0 b 0%Z; nth 1 b 0%Z; nth 2 b 0%Z; nth 3 b 0%Z; nth 4 b 0%Z].
Proof. destruct b as [|? [|? [|? [|? [|? [|? ?]]]]]]; intros H; try discriminate H. reflexivity. Qed.
Lemma tally5 idx (agents : list (ASnap F)) : Forall (fun a => (0 <= idx a < 5)%Z) agents ->
  tally idx agents [0; 0; 0; 0; 0]%Z = Some (map (fun k => howMany (fun a => (idx a =? k)%Z) agents) [0; 1; 2; 3; 4]%Z).
Proof.
  intros H. destruct (tally_spec idx agents [0; 0; 0; 0; 0]%Z) as (b & E & L & K); [exact H|]. rewrite E. f_equal.
  rewrite (five_bins b L). cbn [map].
  pose proof (K 0%Z ltac:(cbn; lia)) as K0. pose proof (K 1%Z ltac:(cbn; lia)) as K1. pose proof (K 2%Z ltac:(cbn; lia)) as K2.
  pose proof (K 3%Z ltac:(cbn; lia)) as K3. pose proof (K 4%Z ltac:(cbn; lia)) as K4.
  rewrite !count_filter in *. unfold howMany. change (Z.to_nat 0) with 0%nat in K0. change (Z.to_nat 1) with 1%nat in K1. change (Z.to_nat 2) with 2%nat in K2. change (Z.to_nat 3) with 3%nat in K3. change (Z.to_nat 4) with 4%nat in K4.
  cbn [nth] in K0, K1, K2, K3, K4. rewrite K0, K1, K2, K3, K4. reflexivity.
Qed.
(** Five lines, every agent counted once, bars in thirtieths of the agents rounded down; the line 0-10ms is
    always empty because the latency starts at 10. *)
Theorem C63_latency : forall agents : list (ASnap F), agents <> [] -> Forall (fun a => in_turn (an_phase a)) agents -> (lenZ agents <= 2 ^ 40)%Z ->
  let c k := howMany (fun a => (@latencyBin F NF a =? k)%Z) agents in
  let bar k := (30 * c k / lenZ agents)%Z in
  @displayLatencyHistogram F NF agents =
    Some [(0%Z, 0%Z, CGreen); (c 1%Z, bar 1%Z, CGreen); (c 2%Z, bar 2%Z, CYellow); (c 3%Z, bar 3%Z, CRed); (c 4%Z, bar 4%Z, CRed)] /\
  (c 1 + c 2 + c 3 + c 4 = lenZ agents)%Z.
Proof.
  intros agents Hne H Hn c bar. assert (Pn := lenZ_ne agents Hne).
  assert (RB : Forall (fun a => (1 <= @latencyBin F NF a <= 4)%Z) agents) by (eapply Forall_impl; [|exact H]; intros a; apply latency_turn).
  assert (RB5 : Forall (fun a => (0 <= @latencyBin F NF a < 5)%Z) agents) by (eapply Forall_impl; [|exact RB]; cbn; lia).
  unfold displayLatencyHistogram. rewrite (tally5 _ _ RB5). cbn [map combine].
  assert (TOT := bins_total (@latencyBin F NF) 5 agents RB5). cbn [seq map] in TOT. unfold zsum in TOT. cbn [fold_right] in TOT. rewrite !count_filter in TOT.
  change (Z.of_nat 0) with 0%Z in TOT. change (Z.of_nat 1) with 1%Z in TOT. change (Z.of_nat 2) with 2%Z in TOT. change (Z.of_nat 3) with 3%Z in TOT. change (Z.of_nat 4) with 4%Z in TOT.
  assert (C0 : c 0%Z = 0%Z).
  { unfold c, howMany. rewrite <- count_filter. apply count_none. intros a Ha. rewrite Forall_forall in RB. specialize (RB a Ha). apply Z.eqb_neq. lia. }
  change (c 0 + (c 1 + (c 2 + (c 3 + (c 4 + 0)))) = lenZ agents)%Z in TOT.
  assert (NN : forall k, (0 <= c k)%Z) by (intros; unfold c, howMany; lia).
  pose proof (NN 1%Z). pose proof (NN 2%Z). pose proof (NN 3%Z). pose proof (NN 4%Z).
  split; [|lia]. fold (c 0%Z) (c 1%Z) (c 2%Z) (c 3%Z) (c 4%Z). rewrite C0. cbn [fst snd].
  change (2 <? 0)%Z with false. change (1 <? 0)%Z with false. change (2 <? 1)%Z with false. change (1 <? 1)%Z with false. change (2 <? 2)%Z with false. change (1 <? 2)%Z with true.
  change (2 <? 3)%Z with true. change (2 <? 4)%Z with true. rewrite !share_exact30 by lia. rewrite Z.mul_0_r, Z.div_0_l by lia. reflexivity.
Qed.
(** Each agent is on the line whose label contains its latency [10 + 5|phase|] (exact reals). *)
Theorem C63_label : forall x s, let lat := 10 + 5 * Rabs x in let b := @latencyBin R RNum (mkASnap x s) in
  (1 <= b <= 4)%Z /\ 10 * IZR b <= lat /\ ((b < 4)%Z -> lat < 10 * (IZR b + 1)).
Proof.
  intros x s lat b. unfold b, latencyBin. cbn [nadd ndiv nmul nabs nofZ RNum ntrunc an_phase].
  pose proof (Rabs_pos x). replace ((10 + Rabs x * 5) / 10) with (lat / 10) by (unfold lat; field).
  assert (L : 10 <= lat) by (unfold lat; lra). rewrite Ztrunc_floor by lra.
  pose proof (Zfloor_lb (lat / 10)). pose proof (Zfloor_ub (lat / 10)).
  assert (1 <= Zfloor (lat / 10))%Z by (apply Zfloor_lub; lra).
  destruct (Z.leb_spec 5 (Zfloor (lat / 10))) as [G|G].
  - split; [lia|]. apply IZR_le in G. split; [lra|lia].
  - split; [lia|]. split; [lra|]. intros _. lra.
Qed.
(** Two agents in almost the same state are put at opposite ends of the histogram. *)
Theorem C63_wraparound_refuted : exists a b : ASnap F, in_turn (an_phase a) /\ in_turn (an_phase b) /\
  Rabs (B2R (an_phase a) - B2R (an_phase b) + B2R (fhalfpi 4)) <= 1 / 50 /\ @latencyBin F NF a = 1%Z /\ @latencyBin F NF b = 4%Z.
Proof.
  set (hi := fsub f2pi (flit 1 128)).
  assert (S1 : B2SF (flit 1 128) = SpecFloat.S754_finite false 4503599627370496 (-59)) by (vm_compute; reflexivity).
  apply B2R_of_B2SF in S1. destruct S1 as [F1 V1].
  assert (V1' : B2R (flit 1 128) = / 128) by (rewrite V1; unfold F2R; cbn [Fnum Fexp cond_Zopp]; change (bpow radix2 (-59)) with (/ 576460752303423488); lra).
  assert (SH : B2SF hi = SpecFloat.S754_finite false 7065441659006232 (-50)) by (vm_compute; reflexivity).
  apply B2R_of_B2SF in SH. destruct SH as [FH VH].
  assert (VH' : B2R hi = r2pi - / 128) by (rewrite VH; unfold r2pi, F2R; cbn [Fnum Fexp cond_Zopp]; change (bpow radix2 (-50)) with (/ 1125899906842624); lra).
  pose proof r2pi_bounds as Hr.
  exists (mkASnap (flit 1 128) ""%string), (mkASnap hi ""%string). cbn [an_phase]. unfold in_turn. fold f2pi. rewrite f2pi_val, V1', VH'.
  split; [split; [exact F1|lra]|]. split; [split; [exact FH|lra]|]. split; [apply Rabs_le; lra|]. split; vm_compute; reflexivity.
Qed.
Example C63_applies : [mkASnap (fofZ 3) ""%string] <> [] /\ Forall (fun a => in_turn (an_phase a)) [mkASnap (fofZ 3) ""%string] /\
  @displayLatencyHistogram F NF [mkASnap (fofZ 3) ""%string] = Some [(0, 0, CGreen); (0, 0, CGreen); (1, 30, CYellow); (0, 0, CRed); (0, 0, CRed)]%Z.
Proof.
  split; [discriminate|]. split; [|vm_compute; reflexivity]. constructor; [|constructor]. destruct (rep_Z 3 ltac:(lia)) as [A B].
  split; [exact A|]. cbn [an_phase]. rewrite B. fold f2pi. rewrite f2pi_val. pose proof r2pi_bounds. lra.
Qed.

(** ** C64 *)
(** The energy panel: sleeping agents are the quiet ones; the battery shows their share in twentieths, rounded
    down; EFFICIENT is shown when more than seven tenths are asleep (exactly). *)
Theorem C64_energy : forall agents : list (ASnap F), agents <> [] -> (lenZ agents <= 2 ^ 40)%Z ->
  let v := @displayEnergyPattern F NF agents in
  ev_sleeping v = howMany (fun a => (an_act a =? "quiet")%string) agents /\
  (ev_sleeping v + ev_active v = lenZ agents)%Z /\
  ev_cells v = litCells (20 * ev_sleeping v / lenZ agents) 20 /\
  ev_efficient v = (7 * lenZ agents <? 10 * ev_sleeping v)%Z.
Proof.
  intros agents Hne Hn v. assert (Pn := lenZ_ne agents Hne). unfold v, displayEnergyPattern. cbn [ev_sleeping ev_active ev_cells ev_efficient nmul ndiv nofZ nlt FNum ntrunc].
  pose proof (count_range quiet agents) as CR. fold (pct (count quiet agents) (lenZ agents)).
  split; [apply count_filter|]. split; [apply count_split; reflexivity|]. split.
  - rewrite bar_cells by lia. apply bar20_lit. split; [apply Z.div_pos; lia|apply Z.div_le_upper_bound; lia].
  - destruct (pct_cmp (count quiet agents) (lenZ agents) 70 CR ltac:(lia) ltac:(lia)) as (E & _ & _); [vm_compute; reflexivity|].
    rewrite E. destruct (Z.ltb_spec (70 * lenZ agents) (100 * count quiet agents)), (Z.ltb_spec (7 * lenZ agents) (10 * count quiet agents)); lia.
Qed.
(** The traffic panel: three exclusive states; the lit cells are the share of busy and normal agents in
    twentieths, rounded down, green up to 12, yellow up to 16, then red; the advice is SCALE UP above four
    fifths, SCALE DOWN below three tenths, else OPTIMAL (exactly). *)
Theorem C64_traffic : forall agents : list (ASnap F), agents <> [] -> (lenZ agents <= 2 ^ 40)%Z ->
  let v := @displayTrafficLoad F NF agents in let k := (tv_normal v + tv_busy v)%Z in
  tv_idle v = howMany (fun a => (an_act a =? "quiet")%string) agents /\
  tv_busy v = howMany (fun a => (an_act a =? "burst")%string) agents /\
  (tv_idle v + tv_normal v + tv_busy v = lenZ agents)%Z /\
  (forall i, (i < 20)%nat -> nth i (tv_cells v) None =
     if (Z.of_nat i <? 20 * k / lenZ agents)%Z then Some (if (i <? 12)%nat then CGreen else if (i <? 16)%nat then CYellow else CRed) else None) /\
  List.length (tv_cells v) = 20%nat /\
  tv_advice v = (if 4 * lenZ agents <? 5 * k then "SCALE UP" else if 10 * k <? 3 * lenZ agents then "SCALE DOWN" else "OPTIMAL")%Z%string.
Proof.
  intros agents Hne Hn v k. assert (Pn := lenZ_ne agents Hne). unfold k, v, displayTrafficLoad. cbn [tv_idle tv_normal tv_busy tv_cells tv_advice nmul ndiv nofZ nlt FNum ntrunc].
  set (nb := (count (fun a => negb (quiet a) && negb (bursting a)) agents + count (fun a => negb (quiet a) && bursting a) agents)%Z).
  assert (TOT : (count quiet agents + count (fun a => negb (quiet a) && negb (bursting a)) agents + count (fun a => negb (quiet a) && bursting a) agents = lenZ agents)%Z).
  { apply count_split3. intros a _. destruct (quiet a), (bursting a); reflexivity. }
  pose proof (count_range quiet agents) as CR. assert (NB : (0 <= nb <= lenZ agents)%Z).
  { pose proof (count_range (fun a => negb (quiet a) && negb (bursting a)) agents). pose proof (count_range (fun a => negb (quiet a) && bursting a) agents). unfold nb. lia. }
  fold (pct nb (lenZ agents)).
  split; [apply count_filter|]. split.
  { unfold howMany. rewrite <- (count_filter (fun a => (an_act a =? "burst")%string)). apply count_ext. intros a _. unfold quiet, bursting.
    destruct (String.eqb_spec (an_act a) "burst") as [->|]; [reflexivity|]. now rewrite andb_false_r. }
  split; [exact TOT|]. split; [|split].
  - intros i Hi. rewrite bar_cells by lia. rewrite (nth_indep _ None (trafficCell (20 * nb / lenZ agents) 0)) by (rewrite map_length, seq_length; exact Hi).
    rewrite map_nth, seq_nth by exact Hi. cbn [Nat.add]. unfold trafficCell. destruct (Z.ltb_spec (Z.of_nat i) (20 * nb / lenZ agents)); [|reflexivity]. f_equal.
    destruct (Z.leb_spec 16 (Z.of_nat i)), (Z.leb_spec 12 (Z.of_nat i)), (Nat.ltb_spec i 12), (Nat.ltb_spec i 16); try lia; reflexivity.
  - now rewrite map_length, seq_length.
  - destruct (pct_cmp nb (lenZ agents) 80 NB ltac:(lia) ltac:(lia)) as (E & _ & _); [vm_compute; reflexivity|].
    destruct (pct_cmp nb (lenZ agents) 30 NB ltac:(lia) ltac:(lia)) as (_ & E' & _); [vm_compute; reflexivity|].
    rewrite E, E'. destruct (Z.ltb_spec (80 * lenZ agents) (100 * nb)), (Z.ltb_spec (4 * lenZ agents) (5 * nb)); try lia; [reflexivity|].
    destruct (Z.ltb_spec (100 * nb) (30 * lenZ agents)), (Z.ltb_spec (10 * nb) (3 * lenZ agents)); try lia; reflexivity.
Qed.
(** With no agents the percentages are not numbers: no cell is lit and the advice is OPTIMAL. *)
Theorem C64_no_agents : ev_efficient (@displayEnergyPattern F NF []) = false /\ ev_cells (@displayEnergyPattern F NF []) = litCells 0 20 /\
  tv_advice (@displayTrafficLoad F NF []) = "OPTIMAL"%string /\ tv_cells (@displayTrafficLoad F NF []) = repeat None 20.
Proof. repeat split; vm_compute; reflexivity. Qed.
Example C64_applies : exists agents : list (ASnap F), agents <> [] /\ (lenZ agents <= 2 ^ 40)%Z /\
  ev_efficient (@displayEnergyPattern F NF agents) = false /\ tv_advice (@displayTrafficLoad F NF agents) = "OPTIMAL"%string.
Proof.
  exists (repeat (mkASnap (fofZ 0) "quiet"%string) 7 ++ repeat (mkASnap (fofZ 0) "burst"%string) 3). split; [discriminate|]. split; [cbn; lia|].
  split; vm_compute; reflexivity.
Qed.

(** ** C65 *)
Lemma rnd_rel x : / 2 ^ 41 <= Rabs x -> Rabs (rnd x - x) <= / 9007199254740992 * Rabs x.
Proof.
  intros H. pose proof (relative_error_N_FLT radix2 (-1074) 53 ltac:(lia) (fun x => negb (Z.even x)) x) as E.
  change (/ 2 * bpow radix2 (- (53) + 1)) with (/ 2 * / 4503599627370496) in E.
  assert (Q : bpow radix2 (-1074 + 53 - 1) <= Rabs x).
  { eapply Rle_trans; [|exact H]. apply Rle_trans with (bpow radix2 (-41)); [apply bpow_le; lia|]. simpl. lra. }
  specialize (E Q). unfold rnd. change fexp64 with (FLT_exp (-1074) 53) in *. lra.
Qed.
Lemma schedule_bar k m : (0 <= k <= m)%Z -> (0 < m <= 2 ^ 40)%Z ->
  let b := ftrunc (fmul (fofZ k) (fdiv (fofZ 15) (fofZ m))) in
  (0 <= b)%Z /\ ((15 * k) mod m <> 0 -> b = 15 * k / m)%Z /\ (15 * k / m - 1 <= b <= 15 * k / m)%Z.
Proof.
  intros Hk Hm b. destruct (rep_Z 15 ltac:(lia)) as [F15 V15]. destruct (rep_Z m ltac:(lia)) as [Fm Vm]. destruct (rep_Z k ltac:(lia)) as [Fk Vk].
  assert (B8 : 1024 <= bpow radix2 1023) by (apply (bpow1023_ge 10); lia).
  assert (Pm : 1 <= IZR m <= 1099511627776) by (split; apply IZR_le; lia). assert (Pk : 0 <= IZR k <= IZR m) by (split; apply IZR_le; lia).
  assert (X : 15 / 1099511627776 <= 15 / IZR m <= 15).
  { unfold Rdiv. split; [apply Rmult_le_compat_l; [lra|]; apply Rinv_le; lra|]. rewrite <- (Rmult_1_r 15) at 2. apply Rmult_le_compat_l; [lra|].
    rewrite <- Rinv_1. apply Rinv_le; lra. }
  destruct (fdiv_fin _ _ F15 Fm) as [Fd Vd]; [rewrite Vm; lra|rewrite V15, Vm; apply Rabs_le; lra|]. rewrite V15, Vm in Vd.
  set (r := B2R (fdiv (fofZ 15) (fofZ m))) in *.
  assert (Er : Rabs (r - 15 / IZR m) <= / 9007199254740992 * (15 / IZR m)).
  { rewrite Vd. rewrite <- (Rabs_pos_eq (15 / IZR m)) at 3 by lra. apply rnd_rel. rewrite Rabs_pos_eq by lra. simpl. lra. }
  set (y := 15 * (IZR k / IZR m)).
  assert (Y : 0 <= y <= 15).
  { unfold y. assert (0 <= IZR k / IZR m <= 1); [|lra]. split; [apply Rmult_le_pos; [lra|apply Rlt_le, Rinv_0_lt_compat; lra]|].
    apply Rmult_le_reg_r with (IZR m); [lra|]. unfold Rdiv. rewrite Rmult_assoc, Rinv_l by lra. lra. }
  assert (Ek : Rabs (IZR k * r - y) <= / 562949953421312).
  { replace (IZR k * r - y) with (IZR k * (r - 15 / IZR m)) by (unfold y; field; lra). rewrite Rabs_mult, (Rabs_pos_eq (IZR k)) by lra.
    eapply Rle_trans; [apply Rmult_le_compat_l; [lra|exact Er]|]. replace (IZR k * (/ 9007199254740992 * (15 / IZR m))) with (/ 9007199254740992 * y) by (unfold y; field; lra). lra. }
  apply Rabs_le_inv in Ek.
  assert (R0 : 0 <= r) by (rewrite Vd; apply rnd_ge_0; lra).
  assert (K0 : 0 <= IZR k * r) by (apply Rmult_le_pos; lra).
  destruct (fmul_fin _ _ Fk Fd) as [Fv Vv]. { rewrite Vk. fold r. apply Rabs_le. lra. } rewrite Vk in Vv. fold r in Vv.
  pose proof (rnd_err128 (IZR k * r) ltac:(lra)) as E2. rewrite <- Vv in E2. apply Rabs_le_inv in E2.
  assert (V0 : 0 <= B2R (fmul (fofZ k) (fdiv (fofZ 15) (fofZ m)))) by (rewrite Vv; apply rnd_ge_0; exact K0).
  set (v := B2R (fmul (fofZ k) (fdiv (fofZ 15) (fofZ m)))) in *.
  assert (TV : (0 <= Zfloor v <= 16)%Z) by (split; [apply Zfloor_lub; lra|apply le_IZR; eapply Rle_trans; [apply Zfloor_lb|]; lra]).
  assert (EB : b = Zfloor v).
  { unfold b. rewrite ftrunc_spec; fold v; rewrite ?Ztrunc_floor; auto. lia. }
  rewrite EB. split; [lia|].
  set (q := (15 * k / m)%Z). pose proof (Z.div_mod (15 * k) m ltac:(lia)) as DM. fold q in DM. pose proof (Z.mod_pos_bound (15 * k) m ltac:(lia)) as MB.
  set (rr := ((15 * k) mod m)%Z) in *.
  assert (E1 : IZR (15 * k) / IZR m = y) by (rewrite mult_IZR; unfold y; field; lra).
  assert (E3 : IZR (q * m) / IZR m = IZR q) by (rewrite mult_IZR; field; lra).
  assert (E4 : IZR ((q + 1) * m) / IZR m = IZR q + 1) by (rewrite mult_IZR, plus_IZR; field; lra).
  pose proof (frac_gap (15 * k) ((q + 1) * m) m Hm ltac:(nia)) as G2. rewrite E1, E4 in G2.
  destruct (Z.eq_dec rr 0) as [Z0|Z0].
  - split; [intros N; contradiction|]. assert (YQ : y = IZR q) by (rewrite <- E1, <- E3; f_equal; f_equal; lia).
    split.
    + apply Zfloor_lub. rewrite minus_IZR. lra.
    + apply Z.lt_succ_r. apply lt_IZR. eapply Rle_lt_trans; [apply Zfloor_lb|]. rewrite succ_IZR. lra.
  - pose proof (frac_gap (q * m) (15 * k) m Hm ltac:(nia)) as G1. rewrite E1, E3 in G1.
    assert (FQ : Zfloor v = q) by (apply Zfloor_imp; rewrite plus_IZR; lra). rewrite FQ. split; [auto|lia].
Qed.
(** Every job is early, on time or late; no job is ever early, because the agents keep their phases in
    [0, 2PI); the bars are scaled so that the largest group has fifteen cells, or fourteen when rounding goes
    the wrong way. *)
Theorem C65_schedule : forall agents : list (ASnap F), agents <> [] -> Forall (fun a => in_turn (an_phase a)) agents -> (lenZ agents <= 2 ^ 40)%Z ->
  let v := @displayScheduleAlignment F NF agents in
  let m := Z.max (sv_onTime v) (sv_late v) in
  sv_early v = 0%Z /\ (sv_onTime v + sv_late v = lenZ agents)%Z /\
  sv_onTime v = howMany (fun a => flt (an_phase a) (flit 1 10)) agents /\
  exists bo bl, sv_bars v = (0%Z, bo, bl) /\
    (forall k b, (k = sv_onTime v /\ b = bo) \/ (k = sv_late v /\ b = bl) ->
       (0 <= b <= 15)%Z /\ (15 * k / m - 1 <= b <= 15 * k / m)%Z /\ ((15 * k) mod m <> 0 -> b = 15 * k / m)%Z).
Proof.
  intros agents Hne H Hn v m. assert (Pn := lenZ_ne agents Hne).
  assert (E0 : count (@earlyP F NF) agents = 0%Z).
  { apply count_none. intros a Ha. rewrite Forall_forall in H. specialize (H a Ha). destruct H as [Fx Bx]. unfold earlyP, n0. cbn [nlt nofZ FNum].
    destruct (rep_Z 0 ltac:(lia)) as [Fz Vz]. rewrite (flt_ord (an_phase a) (fofZ 0)), !ford_fin, Vz by (auto using fin_nan). rewrite Rlt_bool_false by lra. apply andb_false_r. }
  assert (TOT : (count (@onTimeP F NF) agents + count (@lateP F NF) agents = lenZ agents)%Z).
  { assert (T3 := count_split3 (@onTimeP F NF) (@earlyP F NF) (@lateP F NF) agents). rewrite E0 in T3. rewrite <- T3; [lia|].
    intros a _. unfold earlyP, lateP. destruct (@onTimeP F NF a), (an_phase a <? n0)%num; reflexivity. }
  pose proof (count_range (@onTimeP F NF) agents) as C1. pose proof (count_range (@lateP F NF) agents) as C2.
  assert (EM : maxInt (maxInt (count (@earlyP F NF) agents) (count (@onTimeP F NF) agents)) (count (@lateP F NF) agents) = m).
  { unfold m, v. cbn [displayScheduleAlignment sv_onTime sv_late]. rewrite E0. unfold maxInt. destruct (Z.ltb_spec (count (@onTimeP F NF) agents) 0); [lia|].
    destruct (Z.ltb_spec (count (@lateP F NF) agents) (count (@onTimeP F NF) agents)); lia. }
  assert (M : (0 < m <= 2 ^ 40)%Z) by (unfold m, v; cbn [displayScheduleAlignment sv_onTime sv_late]; lia).
  assert (MO : (0 <= sv_onTime v <= m)%Z) by (unfold m, v; cbn [displayScheduleAlignment sv_onTime sv_late]; lia).
  assert (ML : (0 <= sv_late v <= m)%Z) by (unfold m, v; cbn [displayScheduleAlignment sv_onTime sv_late]; lia).
  split; [exact E0|]. split; [exact TOT|]. split.
  { unfold v. cbn [displayScheduleAlignment sv_onTime]. rewrite count_filter. unfold howMany. do 2 f_equal. apply filter_ext_in.
    intros a Ha. rewrite Forall_forall in H. specialize (H a Ha). destruct (turn_ge a H) as (Fa & Va & _). destruct H as [Fx _].
    unfold onTimeP. cbn [nlt nabs nlit FNum]. assert (FL : is_finite (flit 1 10) = true) by (vm_compute; reflexivity).
    rewrite !flt_ord, !ford_fin, Va by (auto using fin_nan). reflexivity. }
  unfold v. cbn [displayScheduleAlignment sv_bars]. rewrite EM. cbn [nmul ndiv nofZ FNum ntrunc].
  eexists. eexists. split.
  - rewrite E0. destruct (schedule_bar 0 m ltac:(lia) M) as (A & _ & B). rewrite Z.mul_0_r, Z.div_0_l in B by lia.
    assert (B0 : ftrunc (fmul (fofZ 0) (fdiv (fofZ 15) (fofZ m))) = 0%Z) by lia. rewrite B0. reflexivity.
  - intros k b Hb. assert (KB : (0 <= k <= m)%Z /\ b = ftrunc (fmul (fofZ k) (fdiv (fofZ 15) (fofZ m)))).
    { destruct Hb as [[-> ->]|[-> ->]]; split; auto. }
    destruct KB as [KB ->]. destruct (schedule_bar k m KB M) as (A & B & C). split; [|split; [exact C|exact B]].
    split; [exact A|]. eapply Z.le_trans; [apply C|]. apply Z.div_le_upper_bound; lia.
Qed.
(** Eleven jobs on time get a bar of fourteen cells. *)
Theorem C65_full_bar_refuted : exists agents : list (ASnap F), Forall (fun a => in_turn (an_phase a)) agents /\
  sv_onTime (@displayScheduleAlignment F NF agents) = lenZ agents /\ sv_bars (@displayScheduleAlignment F NF agents) = (0, 14, 0)%Z.
Proof.
  exists (repeat (mkASnap (fofZ 0) ""%string) 11). split; [|split; vm_compute; reflexivity].
  apply Forall_forall. intros a Ha. apply repeat_spec in Ha. subst. destruct (rep_Z 0 ltac:(lia)) as [A B].
  split; [exact A|]. cbn [an_phase]. rewrite B. fold f2pi. rewrite f2pi_val. pose proof r2pi_bounds. lra.
Qed.
(** A job that is 1/128 of a radian early is reported as late. *)
Theorem C65_early_is_late_refuted : exists a : ASnap F, in_turn (an_phase a) /\ Rabs (B2R (an_phase a) - B2R (fhalfpi 4)) <= 1 / 100 /\
  sv_late (@displayScheduleAlignment F NF [a]) = 1%Z.
Proof.
  set (hi := fsub f2pi (flit 1 128)).
  assert (SH : B2SF hi = SpecFloat.S754_finite false 7065441659006232 (-50)) by (vm_compute; reflexivity).
  apply B2R_of_B2SF in SH. destruct SH as [FH VH].
  assert (VH' : B2R hi = r2pi - / 128) by (rewrite VH; unfold r2pi, F2R; cbn [Fnum Fexp cond_Zopp]; change (bpow radix2 (-50)) with (/ 1125899906842624); lra).
  pose proof r2pi_bounds as Hr.
  exists (mkASnap hi ""%string). cbn [an_phase]. unfold in_turn. fold f2pi. rewrite f2pi_val, VH'.
  split; [split; [exact FH|lra]|]. split; [apply Rabs_le; lra|]. vm_compute. reflexivity.
Qed.
Example C65_applies : exists agents : list (ASnap F), agents <> [] /\ Forall (fun a => in_turn (an_phase a)) agents /\
  sv_bars (@displayScheduleAlignment F NF agents) = (0, 7, 15)%Z.
Proof.
  exists ([mkASnap (fofZ 0) ""%string] ++ repeat (mkASnap (fofZ 3) ""%string) 2). split; [discriminate|]. split; [|vm_compute; reflexivity].
  apply Forall_forall. intros a Ha. cbn in Ha. assert (exists k, an_phase a = fofZ k /\ (0 <= k <= 3)%Z) as (k & E & Hk).
  { destruct Ha as [<-|[<-|[<-|[]]]]; cbn [an_phase]; [exists 0%Z|exists 3%Z|exists 3%Z]; split; auto; lia. }
  destruct (rep_Z k ltac:(lia)) as [A B]. rewrite E.
  split; [exact A|]. rewrite B. fold f2pi. rewrite f2pi_val. pose proof r2pi_bounds. assert (0 <= IZR k <= 3) by (split; apply IZR_le; lia). lra.
Qed.

(** ** C66 *)
(** Every agent is healthy, degraded or failed; bars in twentieths rounded down; none is failed unless the
    system is disrupted; FULLY RESILIENT is shown exactly when it is not and no phase exceeds 1. *)
Theorem C66_health : forall disrupted (agents : list (ASnap F)), agents <> [] -> (lenZ agents <= 2 ^ 40)%Z ->
  let v := @displaySystemHealth F NF disrupted agents in
  let far t (a : ASnap F) := flt (fofZ t) (fabs (an_phase a)) in
  let f := howMany (fun a => disrupted && far 2%Z a) agents in
  let d := howMany (fun a => negb (disrupted && far 2%Z a) && far 1%Z a) agents in
  let h := howMany (fun a => negb (disrupted && far 2%Z a) && negb (far 1%Z a)) agents in
  let line k := (k, 20 * k / lenZ agents)%Z in
  (h + d + f = lenZ agents)%Z /\ (disrupted = false -> f = 0%Z) /\
  hv_healthy v = line h /\ hv_degraded v = (if (d =? 0)%Z then None else Some (line d)) /\ hv_failed v = (if (f =? 0)%Z then None else Some (line f)) /\
  (hv_status v = "FULLY RESILIENT"%string <-> disrupted = false /\ Forall (fun a => far 1%Z a = false) agents) /\
  (hv_status v = "RECOVERING"%string <-> disrupted = true).
Proof.
  intros ds agents Hne Hn v far f d h line. assert (Pn := lenZ_ne agents Hne).
  assert (Ef : count (@failedP F NF ds) agents = f) by (apply count_filter).
  assert (Ed : count (@degradedP F NF ds) agents = d) by (apply count_filter).
  assert (Eh : count (@healthyP F NF ds) agents = h) by (apply count_filter).
  assert (TOT : (h + d + f = lenZ agents)%Z).
  { rewrite <- Eh, <- Ed, <- Ef. apply count_split3. intros a _. unfold healthyP, degradedP. destruct (@failedP F NF ds a), (nabs (an_phase a) >? nofZ 1)%num; reflexivity. }
  assert (NN : (0 <= f /\ 0 <= d /\ 0 <= h)%Z) by (unfold f, d, h, howMany; lia).
  unfold v, displaySystemHealth. cbn [hv_healthy hv_degraded hv_failed hv_status]. rewrite Ef, Ed, Eh.
  split; [exact TOT|]. split.
  { intros ->. unfold f, howMany. rewrite <- count_filter. apply count_none. reflexivity. }
  split; [unfold line; now rewrite share_exact20 by lia|]. split.
  { destruct (Z.ltb_spec 0 d), (Z.eqb_spec d 0); try lia; [|reflexivity]. unfold line. now rewrite share_exact20 by lia. }
  split.
  { destruct (Z.ltb_spec 0 f), (Z.eqb_spec f 0); try lia; [|reflexivity]. unfold line. now rewrite share_exact20 by lia. }
  split.
  - destruct ds; [split; [discriminate|intros [X _]; discriminate X]|]. rewrite <- Eh. destruct (Z.eqb_spec (count (@healthyP F NF false) agents) (lenZ agents)) as [E|E].
    + split; [intros _|reflexivity]. split; [reflexivity|]. apply count_all in E. eapply Forall_impl; [|exact E]. intros a X. unfold healthyP, failedP in X. cbn [andb negb] in X.
      now apply negb_true_iff in X.
    + split; [discriminate|]. intros [_ X]. exfalso. apply E. apply count_all. eapply Forall_impl; [|exact X]. intros a Y. unfold healthyP, failedP. cbn [andb negb]. now apply negb_true_iff.
  - destruct ds; [split; auto|]. split; [|discriminate]. destruct (Z.eqb h (lenZ agents)); discriminate.
Qed.
(** A swarm in perfect agreement at phase 3 is reported as wholly degraded. *)
Theorem C66_agreement_refuted : exists agents : list (ASnap F), (forall a b, In a agents -> In b agents -> an_phase a = an_phase b) /\
  hv_healthy (@displaySystemHealth F NF false agents) = (0, 0)%Z /\ hv_degraded (@displaySystemHealth F NF false agents) = Some (10, 20)%Z.
Proof.
  exists (repeat (mkASnap (fofZ 3) ""%string) 10). split; [|split; vm_compute; reflexivity].
  intros a b Ha Hb. apply repeat_spec in Ha. apply repeat_spec in Hb. now subst.
Qed.
Example C66_applies : exists agents : list (ASnap F), agents <> [] /\ (lenZ agents <= 2 ^ 40)%Z /\
  hv_status (@displaySystemHealth F NF false agents) = "FULLY RESILIENT"%string.
Proof. exists (repeat (mkASnap (fofZ 1) ""%string) 4). split; [discriminate|]. split; [cbn; lia|]. vm_compute. reflexivity. Qed.
End S.
Print Assumptions C61_load.
Print Assumptions C61_never_balanced_refuted.
Print Assumptions C61_centred.
Print Assumptions C61_quarters.
Print Assumptions C61_panic_refuted.
Print Assumptions C62_vote.
Print Assumptions C62_consensus.
Print Assumptions C62_wraparound_refuted.
Print Assumptions C63_latency.
Print Assumptions C63_label.
Print Assumptions C63_wraparound_refuted.
Print Assumptions C64_energy.
Print Assumptions C64_traffic.
Print Assumptions C64_no_agents.
Print Assumptions C65_schedule.
Print Assumptions C65_full_bar_refuted.
Print Assumptions C65_early_is_late_refuted.
Print Assumptions C66_health.
Print Assumptions C66_agreement_refuted.
