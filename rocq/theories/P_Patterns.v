(** Property theorems C42 (pattern detection, completion, similarity). *)
From Coq Require Import ZArith Reals Psatz Bool List String Lia.
From Flocq Require Import Core.Core IEEE754.BinarySingleNaN.
From Verif Require Import Num F64 RealNum GoBase M_Core M_Patterns S_Circle S_Agent S_Sync
  L_F64 L_F64x L_Ford L_PhaseF L_Circle L_Pattern L_TrigZero P_Core P_Converge.
Import ListNotations.
Open Scope Z_scope.

(** ** Detect and Complete, any arithmetic *)
Section Any.
Context {T : Type} {N : Num T}.

(** A jump into position i (from i-1). *)
Definition jump (l : list T) (i : nat) : Prop :=
  exists a b, nth_error l i = Some a /\ nth_error l (S i) = Some b /\ nlt (nhalfpi 1) (nabs (PhaseDifference b a)) = true.

Lemma detect_spec freqs l : forall pre x, 
  match detectLoop freqs (Z.of_nat (List.length pre) + 1) x l with
  | None => exists i, (List.length pre <= i)%nat /\ jump (pre ++ x :: l) i /\ (List.length freqs <= i)%nat
  | Some gs => (forall i, (List.length pre <= i)%nat -> jump (pre ++ x :: l) i -> (i < List.length freqs)%nat) /\
      forall g, In g gs <-> exists i d, (List.length pre <= i)%nat /\ jump (pre ++ x :: l) i /\ nth_error freqs i = Some d /\
        g = mkMG (Z.of_nat i) (Z.of_nat i + 1) d
  end.
Proof.
  induction l as [|y l IH]; intros pre x; cbn [detectLoop].
  - assert (NJ : forall i, (List.length pre <= i)%nat -> ~ jump (pre ++ [x]) i).
    { intros i Hi (a & b & _ & E & _). assert (S i < List.length (pre ++ [x]))%nat by (apply nth_error_Some; congruence).
      rewrite app_length in H. cbn in H. lia. }
    split; [intros i Hi J; exfalso; eapply NJ; eauto|]. intros g. split; [intros []|]. intros (i & d & Hi & J & _). exfalso. eapply NJ; eauto.
  - specialize (IH (pre ++ [x]) y). rewrite app_length in IH. cbn [List.length] in IH.
    replace (Z.of_nat (List.length pre + 1) + 1) with (Z.of_nat (List.length pre) + 1 + 1) in IH by lia.
    rewrite <- app_assoc in IH. cbn [app] in IH.
    assert (N1 : nth_error (pre ++ x :: y :: l) (List.length pre) = Some x) by (rewrite nth_error_app2, Nat.sub_diag by lia; reflexivity).
    assert (N2 : nth_error (pre ++ x :: y :: l) (S (List.length pre)) = Some y).
    { rewrite nth_error_app2 by lia. replace (S (List.length pre) - List.length pre)%nat with 1%nat by lia. reflexivity. }
    assert (JH : jump (pre ++ x :: y :: l) (List.length pre) <-> nlt (nhalfpi 1) (nabs (PhaseDifference y x)) = true).
    { split; [|intros J; exists x, y; auto]. intros (a & b & E1 & E2 & J). congruence. }
    destruct (nlt (nhalfpi 1) (nabs (PhaseDifference y x))) eqn:J.
    + unfold nthZ at 1. replace (Z.of_nat (List.length pre) + 1 - 1) with (Z.of_nat (List.length pre)) by lia.
      destruct (Z.ltb_spec (Z.of_nat (List.length pre)) 0); [lia|]. rewrite Nat2Z.id.
      destruct (nth_error freqs (List.length pre)) as [d|] eqn:E.
      * destruct (detectLoop freqs _ y l) as [gs|].
        -- destruct IH as [B G]. assert (LF : (List.length pre < List.length freqs)%nat) by (apply nth_error_Some; congruence). split.
           ++ intros i Hi Ji. destruct (Nat.eq_dec i (List.length pre)) as [->|NE]; auto. apply B; auto. lia.
           ++ intros g. cbn [In]. rewrite G. split.
              ** intros [<-|(i & d' & Hi & Ji & Ei & Eg)]; [|exists i, d'; split; [lia|auto]]. exists (List.length pre), d. 
                 split; [lia|]. split; [now apply JH|]. auto.
              ** intros (i & d' & Hi & Ji & Ei & Eg). destruct (Nat.eq_dec i (List.length pre)) as [->|NE].
                 --- left. rewrite Eg. congruence.
                 --- right. exists i, d'. split; [lia|auto].
        -- destruct IH as (i & Hi & Ji & Li). exists i. split; [lia|auto].
      * exists (List.length pre). split; [lia|]. split; [now apply JH|]. now apply nth_error_None.
    + destruct (detectLoop freqs _ y l) as [gs|].
      * destruct IH as [B G]. split.
        -- intros i Hi Ji. destruct (Nat.eq_dec i (List.length pre)) as [->|NE]; [apply JH in Ji; congruence|]. apply B; auto. lia.
        -- intros g. rewrite G. split; intros (i & d' & Hi & Ji & Ei & Eg).
           ++ exists i, d'. split; [lia|auto].
           ++ destruct (Nat.eq_dec i (List.length pre)) as [->|NE]; [apply JH in Ji; congruence|]. exists i, d'. split; [lia|auto].
      * destruct IH as (i & Hi & Ji & Li). exists i. split; [lia|auto].
Qed.

(** Detect panics exactly when some jump has no frequency at its start. *)
Theorem C42_detect_panics_iff : forall p : MPattern T, Detect p = None <-> exists i, jump (mp_phases p) i /\ (List.length (mp_freqs p) <= i)%nat.
Proof.
  intros p. unfold Detect. destruct (mp_phases p) as [|x l].
  - split; [discriminate|]. intros (i & (a & b & E & _) & _). destruct i; discriminate.
  - pose proof (detect_spec (mp_freqs p) l [] x) as D. cbn [List.length app] in D. change (Z.of_nat 0 + 1) with 1 in D.
    destruct (detectLoop (mp_freqs p) 1 x l) as [gs|].
    + destruct D as [B _]. split; [discriminate|]. intros (i & J & L). specialize (B i ltac:(lia) J). lia.
    + destruct D as (i & _ & J & L). split; eauto.
Qed.
(** In particular never when there is a frequency for every phase but the last. *)
Theorem C42_detect_no_panic : forall p : MPattern T, (List.length (mp_phases p) <= S (List.length (mp_freqs p)))%nat -> exists gs, Detect p = Some gs.
Proof.
  intros p L. destruct (Detect p) as [gs|] eqn:E; [eauto|]. exfalso. apply C42_detect_panics_iff in E. destruct E as (i & (a & b & _ & E & _) & Li).
  assert (S i < List.length (mp_phases p))%nat by (apply nth_error_Some; congruence). lia.
Qed.
(** It reports exactly the jumps, with the frequency at the start of each as duration. *)
Theorem C42_detect_exact : forall (p : MPattern T) gs, Detect p = Some gs -> forall g, In g gs <->
  exists i d, jump (mp_phases p) i /\ nth_error (mp_freqs p) i = Some d /\ g = mkMG (Z.of_nat i) (Z.of_nat i + 1) d.
Proof.
  intros p gs E g. unfold Detect in E. destruct (mp_phases p) as [|x l].
  - injection E as <-. split; [intros []|]. intros (i & d & (a & b & H & _) & _). destruct i; discriminate.
  - pose proof (detect_spec (mp_freqs p) l [] x) as D. cbn [List.length app] in D. change (Z.of_nat 0 + 1) with 1 in D. rewrite E in D.
    destruct D as [_ G]. rewrite G. split; intros (i & d & H).
    + exists i, d. tauto. + exists i, d. split; [lia|tauto].
Qed.

Lemma nthZ_some {A} (l : list A) i : 0 <= i < Z.of_nat (List.length l) -> exists x, nthZ l i = Some x.
Proof.
  intros H. unfold nthZ. destruct (Z.ltb_spec i 0); [lia|]. destruct (nth_error l (Z.to_nat i)) eqn:E; [eauto|].
  apply nth_error_None in E. lia.
Qed.
(** Complete never panics, whatever the gap. *)
Theorem C42_complete_no_panic : forall (p : MPattern T) g, exists r, Complete p g = Some r.
Proof.
  intros p g. unfold Complete. destruct ((mg_start g <? 0) || _ || _)%bool eqn:B; [eauto|].
  rewrite !orb_false_iff, Z.ltb_ge, !Z.leb_gt in B. destruct B as [[B1 B2] B3].
  destruct (nthZ_some (mp_phases p) (mg_start g) ltac:(lia)) as [a ->]. destruct (nthZ_some (mp_phases p) (mg_end g) ltac:(lia)) as [b ->].
  cbv zeta. destruct (_ <=? 0); eauto.
Qed.
(** REFUTED: no gap reported by Detect is ever filled: Complete returns an empty list for each of them. *)
Theorem C42_gap_filled_refuted : forall (p : MPattern T) gs g, Detect p = Some gs -> In g gs -> Complete p g = Some (Some []).
Proof.
  intros p gs g D I. apply (C42_detect_exact p gs D) in I. destruct I as (i & d & (a & b & E1 & E2 & _) & _ & ->).
  assert (S i < List.length (mp_phases p))%nat by (apply nth_error_Some; congruence).
  unfold Complete. cbn [mg_start mg_end].
  destruct (Z.ltb_spec (Z.of_nat i) 0); [lia|]. destruct (Z.leb_spec (Z.of_nat (List.length (mp_phases p))) (Z.of_nat i + 1)); [lia|].
  destruct (Z.leb_spec (Z.of_nat i + 1) (Z.of_nat i)); [lia|]. cbn [orb].
  destruct (nthZ_some (mp_phases p) (Z.of_nat i) ltac:(lia)) as [u ->]. destruct (nthZ_some (mp_phases p) (Z.of_nat i + 1) ltac:(lia)) as [v ->].
  cbv zeta. destruct (Z.leb_spec (Z.of_nat i + 1 - Z.of_nat i - 1) 0); [reflexivity|lia].
Qed.
End Any.

(** ** Exact arithmetic: jumps are arcs longer than a quarter turn; completion is linear along the arc. *)
Theorem C42_jump_is_arc : forall (l : list R) i a b d, nth_error l i = Some a -> nth_error l (S i) = Some b -> is_arc b a d ->
  (jump l i -> (PI / 2 < d)%R) /\ ((PI / 2 + 2 / 10000000000 < d)%R -> jump l i) /\ (~ pd_special b a -> (PI / 2 < d)%R -> jump l i).
Proof.
  intros l i a b d Ea Eb A.
  assert (J : jump l i <-> (PI / 2 < Rabs (RPD b a))%R).
  { split.
    - intros (a' & b' & E1 & E2 & J). assert (a' = a) by congruence. assert (b' = b) by congruence. subst. cbn [nlt nabs nhalfpi RNum] in J.
      destruct (Rlt_bool_spec (IZR 1 * PI / 2) (Rabs (RPD b a))); [lra|discriminate].
    - intros L. exists a, b. split; [assumption|]. split; [assumption|]. cbn [nlt nabs nhalfpi RNum]. apply Rlt_bool_true. lra. }
  pose proof PI_RGT_0. split; [|split].
  - intros H0. apply J in H0. destruct (RPD_arc b a d A) as [E|[E _]]; rewrite E in H0; lra.
  - intros H0. apply J. pose proof (C02_phase_difference_magnitude b a d A) as M. apply Rabs_le_inv in M. lra.
  - intros NS H0. apply J. destruct (RPD_spec b a NS) as (_ & _ & A'). now rewrite (is_arc_unique _ _ _ _ A' A).
Qed.
Theorem C42_complete_interpolates : forall (p : MPattern R) s e a b, 0 <= s -> s < e < Z.of_nat (List.length (mp_phases p)) ->
  nthZ (mp_phases p) s = Some a -> nthZ (mp_phases p) e = Some b -> ~ pd_special b a -> 
  exists l d, Complete p (mkMG s e 0) = Some (Some l) /\ Z.of_nat (List.length l) = e - s - 1 /\
    (- PI < d <= PI)%R /\ cong (a + d) b /\
    forall k x, nth_error l k = Some x -> (0 <= x < 2 * PI)%R /\ cong x (a + d * (INR (S k) / IZR (e - s)))%R.
Proof.
  intros p s e a b Hs He Ea Eb NS. unfold Complete. cbn [mg_start mg_end].
  destruct (Z.ltb_spec s 0); [lia|]. destruct (Z.leb_spec (Z.of_nat (List.length (mp_phases p))) e); [lia|]. destruct (Z.leb_spec e s); [lia|].
  cbn [orb]. rewrite Ea, Eb. cbv zeta.
  set (d := @PhaseDifference R RNum b a).
  destruct (RPD_spec b a NS) as (RG & CD & _). fold d in CD, RG.
  destruct (Z.leb_spec (e - s - 1) 0).
  - exists [], d. split; [reflexivity|]. split; [cbn; lia|]. split; [exact RG|]. split; [exact CD|]. intros [|k] x E; discriminate.
  - eexists _, d. split; [reflexivity|]. split; [rewrite map_length, seq_length; lia|]. split; [exact RG|]. split; [exact CD|].
    intros k x E. rewrite nth_error_map in E. destruct (nth_error (seq 0 (Z.to_nat (e - s - 1))) k) as [j|] eqn:EJ; [|discriminate].
    assert (j = k).
    { assert (LT : (k < Z.to_nat (e - s - 1))%nat) by (rewrite <- (seq_length (Z.to_nat (e - s - 1)) 0); apply nth_error_Some; congruence).
      apply (nth_error_nth _ _ 0%nat) in EJ. rewrite seq_nth in EJ by auto. lia. }
    subst j. set (z := (a + d * (IZR (Z.of_nat k + 1) / IZR (e - s - 1 + 1)))%R). assert (X : x = @WrapPhase R RNum z) by (now injection E).
    clear E. subst x. destruct (RWrap_spec z) as [R1 R2]. split; [exact R1|]. eapply cong_trans; [exact R2|]. replace z with (a + d * (INR (S k) / IZR (e - s)))%R; [apply cong_refl|]. unfold z.
    rewrite INR_IZR_INZ. replace (Z.of_nat (S k)) with (Z.of_nat k + 1) by lia. replace (e - s - 1 + 1) with (e - s) by lia. reflexivity.
Qed.
Lemma jump_0_PI fr : jump (mp_phases (@NewMPattern R RNum [0%R; PI] fr)) 0.
Proof.
  pose proof PI_RGT_0. pose proof PI2_3_2 as H32. unfold PI2 in H32.
  assert (A : is_arc PI 0 PI).
  { rewrite <- (Rabs_pos_eq PI) at 2 by lra. apply is_arc_of_rep; [lra|]. replace (PI - 0)%R with PI by ring. apply cong_refl. }
  apply (proj1 (proj2 (C42_jump_is_arc [0%R; PI] 0 0%R PI PI eq_refl eq_refl A))). lra.
Qed.
(** REFUTED: Detect panics for the pattern that NewTargetPattern builds from the phases 0 and pi without frequencies. *)
Theorem C42_detect_panics_refuted : Detect (@NewMPattern R RNum [0%R; PI] []) = None.
Proof. apply C42_detect_panics_iff. exists 0%nat. split; [apply jump_0_PI|cbn; lia]. Qed.
Example C42_gap_example : exists gs, Detect (@NewMPattern R RNum [0%R; PI] [5]) = Some gs /\ gs <> [].
Proof.
  destruct (C42_detect_no_panic (@NewMPattern R RNum [0%R; PI] [5]) ltac:(cbn; lia)) as [gs E]. exists gs. split; auto. intros ->.
  pose proof (proj2 (C42_detect_exact _ _ E (mkMG 0 1 5)) (ex_intro _ 0%nat (ex_intro _ 5 (conj (jump_0_PI [5]) (conj eq_refl eq_refl))))) as I. destruct I.
Qed.
Example C42_complete_example : exists l, Complete (@NewMPattern R RNum [0%R; 5%R; 1%R] []) (mkMG 0 2 0) = Some (Some l) /\ l <> [].
Proof.
  destruct (C42_complete_interpolates (@NewMPattern R RNum [0%R; 5%R; 1%R] []) 0 2 0%R 1%R) as (l & d & E & L & _); try (cbn; lia); auto.
  - pose proof PI2_3_2 as H32. unfold PI2 in H32. intros [[A _]|[A _]]; apply Rabs_def2 in A; lra.
  - exists l. split; auto. intros ->. cbn in L. lia.
Qed.

(** ** Floating point: the range of Similarity *)
Section Floats.
Variable tr : Trig.
Local Instance NF : Num F := FNum tr.

Lemma fofZ_int64 z : (Z.abs z <= 2 ^ 63)%Z -> is_finite (fofZ z) = true /\ B2R (fofZ z) = rnd (IZR z).
Proof.
  intros Hz. unfold fofZ. pose proof (binary_normalize_correct 53 1024 _ _ mode_NE z 0 false) as H. cbv zeta in H.
  replace (F2R {| Fnum := z; Fexp := 0 |}) with (IZR z) in H by (unfold F2R; simpl; ring).
  change (round radix2 (SpecFloat.fexp 53 1024) (round_mode mode_NE) (IZR z)) with (rnd (IZR z)) in H.
  assert (B : (Rabs (rnd (IZR z)) <= IZR (2 ^ 63))%R).
  { assert (FF : fmt (IZR (2 ^ 63))).
    { replace (IZR (2 ^ 63)) with (F2R (Float radix2 1 63)) by (unfold F2R; cbn [Fnum Fexp]; rewrite Rmult_1_l; symmetry; exact (IZR_Zpower radix2 63 ltac:(lia))).
      apply fmt_F2R; lia. }
    assert (- IZR (2 ^ 63) <= IZR z <= IZR (2 ^ 63))%R by (split; [rewrite <- opp_IZR|]; apply IZR_le; lia).
    apply Rabs_le. split; [apply rnd_ge_fmt; [now apply fmt_opp|lra]|apply rnd_le_fmt; [assumption|lra]]. }
  rewrite Rlt_bool_true in H.
  - destruct H as (A & C & _). split; assumption.
  - eapply Rle_lt_trans; [exact B|]. change (IZR (2 ^ 63)) with (IZR (Zpower radix2 63)). rewrite (IZR_Zpower radix2) by lia. apply bpow_lt. lia.
Qed.
Lemma fofZ_pos z : (0 < z <= 2 ^ 63)%Z -> is_finite (fofZ z) = true /\ (1 <= B2R (fofZ z))%R.
Proof.
  intros Hz. destruct (fofZ_int64 z ltac:(lia)) as [A B]. split; auto. rewrite B. apply rnd_ge_fmt; [apply (fmt_IZR 1); lia|]. apply IZR_le; lia.
Qed.
Lemma one_fin : is_finite (fofZ 1) = true /\ B2R (fofZ 1) = 1%R.
Proof. apply (fofZ_fin 1). lia. Qed.
Lemma unit_compl x : fle (fofZ 0) x = true -> in_unit (fsub (fofZ 1) (fmin x (fofZ 1))).
Proof.
  intros H. apply fle_true in H. destruct H as (_ & NX & P). rewrite ford_fofZ in P by lia.
  destruct (fmin_cases x (fofZ 1) NX (fofZ_nan 1)) as [NM VM]. rewrite ford_fofZ in VM by lia.
  assert (B : (0 <= ford (fmin x (fofZ 1)) <= 1)%R). { rewrite VM. split; [apply Rmin_glb; lra|apply Rmin_r]. }
  assert (FM : is_finite (fmin x (fofZ 1)) = true). { apply ford_fin_inv; auto. pose proof BIG_ge_1000. lra. }
  rewrite ford_fin in B by assumption. destruct one_fin as [F1 V1].
  destruct (fsub_fin (fofZ 1) (fmin x (fofZ 1)) F1 FM) as [FS VS].
  - rewrite V1. pose proof bpow1023_big. apply Rabs_le. lra.
  - split; auto. rewrite VS, V1. split; [apply rnd_ge_0; lra|apply rnd_le_fmt; [apply (fmt_IZR 1); lia|lra]].
Qed.
Lemma unit_mul x y : in_unit x -> in_unit y -> in_unit (fmul x y).
Proof.
  intros [Fx Bx] [Fy By]. pose proof bpow1023_big. destruct (fmul_fin x y Fx Fy) as [FM VM].
  - apply Rabs_le. nra.
  - split; auto. rewrite VM. split; [apply rnd_ge_0; nra|apply rnd_le_fmt; [apply (fmt_IZR 1); lia|nra]].
Qed.
Lemma unit_div x y : is_finite x = true -> is_finite y = true -> (0 <= B2R x <= B2R y)%R -> (0 < B2R y)%R -> in_unit (fdiv x y).
Proof.
  intros Fx Fy B P. assert (Q : (0 <= B2R x / B2R y <= 1)%R).
  { split; [apply Rle_div_r; lra|apply Rle_div_l; lra]. }
  pose proof bpow1023_big. destruct (fdiv_fin x y Fx Fy ltac:(lra)) as [FD VD]; [apply Rabs_le; lra|].
  split; auto. rewrite VD. split; [apply rnd_ge_0; lra|apply rnd_le_fmt; [apply (fmt_IZR 1); lia|lra]].
Qed.
(** |PhaseDifference| is at most pi. *)
Lemma pd_float a b : trig_sane tr -> is_finite a = true -> is_finite b = true -> (Rabs (B2R a) <= bpow radix2 1022)%R -> (Rabs (B2R b) <= bpow radix2 1022)%R ->
  is_finite (@PhaseDifference F NF a b) = true /\ (Rabs (B2R (@PhaseDifference F NF a b)) <= B2R (fhalfpi 2))%R.
Proof.
  intros TS Fa Fb Ba Bb. unfold PhaseDifference.
  change (@nsub F NF) with fsub. change (@natan2 F NF) with (tatan2 tr). change (@nsin F NF) with (tsin tr). change (@ncos F NF) with (tcos tr). change (@nhalfpi F NF) with fhalfpi.
  assert (FD : is_finite (fsub a b) = true).
  { apply fsub_fin; auto. replace (bpow radix2 1023) with (bpow radix2 1022 + bpow radix2 1022)%R.
    - unfold Rminus. eapply Rle_trans; [apply Rabs_triang|]. rewrite Rabs_Ropp. lra.
    - change 1023%Z with (1 + 1022)%Z. rewrite bpow_plus. change (bpow radix2 1) with 2%R. ring. }
  assert (HH : forall s, s = 1%Z \/ s = (-1)%Z -> is_finite (fhalfpi s) = true /\ (Rabs (B2R (fhalfpi s)) <= B2R (fhalfpi 2))%R).
  { intros s [-> | ->]; (split; [vm_compute; reflexivity|]).
    - assert (L : fle (fhalfpi 1) (fhalfpi 2) = true) by (vm_compute; reflexivity). assert (P : fle (fofZ 0) (fhalfpi 1) = true) by (vm_compute; reflexivity).
      apply fle_true in L, P. rewrite !ford_fin in L, P by (vm_compute; reflexivity). rewrite (proj2 (fofZ_fin 0 ltac:(lia))) in P. rewrite Rabs_pos_eq; tauto.
    - assert (L : fle (fneg (fhalfpi (-1))) (fhalfpi 2) = true) by (vm_compute; reflexivity). assert (P : fle (fhalfpi (-1)) (fofZ 0) = true) by (vm_compute; reflexivity).
      apply fle_true in L, P. rewrite !ford_fin in L, P by (vm_compute; reflexivity). rewrite (proj2 (fofZ_fin 0 ltac:(lia))) in P.
      unfold fneg in L. rewrite B2R_Bopp in L. rewrite Rabs_left1; tauto. }
  destruct (_ && _)%bool; [apply HH; auto|]. destruct (_ && _)%bool; [apply HH; auto|].
  apply (sane_atan2 _ TS); [apply (sane_sin _ TS); auto|apply (sane_cos _ TS); auto].
Qed.
(** A phase list that the theorems cover: finite numbers below 2^1022 in magnitude. *)
Definition moderate (x : F) : Prop := is_finite x = true /\ (Rabs (B2R x) <= bpow radix2 1022)%R.

Lemma term_unit a b : trig_sane tr -> moderate a -> moderate b -> in_unit (fsub (fofZ 1) (fdiv (fabs (@PhaseDifference F NF a b)) (fhalfpi 2))).
Proof.
  intros TS [Fa Ba] [Fb Bb]. destruct (pd_float a b TS Fa Fb Ba Bb) as [FP BP]. destruct (fabs_fin _ FP) as [FA VA]. destruct fpi_pos as (F2 & P2 & _).
  destruct (unit_div (fabs (@PhaseDifference F NF a b)) (fhalfpi 2) FA F2) as [FD BD].
  - rewrite VA. split; [apply Rabs_pos|exact BP]. - exact P2.
  - destruct one_fin as [F1 V1]. pose proof bpow1023_big. destruct (fsub_fin _ _ F1 FD) as [FS VS]; [rewrite V1; apply Rabs_le; lra|].
    split; auto. rewrite VS, V1. split; [apply rnd_ge_0; lra|apply rnd_le_fmt; [apply (fmt_IZR 1); lia|lra]].
Qed.
Lemma unit_sum l : forall s k, Forall in_unit l -> (0 <= k)%Z -> (k + Z.of_nat (List.length l) <= 2 ^ 53)%Z -> is_finite s = true -> (0 <= B2R s <= IZR k)%R ->
  is_finite (fold_left fadd l s) = true /\ (0 <= B2R (fold_left fadd l s) <= IZR (k + Z.of_nat (List.length l)))%R.
Proof.
  induction l as [|x l IH]; intros s k HL K0 K Fs Bs; cbn [fold_left List.length] in *.
  - rewrite Z.add_0_r. auto.
  - inversion HL as [|? ? [Fx Bx] HL']; subst. rewrite Nat2Z.inj_succ in K.
    assert (KB : (IZR (k + 1) <= bpow radix2 1023)%R). { apply Rle_trans with (IZR (2 ^ 53)); [apply IZR_le; lia|apply bpow1023_ge; lia]. }
    rewrite plus_IZR in KB. destruct (fadd_fin s x Fs Fx) as [FA VA]; [apply Rabs_le; lra|].
    specialize (IH (fadd s x) (k + 1)%Z HL' ltac:(lia) ltac:(lia) FA).
    replace (k + Z.of_nat (S (List.length l)))%Z with (k + 1 + Z.of_nat (List.length l))%Z by lia. apply IH. rewrite VA. split; [apply rnd_ge_0; lra|].
    apply rnd_le_fmt; [apply fmt_IZR; lia|rewrite plus_IZR; lra].
Qed.
Lemma corr_unit l1 l2 : trig_sane tr -> Forall moderate l1 -> Forall moderate l2 -> (Z.of_nat (List.length l1) <= 2 ^ 53)%Z -> in_unit (@phaseCorrelation F NF l1 l2).
Proof.
  intros TS H1 H2 L. assert (Z0 : in_unit (@n0 F NF)).
  { change (@n0 F NF) with (fofZ 0). destruct (fofZ_fin 0 ltac:(lia)) as [A B]. split; auto. rewrite B. lra. }
  unfold phaseCorrelation. destruct (Nat.eqb_spec (List.length l1) (List.length l2)) as [E|E]; [|exact Z0]. cbn [negb].
  destruct l1 as [|x l1]; [exact Z0|]. remember (x :: l1) as l. assert (LP : (1 <= Z.of_nat (List.length l))%Z) by (subst; cbn [List.length]; lia). clear Heql x l1.
  unfold nsum. change (@nadd F NF) with fadd. change (@n0 F NF) with (fofZ 0). change (@ndiv F NF) with fdiv. change (@nofZ F NF) with fofZ.
  set (ts := map _ (combine l l2)). assert (TL : List.length ts = List.length l) by (unfold ts; rewrite map_length, combine_length; lia).
  assert (TU : Forall in_unit ts).
  { apply Forall_forall. intros t I. apply in_map_iff in I. destruct I as ([a b] & <- & I). rewrite Forall_forall in H1, H2.
    apply (term_unit a b TS); [apply H1; eapply in_combine_l; eauto|apply H2; eapply in_combine_r; eauto]. }
  destruct (fofZ_fin 0 ltac:(lia)) as [F0 V0]. destruct (unit_sum ts (fofZ 0) 0 TU ltac:(lia) ltac:(lia) F0 ltac:(rewrite V0; lra)) as [FS BS].
  destruct (fofZ_fin (Z.of_nat (List.length l)) ltac:(lia)) as [FN VN].
  apply unit_div; auto; rewrite VN; [|apply (IZR_lt 0); lia]. rewrite TL in BS. exact BS.
Qed.
Lemma maxAbs_fin l : forall m, Forall moderate l -> moderate m -> (0 <= B2R m)%R -> 
  moderate (fold_left (fun m x => fmax m (fabs x)) l m) /\ (0 <= B2R (fold_left (fun m x => fmax m (fabs x)) l m))%R.
Proof.
  induction l as [|x l IH]; intros m HL [Fm Bm] Pm; cbn [fold_left]; [split; [split|]; assumption|].
  inversion HL as [|? ? [Fx Bx] HL']; subst. destruct (fabs_fin x Fx) as [FA VA].
  destruct (fmax_cases m (fabs x) (fin_nan _ Fm) (fin_nan _ FA)) as [NM VM]. rewrite !(ford_fin m), !(ford_fin (fabs x)), VA in VM by assumption.
  assert (Q : (0 <= ford (fmax m (fabs x)) <= bpow radix2 1022)%R).
  { rewrite VM. rewrite Rabs_pos_eq in Bm by assumption. split; [eapply Rle_trans; [exact Pm|apply Rmax_l]|apply Rmax_lub; auto]. }
  assert (FM : is_finite (fmax m (fabs x)) = true).
  { apply ford_fin_inv; auto. pose proof BIG_pos. assert (bpow radix2 1022 < BIG)%R by (apply bpow_lt; lia). lra. }
  rewrite ford_fin in Q by assumption. apply IH; auto; [|tauto]. split; auto. rewrite Rabs_pos_eq; tauto.
Qed.
Lemma scale_unit l1 l2 : Forall moderate l1 -> Forall moderate l2 -> in_unit (@scaleFactor F NF l1 l2).
Proof.
  intros H1 H2. destruct one_fin as [F1 V1]. assert (U1 : in_unit (@n1 F NF)).
  { change (@n1 F NF) with (fofZ 1). split; auto. rewrite V1. lra. }
  unfold scaleFactor. destruct (_ =? _)%nat; [|exact U1]. cbv zeta. change (@nlt F NF) with flt. change (@n0 F NF) with (fofZ 0).
  destruct (flt (fofZ 0) (maxAbs l1)) eqn:P1; [|exact U1]. destruct (flt (fofZ 0) (maxAbs l2)) eqn:P2; [|exact U1]. cbn [andb].
  assert (M0 : moderate (fofZ 0)). { destruct (fofZ_fin 0 ltac:(lia)) as [A B]. split; auto. rewrite B, Rabs_R0. left. apply bpow_gt_0. }
  assert (Z0 : (0 <= B2R (fofZ 0))%R) by (rewrite (proj2 (fofZ_fin 0 ltac:(lia))); lra).
  destruct (maxAbs_fin l1 (fofZ 0) H1 M0 Z0) as [[FA _] _]. destruct (maxAbs_fin l2 (fofZ 0) H2 M0 Z0) as [[FB _] _].
  change (fold_left (fun m x => fmax m (fabs x)) l1 (fofZ 0)) with (@maxAbs F NF l1) in FA. change (fold_left (fun m x => fmax m (fabs x)) l2 (fofZ 0)) with (@maxAbs F NF l2) in FB.
  revert P1 P2 FA FB. generalize (@maxAbs F NF l1) as A. generalize (@maxAbs F NF l2) as B. intros B A P1 P2 FA FB.
  apply flt_true in P1, P2. destruct P1 as (_ & _ & P1), P2 as (_ & _ & P2). rewrite ford_fofZ, ford_fin in P1, P2 by (auto; lia).
  change (@ndiv F NF) with fdiv. change (@nmax F NF) with fmax. change (@nmin F NF) with fmin. change (@nofZ F NF) with fofZ. change (@n1 F NF) with (fofZ 1).
  destruct (fdiv_ord A B FA FB ltac:(lra)) as [N1 _]. destruct (fdiv_ord B A FB FA ltac:(lra)) as [N2 _].
  destruct (fmax_cases _ _ N1 N2) as [NR _]. set (r := fmax (fdiv A B) (fdiv B A)) in *.
  destruct (flt (fofZ 100) r) eqn:G; [|exact U1]. apply flt_le in G.
  destruct (fofZ_fin 100 ltac:(lia)) as [F100 V100].
  pose proof (fdiv_mono _ _ (fofZ 100) G F100 ltac:(rewrite V100; lra)) as D.
  assert (D1 : fle (fofZ 1) (fdiv r (fofZ 100)) = true) by (eapply fle_trans; [|exact D]; vm_compute; reflexivity).
  apply fle_true in D1. destruct D1 as (_ & ND & D1). rewrite ford_fofZ in D1 by lia.
  destruct (fmin_cases _ (fofZ 10) ND (fofZ_nan 10)) as [NM VM]. rewrite (ford_fofZ 10) in VM by lia. set (m := fmin (fdiv r (fofZ 100)) (fofZ 10)) in *.
  assert (BM : (1 <= ford m <= 10)%R). { rewrite VM. split; [apply Rmin_glb; lra|apply Rmin_r]. }
  assert (FM : is_finite m = true). { apply ford_fin_inv; auto. pose proof BIG_ge_1000. lra. }
  rewrite ford_fin in BM by assumption. apply unit_div; auto; [rewrite V1|]; lra.
Qed.
Lemma weights : forall a b c, in_unit a -> in_unit b -> in_unit c -> in_unit (fadd (fadd (fmul a (flit 3 10)) (fmul b (flit 3 10))) (fmul c (flit 4 10))).
Proof.
  assert (W : forall n x, in_unit x -> n = 3%Z \/ n = 4%Z -> is_finite (fmul x (flit n 10)) = true /\ (0 <= B2R (fmul x (flit n 10)) <= B2R (flit n 10))%R).
  { intros n x [Fx Bx] Hn. destruct (flit_fin n 10 ltac:(lia) ltac:(lia)) as [FL VL].
    assert (BL : (0 <= B2R (flit n 10) <= 1)%R).
    { rewrite VL. assert (0 <= IZR n / IZR 10 <= 1)%R by (destruct Hn as [-> | ->]; lra). split; [apply rnd_ge_0; lra|apply rnd_le_fmt; [apply (fmt_IZR 1); lia|lra]]. }
    pose proof bpow1023_big. destruct (fmul_fin x _ Fx FL) as [FM VM]; [apply Rabs_le; nra|]. split; auto. rewrite VM.
    split; [apply rnd_ge_0; nra|apply rnd_le_fmt; [apply fmt_B2R|nra]]. }
  intros a b c Ha Hb Hc. destruct (W 3%Z a Ha ltac:(lia)) as [FA BA]. destruct (W 3%Z b Hb ltac:(lia)) as [FB BB]. destruct (W 4%Z c Hc ltac:(lia)) as [FC BC].
  assert (T3 : (B2R (flit 3 10) <= 1)%R). { destruct (flit_fin 3 10 ltac:(lia) ltac:(lia)) as [_ ->]. apply rnd_le_fmt; [apply (fmt_IZR 1); lia|lra]. }
  assert (T4 : (B2R (flit 4 10) <= 1)%R). { destruct (flit_fin 4 10 ltac:(lia) ltac:(lia)) as [_ ->]. apply rnd_le_fmt; [apply (fmt_IZR 1); lia|lra]. }
  destruct (flit_fin 3 10 ltac:(lia) ltac:(lia)) as [F3 _]. destruct (flit_fin 4 10 ltac:(lia) ltac:(lia)) as [F4 _].
  pose proof bpow1023_big. destruct (fadd_fin _ _ FA FB) as [F6 V6]; [apply Rabs_le; lra|].
  destruct (fadd_fin _ _ F3 F3) as [F66 V66]; [apply Rabs_le; lra|].
  assert (B6 : (0 <= B2R (fadd (fmul a (flit 3 10)) (fmul b (flit 3 10))) <= B2R (fadd (flit 3 10) (flit 3 10)))%R).
  { rewrite V6, V66. split; [apply rnd_ge_0; lra|apply rnd_le; lra]. }
  assert (T6 : (B2R (fadd (flit 3 10) (flit 3 10)) <= 2)%R). { rewrite V66. apply rnd_le_fmt; [apply (fmt_IZR 2); lia|lra]. }
  destruct (fadd_fin _ _ F66 F4) as [F10 V10]; [apply Rabs_le; lra|].
  destruct (fadd_fin _ _ F6 FC) as [FR VR]; [apply Rabs_le; lra|]. split; auto. rewrite VR. split; [apply rnd_ge_0; lra|].
  apply Rle_trans with (B2R (fadd (fadd (flit 3 10) (flit 3 10)) (flit 4 10))); [rewrite V10; apply rnd_le; lra|].
  assert (L : fle (fadd (fadd (flit 3 10) (flit 3 10)) (flit 4 10)) (fofZ 1) = true) by (vm_compute; reflexivity).
  apply fle_true in L. destruct L as (_ & _ & L). rewrite ford_fin in L by exact F10. rewrite ford_fofZ in L by lia. exact L.
Qed.
Lemma amp_sim a b : is_finite a = true -> is_finite b = true -> (0 <= B2R a)%R -> (0 <= B2R b)%R -> (0 < B2R a \/ 0 < B2R b)%R ->
  in_unit (fsub (fofZ 1) (fmin (fdiv (fabs (fsub a b)) (fmax a b)) (fofZ 1))).
Proof.
  intros Fa Fb Pa Pb P. apply unit_compl. destruct (fmax_cases a b (fin_nan _ Fa) (fin_nan _ Fb)) as [NM VM]. rewrite (ford_fin a Fa), (ford_fin b Fb) in VM.
  assert (FM : is_finite (fmax a b) = true).
  { apply ford_fin_inv; auto. rewrite VM. pose proof (B2R_lt_BIG a). pose proof (B2R_lt_BIG b). unfold Rmax. destruct (Rle_dec _ _); lra. }
  pose proof (Rmax_l (B2R a) (B2R b)). pose proof (Rmax_r (B2R a) (B2R b)). rewrite (ford_fin _ FM) in VM.
  apply fdiv_nonneg; [|assumption|rewrite VM; destruct P; lra].
  destruct (fsub_ord a b Fa Fb) as [NS _]. apply fle_true. split; [reflexivity|]. rewrite ford_fofZ by lia.
  revert NS. generalize (fsub a b). intros x NS. unfold fabs. destruct x as [s|s| |s m e He]; [| |discriminate NS|]; (split; [reflexivity|]).
  - apply Rle_refl. - left. exact BIG_pos. - cbn. apply F2R_ge_0. cbn. lia.
Qed.
(** The similarity of two patterns is in [0,1] when the phases are finite and moderate, the amplitudes finite and not
    negative, and at least one amplitude and one period is positive. *)
Theorem C42_similarity_range : forall p o : MPattern F, trig_sane tr -> Forall moderate (mp_phases p) -> Forall moderate (mp_phases o) ->
  (Z.of_nat (List.length (mp_phases p)) <= 2 ^ 53)%Z ->
  is_finite (mp_amp p) = true -> (0 <= B2R (mp_amp p))%R -> is_finite (mp_amp o) = true -> (0 <= B2R (mp_amp o))%R ->
  (0 < B2R (mp_amp p) \/ 0 < B2R (mp_amp o))%R -> (Z.abs (mp_period p - mp_period o) <= 2 ^ 63)%Z -> (0 < Z.max (mp_period p) (mp_period o) <= 2 ^ 63)%Z ->
  in_unit (@Similarity F NF p o).
Proof.
  intros p o TS H1 H2 L Fa Pa Fb Pb P PD PM.
  assert (Z0 : in_unit (@n0 F NF)).
  { change (@n0 F NF) with (fofZ 0). destruct (fofZ_fin 0 ltac:(lia)) as [A B]. split; auto. rewrite B. lra. }
  assert (PS : in_unit (fsub (fofZ 1) (fmin (fdiv (fabs (fofZ (mp_period p - mp_period o))) (fofZ (Z.max (mp_period p) (mp_period o)))) (fofZ 1)))).
  { apply unit_compl. destruct (fofZ_pos _ PM) as [FM QM]. destruct (fofZ_int64 _ PD) as [FD _]. destruct (fabs_fin _ FD) as [FA VA].
    apply fdiv_nonneg; [|assumption|lra]. apply fle_true. rewrite ford_fofZ, ford_fin by (auto; lia). rewrite VA. repeat split; auto using fin_nan. apply Rabs_pos. }
  pose proof (amp_sim _ _ Fa Fb Pa Pb P) as AS.
  pose proof (unit_mul _ _ (corr_unit _ _ TS H1 H2 L) (scale_unit _ _ H1 H2)) as CS.
  pose proof (weights _ _ _ AS PS CS) as W.
  unfold Similarity. destruct (mp_phases p); [exact Z0|]. destruct (mp_phases o); [exact Z0|]. exact W.
Qed.

Lemma fold_left_map_ {A} (f : A -> F) l : forall s, fold_left fadd (map f l) s = fold_left (fun v p => fadd v (f p)) l s.
Proof. induction l as [|x l IH]; intros s; cbn; auto. Qed.
(** The amplitude that NewTargetPattern computes is finite and not negative. *)
Lemma sum_le (l : list F) (M : Z) : (0 < M <= 2 ^ 12)%Z -> Forall (fun x => is_finite x = true /\ (0 <= B2R x <= IZR M)%R) l -> forall s k, (0 <= k)%Z ->
  ((k + Z.of_nat (List.length l)) * M <= 2 ^ 53)%Z -> is_finite s = true -> (0 <= B2R s <= IZR (k * M))%R ->
  is_finite (fold_left fadd l s) = true /\ (0 <= B2R (fold_left fadd l s) <= IZR ((k + Z.of_nat (List.length l)) * M))%R.
Proof.
  intros HM. induction l as [|x l IH]; intros HL s k K0 K Fs Bs; cbn [fold_left List.length] in *.
  - rewrite Z.add_0_r. auto.
  - inversion HL as [|? ? [Fx Bx] HL']; subst. rewrite Nat2Z.inj_succ in K.
    assert (KM : ((k + 1) * M <= 2 ^ 53)%Z) by nia.
    assert (KB : (IZR ((k + 1) * M) <= bpow radix2 1023)%R). { apply Rle_trans with (IZR (2 ^ 53)); [apply IZR_le; lia|apply bpow1023_ge; lia]. }
    assert (EM : (IZR ((k + 1) * M) = IZR (k * M) + IZR M)%R) by (rewrite <- plus_IZR; f_equal; ring).
    destruct (fadd_fin s x Fs Fx) as [FA VA]; [apply Rabs_le; lra|].
    replace (k + Z.of_nat (S (List.length l)))%Z with (k + 1 + Z.of_nat (List.length l))%Z by lia.
    apply IH; auto; [lia|nia|]. rewrite VA. split; [apply rnd_ge_0; lra|].
    apply rnd_le_fmt; [apply fmt_IZR; nia|lra].
Qed.
Lemma mean_le (l : list F) (M : Z) : (0 < M <= 2 ^ 12)%Z -> Forall (fun x => is_finite x = true /\ (0 <= B2R x <= IZR M)%R) l -> 
  (1 <= Z.of_nat (List.length l) <= 2 ^ 40)%Z ->
  is_finite (fdiv (fold_left fadd l (fofZ 0)) (fofZ (Z.of_nat (List.length l)))) = true /\ (0 <= B2R (fdiv (fold_left fadd l (fofZ 0)) (fofZ (Z.of_nat (List.length l)))) <= IZR M)%R.
Proof.
  intros HM HL Ln. destruct (fofZ_fin 0 ltac:(lia)) as [F0 V0].
  destruct (sum_le l M HM HL (fofZ 0) 0 ltac:(lia) ltac:(nia) F0 ltac:(rewrite V0, Z.mul_0_l; lra)) as [FS BS]. rewrite Z.add_0_l in BS.
  destruct (fofZ_fin (Z.of_nat (List.length l)) ltac:(lia)) as [FN VN]. set (n := Z.of_nat (List.length l)) in *.
  assert (NP : (1 <= IZR n)%R) by (apply IZR_le; lia). assert (MP : (0 < IZR M <= IZR (2 ^ 12))%R) by (split; [apply (IZR_lt 0)|apply IZR_le]; lia).
  assert (Q : (0 <= B2R (fold_left fadd l (fofZ 0)) / IZR n <= IZR M)%R).
  { rewrite mult_IZR in BS. split; [apply Rle_div_r; lra|apply Rle_div_l; lra]. }
  assert (B12 : (IZR (2 ^ 12) <= bpow radix2 1023)%R) by (apply bpow1023_ge; lia).
  destruct (fdiv_fin _ _ FS FN) as [FD VD]; [rewrite VN; lra|rewrite VN; apply Rabs_le; lra|]. split; auto. rewrite VD, VN.
  split; [apply rnd_ge_0; lra|apply rnd_le_fmt; [apply fmt_IZR; lia|lra]].
Qed.
Lemma sqrt_fin x : is_finite x = true -> (0 <= B2R x)%R -> is_finite (fsqrt x) = true /\ (0 <= B2R (fsqrt x))%R.
Proof.
  intros Fx Px. unfold fsqrt. destruct (Bsqrt_correct 53 1024 _ _ mode_NE x) as (V & Fi & _). split.
  - rewrite Fi. destruct x as [s|s| |s m e He]; try reflexivity; try discriminate. destruct s; [|reflexivity]. exfalso. cbn [B2R] in Px.
    assert (F2R (Float radix2 (cond_Zopp true (Z.pos m)) e) < 0)%R by (apply F2R_lt_0; cbn; lia). lra.
  - rewrite V. apply rnd_ge_0. apply sqrt_pos.
Qed.
Theorem C42_amplitude_ok : forall phases, Forall (fun x => is_finite x = true) phases -> (Z.of_nat (List.length phases) <= 2 ^ 40)%Z ->
  is_finite (@calculateAmplitude F NF phases) = true /\ (0 <= B2R (@calculateAmplitude F NF phases))%R.
Proof.
  intros l HF L. unfold calculateAmplitude. destruct (Nat.ltb_spec (List.length l) 2) as [S2|S2].
  - change (@n0 F NF) with (fofZ 0). destruct (fofZ_fin 0 ltac:(lia)) as [A B]. split; auto. rewrite B. lra.
  - cbv zeta. unfold nsum. change (@nadd F NF) with fadd. change (@n0 F NF) with (fofZ 0). change (@ndiv F NF) with fdiv. change (@nofZ F NF) with fofZ.
    change (@nsub F NF) with fsub. change (@nmul F NF) with fmul. change (@nsqrt F NF) with fsqrt.
    set (ps := map WrapPhase l). assert (LP : List.length ps = List.length l) by apply map_length.
    assert (HP : Forall (fun x => is_finite x = true /\ (0 <= B2R x <= IZR 7)%R) ps).
    { apply Forall_forall. intros x I. apply in_map_iff in I. destruct I as (y & <- & I). rewrite Forall_forall in HF.
      destruct (C01_wrap_float tr y (HF _ I)) as (A & _ & B & _). split; [exact A|]. fold NF in B. pose proof r2pi_bounds. fold f2pi in B. rewrite f2pi_val in B. lra. }
    destruct (mean_le ps 7 ltac:(lia) HP ltac:(lia)) as [FM BM]. set (mean := fdiv (fold_left fadd ps (fofZ 0)) _) in *.
    rewrite <- (fold_left_map_ (fun p => fmul (fsub p mean) (fsub p mean)) ps (fofZ 0)).
    assert (HQ : Forall (fun x => is_finite x = true /\ (0 <= B2R x <= IZR 100)%R) (map (fun p => fmul (fsub p mean) (fsub p mean)) ps)).
    { apply Forall_forall. intros x I. apply in_map_iff in I. destruct I as (y & <- & I). rewrite Forall_forall in HP. destruct (HP _ I) as [Fy By].
      assert (K : (1000 <= bpow radix2 1023)%R). { apply Rle_trans with (IZR (2 ^ 12)); [apply IZR_le; lia|apply bpow1023_ge; lia]. }
      destruct (fsub_fin y mean Fy FM) as [FS VS]; [apply Rabs_le; lra|].
      assert (BS : (-7 <= B2R (fsub y mean) <= 7)%R). { rewrite VS. split; [apply rnd_ge_fmt; [apply (fmt_IZR (-7)); lia|lra]|apply rnd_le_fmt; [apply (fmt_IZR 7); lia|lra]]. }
      destruct (fmul_fin _ _ FS FS) as [FQ VQ]; [apply Rabs_le; nra|]. split; auto. rewrite VQ. split; [apply rnd_ge_0; nra|apply rnd_le_fmt; [apply (fmt_IZR 100); lia|nra]]. }
    destruct (mean_le _ 100 ltac:(lia) HQ ltac:(rewrite map_length; lia)) as [FV BV]. rewrite map_length in FV, BV.
    apply sqrt_fin; [exact FV|exact (proj1 BV)].
Qed.
(** So the range holds for any two patterns that NewTargetPattern builds from moderate phases, when one of the
    amplitudes and one of the mean periods is positive. *)
Theorem C42_similarity_range_built : forall l1 f1 l2 f2, trig_sane tr -> Forall moderate l1 -> Forall moderate l2 ->
  (Z.of_nat (List.length l1) <= 2 ^ 40)%Z -> (Z.of_nat (List.length l2) <= 2 ^ 40)%Z ->
  let p := @NewMPattern F NF l1 f1 in let o := @NewMPattern F NF l2 f2 in
  (0 < B2R (mp_amp p) \/ 0 < B2R (mp_amp o))%R -> (0 <= mp_period p <= 2 ^ 63)%Z -> (0 <= mp_period o <= 2 ^ 63)%Z -> (0 < mp_period p \/ 0 < mp_period o)%Z ->
  in_unit (@Similarity F NF p o).
Proof.
  intros l1 f1 l2 f2 TS H1 H2 L1 L2 p o PA P1 P2 PP.
  assert (FF : forall l, Forall moderate l -> Forall (fun x => is_finite x = true) l) by (intros l; apply Forall_impl; intros x [A _]; exact A).
  destruct (C42_amplitude_ok l1 (FF _ H1) L1) as [A1 B1]. destruct (C42_amplitude_ok l2 (FF _ H2) L2) as [A2 B2].
  apply C42_similarity_range; auto; try lia. cbn [mp_phases p]. unfold p. cbn. lia.
Qed.

(** ** Self-similarity *)
Lemma sub_self x : is_finite x = true -> fsub x x = fofZ 0.
Proof.
  intros Fx. unfold fsub. pose proof (Bminus_correct 53 1024 _ _ mode_NE x x Fx Fx) as H. rewrite Rminus_diag_eq in H by reflexivity.
  change (round radix2 (SpecFloat.fexp 53 1024) (round_mode mode_NE) 0) with (rnd 0) in H. rewrite rnd_0, Rabs_R0 in H. rewrite Rlt_bool_true in H by apply bpow_gt_0.
  destruct H as (V & Fi & Si). rewrite Rcompare_Eq in Si by reflexivity. cbn in Si.
  revert V Fi Si. generalize (Bminus mode_NE x x : F). intros z V Fi Si.
  destruct z as [s|s| |s m e He]; try discriminate.
  - cbn in Si. rewrite Si. destruct (Bsign x); reflexivity.
  - exfalso. cbn [B2R] in V. apply eq_0_F2R in V. destruct s; discriminate V.
Qed.
Lemma zero_div y : is_finite y = true -> (0 < B2R y)%R -> fdiv (fofZ 0) y = fofZ 0.
Proof.
  intros Fy Py. destruct y as [s|s| |s m e He]; try discriminate; [cbn in Py; lra|]. destruct s; [|reflexivity].
  exfalso. cbn [B2R] in Py. assert (F2R (Float radix2 (cond_Zopp true (Z.pos m)) e) < 0)%R by (apply F2R_lt_0; cbn; lia). lra.
Qed.
Lemma is_one x : is_finite x = true -> B2R x = 1%R -> x = fofZ 1.
Proof.
  intros Fx V. destruct one_fin as [F1 V1]. apply B2R_inj; [| |congruence]; [|reflexivity].
  destruct x as [s|s| |s m e He]; try discriminate; [cbn in V; lra|reflexivity].
Qed.
Lemma window_apart x : is_finite x = true -> (flt (fabs x) (flit 1 10000000000) && flt (fabs (fsub x (fhalfpi 3))) (flit 1 10000000000) = false)%bool.
Proof.
  intros Fx. destruct (flt (fabs x) _) eqn:A; [|reflexivity]. destruct (flt (fabs (fsub x _)) _) eqn:B; [|reflexivity]. exfalso.
  apply flt_true in A, B. destruct A as (_ & _ & A), B as (_ & NB & B). destruct (flit_fin 1 10000000000 ltac:(lia) ltac:(lia)) as [FL VL].
  destruct (fabs_fin x Fx) as [FA VA]. rewrite (ford_fin _ FA), (ford_fin _ FL), VA in A.
  assert (EL : (B2R (flit 1 10000000000) <= 1)%R) by (rewrite VL; apply rnd_le_fmt; [apply (fmt_IZR 1); lia|lra]).
  assert (F3 : is_finite (fhalfpi 3) = true) by (vm_compute; reflexivity).
  assert (B3 : fle (fofZ 4) (fhalfpi 3) = true) by (vm_compute; reflexivity). assert (B3' : fle (fhalfpi 3) (fofZ 5) = true) by (vm_compute; reflexivity).
  apply fle_true in B3, B3'. destruct B3 as (_ & _ & B3), B3' as (_ & _ & B3'). rewrite (ford_fin _ F3), ford_fofZ in B3, B3' by lia.
  apply Rabs_def2 in A. assert (K : (1000 <= bpow radix2 1023)%R). { apply Rle_trans with (IZR (2 ^ 12)); [apply IZR_le; lia|apply bpow1023_ge; lia]. }
  destruct (fsub_fin x (fhalfpi 3) Fx F3) as [FS VS]; [apply Rabs_le; lra|]. destruct (fabs_fin _ FS) as [FB VB]. rewrite (ford_fin _ FB), (ford_fin _ FL), VB in B.
  assert (B2R (fsub x (fhalfpi 3)) <= -1)%R by (rewrite VS; apply rnd_le_fmt; [apply (fmt_IZR (-1)); lia|lra]).
  rewrite Rabs_left in B by lra. lra.
Qed.
Lemma pd_self x : trig_zero tr -> is_finite x = true -> @PhaseDifference F NF x x = fofZ 0.
Proof.
  intros TZ Fx. unfold PhaseDifference, pd_eps. change (@nlt F NF) with flt. change (@nabs F NF) with fabs. change (@nsub F NF) with fsub. change (@nlit F NF) with flit.
  change (@nhalfpi F NF) with fhalfpi. change (@natan2 F NF) with (tatan2 tr). change (@nsin F NF) with (tsin tr). change (@ncos F NF) with (tcos tr).
  rewrite (window_apart x Fx). rewrite andb_comm. rewrite (window_apart x Fx). rewrite (sub_self x Fx), (zero_sin _ TZ), (zero_cos _ TZ). apply (zero_atan2 _ TZ).
Qed.
Lemma ones_sum l : forall s k, Forall (fun x => x = fofZ 1) l -> (0 <= k)%Z -> (k + Z.of_nat (List.length l) <= 2 ^ 53)%Z -> is_finite s = true -> B2R s = IZR k ->
  is_finite (fold_left fadd l s) = true /\ B2R (fold_left fadd l s) = IZR (k + Z.of_nat (List.length l)).
Proof.
  destruct one_fin as [F1 V1].
  induction l as [|x l IH]; intros s k HL K0 K Fs Bs; cbn [fold_left List.length] in *.
  - rewrite Z.add_0_r. auto.
  - inversion HL as [|? ? Ex HL']; subst. rewrite Nat2Z.inj_succ in K.
    assert (KB : (IZR (k + 1) <= bpow radix2 1023)%R). { apply Rle_trans with (IZR (2 ^ 53)); [apply IZR_le; lia|apply bpow1023_ge; lia]. }
    assert (0 <= IZR k)%R by (apply IZR_le; lia).
    rewrite plus_IZR in KB. destruct (fadd_fin s (fofZ 1) Fs F1) as [FA VA]; [rewrite V1; apply Rabs_le; lra|].
    replace (k + Z.of_nat (S (List.length l)))%Z with (k + 1 + Z.of_nat (List.length l))%Z by lia.
    apply IH; auto; try lia. rewrite VA, V1, Bs, <- plus_IZR. apply rnd_fmt, fmt_IZR. lia.
Qed.
Lemma combine_self {A} (l : list A) ab : In ab (combine l l) -> fst ab = snd ab /\ In (fst ab) l.
Proof. induction l as [|x l IH]; intros []; [subst; cbn; auto|]. destruct (IH H). cbn. auto. Qed.
Lemma corr_self l : trig_zero tr -> l <> [] -> Forall (fun x => is_finite x = true) l -> (Z.of_nat (List.length l) <= 2 ^ 53)%Z -> @phaseCorrelation F NF l l = fofZ 1.
Proof.
  intros TZ NE HF L. unfold phaseCorrelation. rewrite Nat.eqb_refl. cbn [negb].
  destruct l as [|x l']; [congruence|]. remember (x :: l') as l. assert (LP : (1 <= Z.of_nat (List.length l))%Z) by (subst; cbn [List.length]; lia). clear Heql NE x l'.
  unfold nsum. change (@nadd F NF) with fadd. change (@n0 F NF) with (fofZ 0). change (@ndiv F NF) with fdiv. change (@nofZ F NF) with fofZ.
  set (ts := map _ (combine l l)). assert (TL : List.length ts = List.length l) by (unfold ts; rewrite map_length, combine_length; lia).
  assert (TU : Forall (fun x => x = fofZ 1) ts).
  { apply Forall_forall. intros t I. apply in_map_iff in I. destruct I as ([a b] & <- & I). apply combine_self in I. cbn [fst snd] in *. destruct I as [<- I].
    rewrite Forall_forall in HF. rewrite (pd_self a TZ (HF _ I)). change (@nabs F NF (fofZ 0)) with (fofZ 0). change (@ndiv F NF) with fdiv. change (@npi F NF) with (fhalfpi 2).
    change (@nsub F NF) with fsub. change (@n1 F NF) with (fofZ 1).
    destruct fpi_pos as (F2 & P2 & _). rewrite (zero_div _ F2 P2). destruct one_fin as [F1 V1]. destruct (fofZ_fin 0 ltac:(lia)) as [F0 V0]. pose proof bpow1023_big.
    destruct (fsub_fin (fofZ 1) (fofZ 0) F1 F0) as [FS VS]; [rewrite V1, V0; apply Rabs_le; lra|]. apply is_one; [exact FS|]. rewrite VS, V1, V0, Rminus_0_r. apply rnd_fmt, (fmt_IZR 1). lia. }
  destruct (fofZ_fin 0 ltac:(lia)) as [F0 V0]. destruct (ones_sum ts (fofZ 0) 0 TU ltac:(lia) ltac:(lia) F0 V0) as [FS BS].
  destruct (fofZ_fin (Z.of_nat (List.length l)) ltac:(lia)) as [FN VN]. assert (P : (1 <= IZR (Z.of_nat (List.length l)))%R) by (apply IZR_le; lia).
  rewrite TL, Z.add_0_l in BS. assert (Q : (B2R (fold_left fadd ts (fofZ 0)) / B2R (fofZ (Z.of_nat (List.length l))) = 1)%R) by (rewrite BS, VN; field; lra).
  pose proof bpow1023_big. destruct (fdiv_fin _ _ FS FN) as [FD VD]; [rewrite VN; lra|rewrite Q, Rabs_R1; lra|].
  apply is_one; auto. rewrite VD, Q. apply rnd_fmt, (fmt_IZR 1). lia.
Qed.
Lemma scale_self l : Forall moderate l -> @scaleFactor F NF l l = fofZ 1.
Proof.
  intros HL. unfold scaleFactor. rewrite Nat.eqb_refl. cbv zeta. change (@nlt F NF) with flt. change (@n0 F NF) with (fofZ 0). change (@n1 F NF) with (fofZ 1).
  destruct (flt (fofZ 0) (maxAbs l)) eqn:P; [|reflexivity]. cbn [andb].
  assert (M0 : moderate (fofZ 0)). { destruct (fofZ_fin 0 ltac:(lia)) as [A B]. split; auto. rewrite B, Rabs_R0. left. apply bpow_gt_0. }
  assert (Z0 : (0 <= B2R (fofZ 0))%R) by (rewrite (proj2 (fofZ_fin 0 ltac:(lia))); lra).
  destruct (maxAbs_fin l (fofZ 0) HL M0 Z0) as [[FA _] _]. change (fold_left (fun m x => fmax m (fabs x)) l (fofZ 0)) with (@maxAbs F NF l) in FA.
  revert P FA. generalize (@maxAbs F NF l) as A. intros A P FA. apply flt_true in P. destruct P as (_ & _ & P). rewrite ford_fofZ, ford_fin in P by (auto; lia).
  change (@ndiv F NF) with fdiv. change (@nmax F NF) with fmax. change (@nmin F NF) with fmin. change (@nofZ F NF) with fofZ.
  assert (Q : (B2R A / B2R A = 1)%R) by (field; lra). pose proof bpow1023_big. destruct (fdiv_fin A A FA FA) as [FD VD]; [lra|rewrite Q, Rabs_R1; lra|].
  assert (E1 : fdiv A A = fofZ 1). { apply is_one; auto. rewrite VD, Q. apply rnd_fmt, (fmt_IZR 1). lia. }
  rewrite E1. reflexivity.
Qed.
(** A pattern's similarity with itself is exactly 1 when its phases are finite, its amplitude positive and its period positive. *)
Theorem C42_self_similarity : forall p : MPattern F, trig_zero tr -> mp_phases p <> [] -> Forall moderate (mp_phases p) -> (Z.of_nat (List.length (mp_phases p)) <= 2 ^ 53)%Z ->
  is_finite (mp_amp p) = true -> (0 < B2R (mp_amp p))%R -> (0 < mp_period p <= 2 ^ 63)%Z -> feq (@Similarity F NF p p) (fofZ 1) = true.
Proof.
  intros p TZ NE HM L FA PA PP.
  assert (HF : Forall (fun x => is_finite x = true) (mp_phases p)) by (revert HM; apply Forall_impl; intros x [A _]; exact A).
  unfold Similarity. pose proof (corr_self _ TZ NE HF L) as C. pose proof (scale_self _ HM) as S. destruct (mp_phases p) as [|x l]; [congruence|].
  cbv zeta. rewrite C, S. change (@nsub F NF) with fsub. change (@nabs F NF) with fabs. change (@nofZ F NF) with fofZ. change (@ndiv F NF) with fdiv. change (@nmax F NF) with fmax.
  rewrite (sub_self _ FA), Z.sub_diag, Z.max_id. change (fabs (fofZ 0)) with (fofZ 0).
  assert (MX : is_finite (fmax (mp_amp p) (mp_amp p)) = true /\ (0 < B2R (fmax (mp_amp p) (mp_amp p)))%R).
  { destruct (fmax_cases _ _ (fin_nan _ FA) (fin_nan _ FA)) as [NM VM]. rewrite Rmax_left in VM by lra. rewrite (ford_fin _ FA) in VM.
    assert (FM : is_finite (fmax (mp_amp p) (mp_amp p)) = true) by (apply ford_fin_inv; auto; rewrite VM; apply B2R_lt_BIG). split; auto. rewrite ford_fin in VM by auto. lra. }
  rewrite (zero_div _ (proj1 MX) (proj2 MX)). destruct (fofZ_pos _ PP) as [FP QP]. rewrite (zero_div _ FP ltac:(lra)). vm_compute. reflexivity.
Qed.
(** REFUTED without the positivity: a pattern whose phases are all one phase (amplitude 0), or whose period is 0, has similarity NaN with itself. *)
Theorem C42_self_similarity_flat_refuted : forall p : MPattern F, mp_phases p <> [] -> mp_amp p = fofZ 0 \/ mp_period p = 0%Z -> fisnan (@Similarity F NF p p) = true.
Proof.
  intros p NE H. unfold Similarity. destruct (mp_phases p) as [|x l]; [congruence|]. cbv zeta. rewrite Z.sub_diag, Z.max_id. change (@nofZ F NF) with fofZ.
  change (@nadd F NF) with fadd. change (@nmul F NF) with fmul. 
  destruct H as [H|H]; rewrite H.
  - match goal with |- context [fmul ?u (nlit 3 10)] => change (fmul u (nlit 3 10)) with fnan end. rewrite !fadd_nan_l. reflexivity.
  - match goal with |- context [fadd ?u (fmul (nsub n1 (nmin (ndiv (nabs (fofZ 0)) (fofZ 0)) n1)) ?v)] => change (fmul (nsub n1 (nmin (ndiv (nabs (fofZ 0)) (fofZ 0)) n1)) v) with fnan end. rewrite fadd_nan_r, fadd_nan_l. reflexivity.
Qed.
Theorem C42_single_phase_refuted : forall x fr, fisnan (@Similarity F NF (@NewMPattern F NF [x] fr) (@NewMPattern F NF [x] fr)) = true.
Proof. intros x fr. apply C42_self_similarity_flat_refuted; [discriminate|]. left. reflexivity. Qed.
(** REFUTED: with negative periods the similarity exceeds 1. *)
Theorem C42_similarity_above_one_refuted : forall l, trig_zero tr -> l = [fofZ 0; fofZ 1] ->
  flt (fofZ 1) (@Similarity F NF (@NewMPattern F NF l [-1; -1]%Z) (@NewMPattern F NF l [-3; -3]%Z)) = true.
Proof. intros l TZ ->. unfold NF. rewrite (at0_id tr TZ). vm_compute. reflexivity. Qed.

(** ** Templates *)
(** Identify returns the best of the non-NaN scores above 0 (the empty name and 0 if there is none). *)
Lemma identify_inv (p : MPattern F) ts : forall b : string * F, fisnan (snd b) = false ->
  let f := fun best nt => let s := @Similarity F NF (mt_base (snd nt)) p in if flt (snd best) s then (fst nt, s) else best in
  let r := fold_left f ts b in
  fisnan (snd r) = false /\ (ford (snd b) <= ford (snd r))%R /\ (r = b \/ exists nt, In nt ts /\ r = (fst nt, @Similarity F NF (mt_base (snd nt)) p)) /\
  forall nt, In nt ts -> flt (snd r) (@Similarity F NF (mt_base (snd nt)) p) = false.
Proof.
  induction ts as [|t ts IH]; intros b NB f r.
  - split; [exact NB|]. split; [apply Rle_refl|]. split; [left; reflexivity|intros nt []].
  - unfold r. cbn [fold_left]. set (b' := f b t).
    assert (H : fisnan (snd b') = false /\ (ford (snd b) <= ford (snd b'))%R /\ (b' = b \/ b' = (fst t, @Similarity F NF (mt_base (snd t)) p)) /\ flt (snd b') (@Similarity F NF (mt_base (snd t)) p) = false).
    { unfold b', f. destruct (flt (snd b) (@Similarity F NF (mt_base (snd t)) p)) eqn:E; cbn [snd].
      - pose proof E as E'. apply flt_true in E'. destruct E' as (_ & N' & L'). split; [exact N'|]. split; [lra|]. split; [right; reflexivity|apply flt_irr].
      - split; [exact NB|]. split; [apply Rle_refl|]. split; [left; reflexivity|exact E]. }
    destruct H as (N' & L' & C' & U'). destruct (IH b' N') as (NR & LR & CR & UR). fold f in NR, LR, CR, UR. split; [exact NR|]. split; [lra|]. split.
    + destruct CR as [CR|(nt & I & CR)]; [|right; exists nt; split; [right; exact I|exact CR]]. rewrite CR. destruct C' as [C'|C']; [left; exact C'|right; exists t; split; [left; reflexivity|exact C']].
    + intros nt [<-|I]; [|apply UR; exact I]. destruct (flt (snd (fold_left f ts b')) (@Similarity F NF (mt_base (snd t)) p)) eqn:E; [|reflexivity]. exfalso.
      apply flt_true in E. destruct E as (_ & NS & L). assert (flt (snd b') (@Similarity F NF (mt_base (snd t)) p) = true) by (apply flt_true; repeat split; auto; lra). congruence.
Qed.
Theorem C42_identify_best : forall ts (p : MPattern F), let r := @Identify F NF ts p in
  (forall nt, In nt ts -> flt (snd r) (@Similarity F NF (mt_base (snd nt)) p) = false) /\
  (r = (EmptyString, fofZ 0) \/ exists nt, In nt ts /\ r = (fst nt, @Similarity F NF (mt_base (snd nt)) p) /\ fle (fofZ 0) (snd r) = true).
Proof.
  intros ts p r. destruct (identify_inv p ts (EmptyString, fofZ 0) eq_refl) as (NR & LR & CR & UR). split; [exact UR|].
  destruct CR as [CR|(nt & I & CR)]; [left; exact CR|right]. exists nt. split; [exact I|]. split; [exact CR|]. apply fle_true. split; [reflexivity|]. split; [exact NR|exact LR].
Qed.
(** The score does not depend on the iteration order of the template map. *)
Theorem C42_identify_order : forall ts ts' (p : MPattern F), Permutation.Permutation ts ts' -> feq (snd (@Identify F NF ts p)) (snd (@Identify F NF ts' p)) = true.
Proof.
  assert (H : forall ts ts' (p : MPattern F), Permutation.Permutation ts ts' -> (ford (snd (@Identify F NF ts p)) <= ford (snd (@Identify F NF ts' p)))%R).
  { intros ts ts' p P. destruct (identify_inv p ts (EmptyString, fofZ 0) eq_refl) as (NR & LR & CR & UR). destruct (identify_inv p ts' (EmptyString, fofZ 0) eq_refl) as (NR' & LR' & CR' & UR').
    change (@Identify F NF ts p) with (fold_left (fun best nt => let s := @Similarity F NF (mt_base (snd nt)) p in if flt (snd best) s then (fst nt, s) else best) ts (EmptyString, fofZ 0)).
    change (@Identify F NF ts' p) with (fold_left (fun best nt => let s := @Similarity F NF (mt_base (snd nt)) p in if flt (snd best) s then (fst nt, s) else best) ts' (EmptyString, fofZ 0)).
    destruct CR as [CR|(nt & I & CR)]; [rewrite CR; exact LR'|]. specialize (UR' nt (Permutation.Permutation_in _ P I)). rewrite CR in *. cbn [snd] in *.
    apply flt_false in UR'; auto. }
  intros ts ts' p P. apply feq_true. destruct (identify_inv p ts (EmptyString, fofZ 0) eq_refl) as (NR & _). destruct (identify_inv p ts' (EmptyString, fofZ 0) eq_refl) as (NR' & _).
  split; [exact NR|]. split; [exact NR'|]. apply Rle_antisym; apply H; auto. now apply Permutation.Permutation_sym.
Qed.
(** A template matches its own base pattern, for any tolerance that is not negative. *)
Theorem C42_template_matches_base : forall t : MTemplate F, trig_zero tr -> let p := mt_base t in mp_phases p <> [] -> Forall moderate (mp_phases p) -> (Z.of_nat (List.length (mp_phases p)) <= 2 ^ 53)%Z ->
  is_finite (mp_amp p) = true -> (0 < B2R (mp_amp p))%R -> (0 < mp_period p <= 2 ^ 63)%Z -> is_finite (mt_tol t) = true -> (0 <= B2R (mt_tol t))%R -> Matches t p = true.
Proof.
  intros t TZ p NE HM L FA PA PP FT PT. unfold Matches. apply orb_true_intro. left. pose proof (C42_self_similarity p TZ NE HM L FA PA PP) as E. apply feq_true in E. destruct E as (NS & _ & ES).
  change (@nle F NF) with fle. change (@nsub F NF) with fsub. change (@n1 F NF) with (fofZ 1). destruct one_fin as [F1 V1].
  destruct (fsub_ord (fofZ 1) (mt_tol t) F1 FT) as [N' O']. apply fle_true. split; [exact N'|]. split; [exact NS|]. rewrite O'. change (mt_base t) with p. rewrite ES, ford_fofZ by lia. rewrite V1.
  apply Rle_trans with (sat 1); [apply sat_le, rnd_le_fmt; [apply (fmt_IZR 1); lia|lra]|]. rewrite sat_id; [lra|]. pose proof BIG_ge_1000. lra.
Qed.
End Floats.

Example C42_range_example : in_unit (@Similarity F (FNum flatTrig) (@NewMPattern F (FNum flatTrig) [fofZ 0; fofZ 1] [5; 7]%Z) (@NewMPattern F (FNum flatTrig) [fofZ 2; fofZ 1] [5; 9]%Z)) /\
  feq (@Similarity F (FNum flatTrig) (@NewMPattern F (FNum flatTrig) [fofZ 0; fofZ 1] [5; 7]%Z) (@NewMPattern F (FNum flatTrig) [fofZ 0; fofZ 1] [5; 7]%Z)) (fofZ 1) = true.
Proof.
  assert (M : forall z, (Z.abs z <= 2)%Z -> moderate (fofZ z)).
  { intros z Hz. destruct (fofZ_fin z ltac:(lia)) as [A B]. split; auto. rewrite B, <- abs_IZR. apply Rle_trans with (IZR 2); [now apply IZR_le|]. change (IZR 2) with (bpow radix2 1). apply bpow_le. lia. }
  assert (A0 : flt (fofZ 0) (mp_amp (@NewMPattern F (FNum flatTrig) [fofZ 0; fofZ 1] [5; 7]%Z)) = true) by (vm_compute; reflexivity).
  assert (A1 : is_finite (mp_amp (@NewMPattern F (FNum flatTrig) [fofZ 0; fofZ 1] [5; 7]%Z)) = true) by (vm_compute; reflexivity).
  apply flt_true in A0. destruct A0 as (_ & _ & A0). rewrite ford_fofZ, (ford_fin _ A1) in A0 by lia.
  assert (ML : Forall moderate [fofZ 0; fofZ 1]) by (apply Forall_cons; [apply M; lia|]; apply Forall_cons; [apply M; lia|]; apply Forall_nil).
  split.
  - apply C42_similarity_range_built; auto; try (cbn; lia); [exact flat_sane|apply Forall_cons; [apply M; lia|]; apply Forall_cons; [apply M; lia|]; apply Forall_nil].
  - apply C42_self_similarity; auto; try (cbn; lia); [exact flat_zero|discriminate].
Qed.

Print Assumptions C42_detect_panics_iff.
Print Assumptions C42_detect_no_panic.
Print Assumptions C42_detect_exact.
Print Assumptions C42_complete_no_panic.
Print Assumptions C42_gap_filled_refuted.
Print Assumptions C42_jump_is_arc.
Print Assumptions C42_complete_interpolates.
Print Assumptions C42_detect_panics_refuted.
Print Assumptions C42_similarity_range.
Print Assumptions C42_amplitude_ok.
Print Assumptions C42_similarity_range_built.
Print Assumptions C42_self_similarity.
Print Assumptions C42_self_similarity_flat_refuted.
Print Assumptions C42_single_phase_refuted.
Print Assumptions C42_similarity_above_one_refuted.
Print Assumptions C42_identify_best.
Print Assumptions C42_identify_order.
Print Assumptions C42_template_matches_base.
