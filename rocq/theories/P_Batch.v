(** Property theorems C46 (splitting, accounting) and C47 (the queue). *)
From Coq Require Import ZArith Reals Psatz Bool List Lia Arith.
From Flocq Require Import Core.Core IEEE754.BinarySingleNaN.
From Verif Require Import Num F64 RealNum M_Batch S_Agent L_F64 L_F64x L_Ford P_Converge P_Patterns.
Import ListNotations.
Open Scope Z_scope.

(** ** C46: splitting *)
Section Split.
Context {A : Type}.
Lemma split_spec fuel : forall i (l : list A), (length l - i <= fuel)%nat ->
  let bs := splitLoop fuel i l in
  concat bs = skipn i l /\ Forall (fun b => (1 <= length b <= 100)%nat) bs /\
  (forall k, (S k < length bs)%nat -> length (nth k bs []) = 100%nat) /\ length bs = ((length l - i + 99) / 100)%nat.
Proof.
  induction fuel as [|f IH]; intros i l H; cbn [splitLoop]; cbv zeta.
  - rewrite skipn_all2 by lia. replace (length l - i)%nat with 0%nat by lia.
    split; [reflexivity|]. split; [constructor|]. split; [intros k K; cbn in K; lia|reflexivity].
  - destruct (Nat.ltb_spec i (length l)) as [L|L].
    + destruct (IH (i + MaxBatchSize)%nat l ltac:(unfold MaxBatchSize; lia)) as (C & R & P & Q). cbv zeta in *.
      set (e := if (length l <? i + MaxBatchSize)%nat then length l else (i + MaxBatchSize)%nat).
      assert (Le : length (firstn (e - i) (skipn i l)) = (e - i)%nat).
      { rewrite firstn_length, skipn_length. subst e. unfold MaxBatchSize. destruct (Nat.ltb_spec (length l) (i + 100)); lia. }
      assert (Cut : firstn (e - i) (skipn i l) ++ skipn (i + MaxBatchSize) l = skipn i l).
      { rewrite <- (firstn_skipn (e - i) (skipn i l)) at 2. f_equal.
        assert (SS : forall a b (x : list A), skipn a (skipn b x) = skipn (b + a) x).
        { intros a b. induction b as [|b IHb]; intros [|y x]; cbn; auto; now rewrite ?skipn_nil. }
        rewrite SS. subst e. unfold MaxBatchSize. destruct (Nat.ltb_spec (length l) (i + 100)).
        - rewrite !skipn_all2 by lia. reflexivity.
        - f_equal. lia. }
      cbn [concat]. split; [now rewrite C|]. split; [|split].
      * constructor; auto. rewrite Le. subst e. unfold MaxBatchSize. destruct (Nat.ltb_spec (length l) (i + 100)); lia.
      * intros [|k] K; cbn [nth length] in *; [|apply P; lia]. rewrite Le. subst e. unfold MaxBatchSize in *.
        destruct (Nat.ltb_spec (length l) (i + 100)); [|lia]. rewrite Q in K. replace (length l - (i + 100))%nat with 0%nat in K by lia. cbn in K. lia.
      * cbn [length]. rewrite Q. unfold MaxBatchSize. destruct (le_lt_dec (i + 100) (length l)).
        -- replace (length l - i + 99)%nat with (length l - (i + 100) + 99 + 1 * 100)%nat by lia. rewrite Nat.div_add by lia. lia.
        -- replace (length l - (i + 100))%nat with 0%nat by lia. change ((0 + 99) / 100)%nat with 0%nat.
           apply (Nat.div_unique (length l - i + 99) 100 1 (length l - i - 1)); lia.
    + rewrite skipn_all2 by lia. replace (length l - i)%nat with 0%nat by lia.
      split; [reflexivity|]. split; [constructor|]. split; [intros k K; cbn in K; lia|reflexivity].
Qed.

(** The batches are the tasks in order; each has 1 to 100 tasks, all but the last exactly 100; so there are
    ceil(n/100) of them. *)
Theorem C46_split : forall tasks : list A, let bs := splitIntoAPIBatches tasks in
  concat bs = tasks /\ Forall (fun b => (1 <= length b <= 100)%nat) bs /\
  (forall k, (S k < length bs)%nat -> length (nth k bs []) = 100%nat) /\ length bs = ((length tasks + 99) / 100)%nat.
Proof.
  intros tasks. pose proof (split_spec (length tasks) 0 tasks ltac:(lia)) as H. cbv zeta in H. rewrite Nat.sub_0_r in H. exact H.
Qed.
End Split.

(** ** C46: accounting *)
Section Account.
Context {T : Type} {N : Num T} {A : Type}.

(** A history of collected task lists, each with the clock readings of its API batches. *)
Definition account (h : list (list A * (nat -> Z))) (st : Metrics T * Stats) : Metrics T * Stats :=
  fold_left (fun s p => processCollectedBatch (fst p) (snd p) s) h st.
Definition sizes (h : list (list A * (nat -> Z))) : list Z := map (fun b => Z.of_nat (length b)) (flat_map (fun p => splitIntoAPIBatches (fst p)) h).
Definition sumZ (l : list Z) : Z := fold_right Z.add 0 l.
Definition charge (m : Metrics T) (n : Z) : Metrics T := RecordBatch m n (nmul (nofZ n) (nlit 3 100)) (nlit 15 1000).

Lemma process_metrics tasks clock st :
  fst (processCollectedBatch (A := A) tasks clock st) = fold_left charge (map (fun b => Z.of_nat (length b)) (splitIntoAPIBatches tasks)) (fst st) /\
  bs_total (snd (processCollectedBatch tasks clock st)) = bs_total (snd st) + Z.of_nat (length (splitIntoAPIBatches tasks)).
Proof.
  assert (G : forall bs k st, let r := fold_left (fun s p => processOne (snd p) (clock (fst p)) s) (combine (seq k (length bs)) bs) st in
    fst r = fold_left charge (map (fun b : list A => Z.of_nat (length b)) bs) (fst st) /\ bs_total (snd r) = bs_total (snd st) + Z.of_nat (length bs)).
  { induction bs as [|b bs IH]; intros k s0; cbn [length seq combine fold_left map]; cbv zeta; [split; [reflexivity|lia]|].
    destruct (IH (S k) (processOne (snd (k, b)) (clock (fst (k, b))) s0)) as [I1 I2]. cbv zeta in I1, I2. rewrite I1, I2. split; [reflexivity|]. cbn. lia. }
  unfold processCollectedBatch. destruct tasks as [|t r].
  - split; [reflexivity|]. cbn. lia.
  - destruct (G (splitIntoAPIBatches (t :: r)) 0%nat st) as [G1 G2]. split; assumption.
Qed.
Lemma account_fold h st : fst (account h st) = fold_left charge (sizes h) (fst st) /\
  bs_total (snd (account h st)) = bs_total (snd st) + Z.of_nat (length (sizes h)).
Proof.
  revert st. unfold account, sizes. induction h as [|p h IH]; intros st; cbn [fold_left flat_map]; [split; [reflexivity|cbn; lia]|].
  destruct (IH (processCollectedBatch (fst p) (snd p) st)) as [I1 I2]. destruct (process_metrics (fst p) (snd p) st) as [P1 P2].
  rewrite I1, I2, P1, P2. rewrite map_app, fold_left_app, app_length, !map_length. split; [reflexivity|lia].
Qed.
Lemma charge_counts ns : forall m, let r := fold_left charge ns m in
  m_calls r = m_calls m + sumZ ns /\ m_tasks r = m_tasks m + sumZ ns /\ m_batches r = m_batches m + Z.of_nat (length ns) /\
  m_sizes r = m_sizes m ++ ns /\ m_largest r = fold_left Z.max ns (m_largest m).
Proof.
  induction ns as [|n ns IH]; intros m; cbv zeta; cbn [fold_left].
  - cbn [sumZ fold_right length]. rewrite app_nil_r. repeat split; lia.
  - destruct (IH (charge m n)) as (A1 & A2 & A3 & A4 & A5). cbv zeta in *. rewrite A1, A2, A3, A4, A5.
    cbn [charge RecordBatch m_calls m_tasks m_batches m_sizes m_largest length]. change (sumZ (n :: ns)) with (n + sumZ ns). rewrite <- app_assoc. cbn [app].
    repeat split; try lia. f_equal. destruct (Z.ltb_spec (m_largest m) n); lia.
Qed.

Lemma sizes_sum h : sumZ (sizes h) = Z.of_nat (length (concat (map fst h))) /\ Forall (fun n => 1 <= n <= 100) (sizes h).
Proof.
  unfold sizes. induction h as [|[t c] h [I1 I2]]; cbn [map concat flat_map fst]; [split; [reflexivity|constructor]|].
  rewrite map_app, app_length. destruct (C46_split t) as (C & R & _). cbv zeta in *. split.
  - assert (S : forall a b, sumZ (a ++ b) = sumZ a + sumZ b). { unfold sumZ. induction a as [|x a IHa]; intros b; cbn [app fold_right]; [lia|]. rewrite IHa. lia. }
    rewrite S, I1, Nat2Z.inj_add. f_equal. rewrite <- C at 2. generalize (splitIntoAPIBatches t). clear. induction l as [|b l IH]; cbn; [reflexivity|]. rewrite app_length, Nat2Z.inj_add, <- IH. reflexivity.
  - apply Forall_app. split; auto. apply Forall_map. apply Forall_forall. intros b Hb. rewrite Forall_forall in R. specialize (R b Hb). lia.
Qed.

(** Every task and every API batch is counted exactly once, by the metrics and by the manager; the recorded sizes
    are those of the batches in order and the largest is their maximum. *)
Theorem C46_counts : forall (h : list (list A * (nat -> Z))) now, let r := account h (NewMetricsCollector now, mkStats 0 0 0) in
  let bs := flat_map (fun p => splitIntoAPIBatches (fst p)) h in
  m_tasks (fst r) = Z.of_nat (length (concat (map fst h))) /\ m_calls (fst r) = m_tasks (fst r) /\
  m_batches (fst r) = Z.of_nat (length bs) /\ bs_total (snd r) = Z.of_nat (length bs) /\
  m_sizes (fst r) = map (fun b => Z.of_nat (length b)) bs /\ concat bs = concat (map fst h) /\
  (forall n, In n (m_sizes (fst r)) -> n <= m_largest (fst r)) /\ (bs <> [] -> In (m_largest (fst r)) (m_sizes (fst r))).
Proof.
  intros h now. cbv zeta. destruct (account_fold h (NewMetricsCollector now, mkStats 0 0 0)) as [E1 E2]. rewrite E1, E2. cbn [fst snd bs_total].
  destruct (charge_counts (sizes h) (NewMetricsCollector now)) as (A1 & A2 & A3 & A4 & A5). cbv zeta in *. rewrite A1, A2, A3, A4, A5.
  cbn [NewMetricsCollector m_calls m_tasks m_batches m_sizes m_largest app]. destruct (sizes_sum h) as [S1 S2].
  split; [lia|]. split; [reflexivity|]. split; [unfold sizes; rewrite map_length; lia|]. split; [unfold sizes; rewrite map_length; lia|]. split; [reflexivity|].
  split; [|split].
  - clear. induction h as [|p h IH]; cbn [flat_map map concat]; [reflexivity|]. rewrite concat_app, IH. f_equal. apply C46_split.
  - assert (M : forall l a n, (n = a \/ In n l) -> n <= fold_left Z.max l a).
    { induction l as [|x l IH]; intros a n [->|H]; cbn [fold_left].
      - lia.
      - destruct H.
      - etransitivity; [|apply (IH (Z.max a x) (Z.max a x)); left; reflexivity]. lia.
      - destruct H as [->|H]; [etransitivity; [|apply (IH (Z.max a n) (Z.max a n)); left; reflexivity]; lia|apply IH; now right]. }
    intros n H. apply M. now right.
  - intros NE. assert (M : forall l a, fold_left Z.max l a = a \/ In (fold_left Z.max l a) l).
    { induction l as [|x l IH]; intros a; cbn [fold_left]; [now left|]. destruct (IH (Z.max a x)) as [E|E]; [|right; now right].
      rewrite E. destruct (Z.max_spec a x) as [[_ ->]|[_ ->]]; [right; now left|now left]. }
    destruct (M (sizes h) 0) as [E|E]; [|exact E]. exfalso.
    assert (L : forall l a, a <= fold_left Z.max l a). { induction l as [|x l IH]; intros a; cbn [fold_left]; [lia|]. etransitivity; [|apply IH]. lia. }
    unfold sizes in *. destruct (flat_map _ h) as [|b bs]; [congruence|]. cbn [map fold_left] in E. inversion S2. subst.
    specialize (L (map (fun b0 => Z.of_nat (length b0)) bs) (Z.max 0 (Z.of_nat (length b)))). lia.
Qed.

(** The size histogram: each bin counts the batches whose size is in its documented range, and the bins sum to the
    number of batches. *)
Definition range_of (k : nat) : Z * Z := nth k [(1, 10); (11, 25); (26, 50); (51, 75); (76, 100)] (0, 0).
Definition count_in (r : Z * Z) (l : list Z) : Z := Z.of_nat (length (filter (fun n => (fst r <=? n) && (n <=? snd r)) l)).
Theorem C46_histogram : forall (h : list (list A * (nat -> Z))) now, let m := fst (account h (NewMetricsCollector now, mkStats 0 0 0)) in
  let d := BatchSizeDistribution m in
  length d = 5%nat /\ (forall k, (k < 5)%nat -> nth k d 0 = count_in (range_of k) (m_sizes m)) /\ sumZ d = m_batches m.
Proof.
  intros h now. cbv zeta. destruct (account_fold h (NewMetricsCollector now, mkStats 0 0 0)) as [E1 _]. rewrite E1. cbn [fst].
  destruct (charge_counts (sizes h) (NewMetricsCollector now)) as (_ & _ & A3 & A4 & _). cbv zeta in *. unfold BatchSizeDistribution. rewrite A3, A4.
  cbn [NewMetricsCollector m_batches m_sizes app]. destruct (sizes_sum h) as [_ S2].
  assert (G : forall l, Forall (fun n => 1 <= n <= 100) l -> forall a b c d e, fold_left (fun d s => bump (binOf s) d) l [a; b; c; d; e] =
     [a + count_in (range_of 0) l; b + count_in (range_of 1) l; c + count_in (range_of 2) l; d + count_in (range_of 3) l; e + count_in (range_of 4) l]
     /\ count_in (range_of 0) l + count_in (range_of 1) l + count_in (range_of 2) l + count_in (range_of 3) l + count_in (range_of 4) l = Z.of_nat (length l)).
  { clear. induction l as [|n l IH]; intros F a b c d e; cbn [fold_left].
    - unfold count_in. cbn [filter length Z.of_nat]. rewrite !Z.add_0_r. split; reflexivity.
    - inversion F as [|x y F1 F2]. subst. unfold count_in in *. cbn [filter range_of nth fst snd] in *.
      remember (binOf n) as k eqn:K. revert K. unfold binOf at 1. repeat match goal with |- context [?u <=? ?v] => destruct (Z.leb_spec u v); try lia end; intros ->; cbn [bump andb length];
      match goal with |- fold_left _ l [?a'; ?b'; ?c'; ?d'; ?e'] = _ /\ _ => destruct (IH F2 a' b' c' d' e') as [I1 I2]; rewrite I1 end;
      rewrite ?Nat2Z.inj_succ; (split; [repeat match goal with |- ?x :: _ = ?y :: _ => replace x with y by lia; apply f_equal end; reflexivity|lia]). }
  destruct (G (sizes h) S2 0 0 0 0 0) as [G1 G2]. rewrite G1. split; [reflexivity|]. split.
  - intros k K. do 5 (destruct k as [|k]; [reflexivity|]). lia.
  - unfold sumZ. cbn [fold_right]. lia.
Qed.
End Account.

(** ** C46: costs, exactly over the reals and as float64 *)
Theorem C46_costs_exact : forall (A : Type) (h : list (list A * (nat -> Z))) now, let m := fst (account (T := R) h (NewMetricsCollector now, mkStats 0 0 0)) in
  m_without m = (IZR (m_tasks m) * (3 / 100))%R /\ m_with m = (IZR (m_batches m) * (15 / 1000))%R.
Proof.
  intros A h now. cbv zeta. destruct (account_fold h (NewMetricsCollector now, mkStats 0 0 0)) as [E1 _]. rewrite E1. cbn [fst]. clear E1.
  assert (G : forall l (m : Metrics R), m_without m = (IZR (m_tasks m) * (3 / 100))%R -> m_with m = (IZR (m_batches m) * (15 / 1000))%R ->
    m_without (fold_left charge l m) = (IZR (m_tasks (fold_left charge l m)) * (3 / 100))%R /\ m_with (fold_left charge l m) = (IZR (m_batches (fold_left charge l m)) * (15 / 1000))%R).
  { induction l as [|n l IH]; intros m H1 H2; cbn [fold_left]; [auto|]. apply IH; cbn [charge RecordBatch m_without m_with m_tasks m_batches nadd nmul nofZ nlit RNum].
    - rewrite H1, plus_IZR. lra.
    - rewrite H2, plus_IZR. lra. }
  apply G; cbn; unfold n0; cbn; lra.
Qed.

Lemma fadd_mono x y x' y' : is_finite x = true -> is_finite y = true -> is_finite x' = true -> is_finite y' = true ->
  fle x x' = true -> fle y y' = true -> fle (fadd x y) (fadd x' y') = true.
Proof.
  intros Fx Fy Fx' Fy' L M. apply fle_true in L, M. destruct L as (_ & _ & L), M as (_ & _ & M). rewrite !ford_fin in * by auto.
  destruct (fadd_ord x y Fx Fy) as [N1 V1]. destruct (fadd_ord x' y' Fx' Fy') as [N2 V2]. apply fle_true. split; auto. split; auto.
  rewrite V1, V2. apply sat_le, rnd_le. lra.
Qed.
Definition top : F := fofZ (2 ^ 60).
Lemma top_fin : is_finite top = true. Proof. vm_compute. reflexivity. Qed.
Lemma small_fin x : fle (fofZ 0) x = true -> fle x top = true -> is_finite x = true.
Proof.
  intros A B. pose proof top_fin as FT. assert (VT : (B2R top < BIG)%R) by apply B2R_lt_BIG. apply fle_true in A, B. destruct A as (_ & NX & A), B as (_ & _ & B). rewrite ford_fofZ in A by lia. rewrite (ford_fin top) in B by auto.
  apply ford_fin_inv; auto. pose proof BIG_pos. lra.
Qed.

Section Float.
Variable tr : Trig.
Local Instance NF : Num F := FNum tr.
Context {A : Type}.

Definition cost_ok (m : Metrics F) : Prop := fle (fofZ 0) (m_with m) = true /\ fle (m_with m) (m_without m) = true /\ fle (m_without m) top = true.
Definition unit_cost (n : Z) : F := fmul (fofZ n) (flit 3 100).
Lemma unit_cost_ok n : 1 <= n <= 100 -> fle (flit 15 1000) (unit_cost n) = true /\ fle (unit_cost n) (fofZ 4) = true /\ is_finite (unit_cost n) = true.
Proof.
  intros H. assert (E : forallb (fun k => fle (flit 15 1000) (unit_cost (Z.of_nat k)) && fle (unit_cost (Z.of_nat k)) (fofZ 4) && is_finite (unit_cost (Z.of_nat k)))%bool (seq 1 100) = true) by (vm_compute; reflexivity).
  rewrite forallb_forall in E. specialize (E (Z.to_nat n) ltac:(apply in_seq; lia)). rewrite Z2Nat.id in E by lia.
  apply andb_true_iff in E. destruct E as [E E3]. apply andb_true_iff in E. destruct E. auto.
Qed.
Lemma charge_ok m n : 1 <= n <= 100 -> cost_ok m -> cost_ok (charge m n).
Proof.
  intros Hn (A1 & A2 & A3). destruct (unit_cost_ok n Hn) as (U1 & U2 & U3).
  assert (FI : is_finite (m_without m) = true) by (apply small_fin; auto; eapply L_Ford.fle_trans; eauto).
  assert (FW : is_finite (m_with m) = true) by (apply small_fin; auto; eapply L_Ford.fle_trans; eauto).
  unfold cost_ok, charge, RecordBatch. cbn [m_with m_without]. change (nmul (nofZ n) (nlit 3 100)) with (unit_cost n). change (nlit 15 1000) with (flit 15 1000). change (@nadd F NF) with fadd.
  split; [|split].
  - apply P_Converge.fadd_nonneg; auto; vm_compute; reflexivity.
  - apply fadd_mono; auto.
  - eapply L_Ford.fle_trans; [apply (fadd_mono _ _ top (fofZ 4)); auto using top_fin|]. vm_compute. reflexivity.
Qed.

(** In float64, whatever the history: neither cost is NaN or infinite, the cost with batching never exceeds the cost
    without, the reported savings are their float64 difference and not negative, the percentage is in [0,100]. *)
Theorem C46_costs_float : forall (h : list (list A * (nat -> Z))) now, let m := fst (account h (NewMetricsCollector now, mkStats 0 0 0)) in
  let s := Current m in
  is_finite (sn_with s) = true /\ is_finite (sn_without s) = true /\ fle (fofZ 0) (sn_with s) = true /\ fle (sn_with s) (sn_without s) = true /\
  sn_savings s = fsub (sn_without s) (sn_with s) /\ fle (fofZ 0) (sn_savings s) = true /\
  fle (fofZ 0) (sn_percent s) = true /\ fle (sn_percent s) (fofZ 100) = true.
Proof.
  intros h now. cbv zeta. destruct (account_fold h (NewMetricsCollector now, mkStats 0 0 0)) as [E1 _]. rewrite E1. cbn [fst]. clear E1. destruct (sizes_sum h) as [_ S2].
  assert (G : forall l m, Forall (fun n => 1 <= n <= 100) l -> cost_ok m -> cost_ok (fold_left charge l m)).
  { induction l as [|n l IH]; intros m HF Hm; cbn [fold_left]; auto. inversion HF. subst. apply IH; auto. now apply charge_ok. }
  specialize (G (sizes h) (NewMetricsCollector now) S2). destruct G as (A1 & A2 & A3); [split; [|split]; vm_compute; reflexivity|].
  generalize dependent (fold_left charge (sizes h) (NewMetricsCollector now)). intros m A1 A2 A3.
  assert (FI : is_finite (m_without m) = true) by (apply small_fin; auto; eapply L_Ford.fle_trans; eauto).
  assert (FW : is_finite (m_with m) = true) by (apply small_fin; auto; eapply L_Ford.fle_trans; eauto).
  cbn [Current sn_with sn_without sn_savings sn_percent]. change (@nsub F NF) with fsub. change (@nlt F NF n0 (m_without m)) with (flt (fofZ 0) (m_without m)). change (@nmul F NF) with fmul. change (@ndiv F NF) with fdiv.
  change (@nofZ F NF 100) with (fofZ 100). change (@n0 F NF) with (fofZ 0).
  assert (V1 := proj1 (fle_true _ _) A1). assert (V2 := proj1 (fle_true _ _) A2). destruct V1 as (_ & _ & V1), V2 as (_ & _ & V2). rewrite ford_fofZ in V1 by lia. rewrite !ford_fin in * by auto.
  assert (FB : (Rabs (B2R (m_without m) - B2R (m_with m)) <= bpow radix2 1023)%R).
  { assert (B2R (m_without m) <= B2R top)%R. { apply fle_true in A3. destruct A3 as (_ & _ & A3). rewrite !ford_fin in A3 by auto using top_fin. exact A3. }
    assert (B2R top = bpow radix2 60) as VT. { unfold top. destruct (fofZ_int64 (2^60) ltac:(lia)) as [_ X]. rewrite X. replace (IZR (2^60)) with (bpow radix2 60) by (rewrite <- IZR_Zpower by lia; reflexivity). apply rnd_fmt. apply generic_format_bpow. unfold SpecFloat.fexp, SpecFloat.emin. lia. }
    rewrite Rabs_right by lra. eapply Rle_trans; [|apply (bpow_le radix2 60 1023); lia]. lra. }
  destruct (fsub_fin _ _ FI FW FB) as [FS VS].
  assert (S0 : (0 <= B2R (fsub (m_without m) (m_with m)) <= B2R (m_without m))%R).
  { rewrite VS. split; [apply rnd_ge_0; lra|]. apply rnd_le_fmt; [apply generic_format_B2R|lra]. }
  assert (S1 : fle (fofZ 0) (fsub (m_without m) (m_with m)) = true) by (apply fle_true; rewrite ford_fofZ, ford_fin by (auto; lia); split; [reflexivity|]; split; [now apply fin_nan|lra]).
  split; [exact FW|]. split; [exact FI|]. split; [exact A1|]. split; [exact A2|]. split; [reflexivity|]. split; [exact S1|].
  destruct (flt (fofZ 0) (m_without m)) eqn:E; [|split; vm_compute; reflexivity].
  apply flt_true in E. destruct E as (_ & _ & E). rewrite ford_fofZ, ford_fin in E by (auto; lia).
  destruct (P_Patterns.unit_div _ _ FS FI S0 E) as [FD BD]. set (q := fdiv _ _) in *.
  destruct (fofZ_fin 100 ltac:(lia)) as [FH VH].
  destruct (fmul_fin q (fofZ 100) FD FH) as [FM VM]. { rewrite VH. rewrite Rabs_right by nra. pose proof (bpow_le radix2 10 1023 ltac:(lia)). change (bpow radix2 10) with 1024%R in *. nra. }
  rewrite VH in VM. split; apply fle_true; rewrite ford_fofZ, (ford_fin (fmul q _)) by (auto; lia); (split; [try reflexivity; now apply fin_nan|]); (split; [try apply fofZ_nan; now apply fin_nan|]); rewrite VM.
  - apply rnd_ge_0. nra.
  - apply rnd_le_fmt; [apply (fmt_IZR 100); lia|nra].
Qed.

(** The average batch size is the float64 quotient, between 1 and 100 once a batch was recorded, else 0. *)
Theorem C46_average : forall (h : list (list A * (nat -> Z))) now, let m := fst (account h (NewMetricsCollector now, mkStats 0 0 0)) in
  m_tasks m <= 2 ^ 53 ->
  (m_batches m = 0 -> sn_average (Current m) = fofZ 0) /\
  (0 < m_batches m -> fle (fofZ 1) (sn_average (Current m)) = true /\ fle (sn_average (Current m)) (fofZ 100) = true).
Proof.
  intros h now. cbv zeta. destruct (account_fold h (NewMetricsCollector now, mkStats 0 0 0)) as [E1 _]. rewrite E1. cbn [fst]. clear E1.
  destruct (charge_counts (sizes h) (NewMetricsCollector now)) as (_ & A2 & A3 & _). cbv zeta in *. destruct (sizes_sum h) as [_ S2].
  cbn [NewMetricsCollector m_batches m_tasks] in *.
  assert (B : Z.of_nat (length (sizes h)) <= sumZ (sizes h) <= 100 * Z.of_nat (length (sizes h))).
  { clear - S2. induction S2 as [|n l Hn _ IH]; [cbn; lia|]. cbn [length]. change (sumZ (n :: l)) with (n + sumZ l). lia. }
  generalize dependent (fold_left charge (sizes h) (NewMetricsCollector now)). intros m A2 A3 L. cbn [Current sn_average].
  change (@nofZ F NF) with fofZ. change (@ndiv F NF) with fdiv. change (@n0 F NF) with (fofZ 0). rewrite Z.add_0_l in *. rewrite A2 in *. rewrite A3. split.
  - intros E. rewrite E. reflexivity.
  - intros P. destruct (Z.ltb_spec 0 (Z.of_nat (length (sizes h)))); [|lia].
    destruct (fofZ_fin (sumZ (sizes h)) ltac:(lia)) as [FT VT]. destruct (fofZ_fin (Z.of_nat (length (sizes h))) ltac:(lia)) as [FB VB].
    assert (R1 : (1 <= IZR (Z.of_nat (length (sizes h))))%R) by (apply IZR_le; lia).
    assert (R2 : (IZR (Z.of_nat (length (sizes h))) <= IZR (sumZ (sizes h)))%R) by (apply IZR_le; lia).
    assert (R3 : (IZR (sumZ (sizes h)) <= 100 * IZR (Z.of_nat (length (sizes h))))%R) by (rewrite <- mult_IZR; apply IZR_le; lia).
    assert (Q : (1 <= IZR (sumZ (sizes h)) / IZR (Z.of_nat (length (sizes h))) <= 100)%R).
    { split; [apply Rle_div_r; lra|apply Rle_div_l; lra]. }
    destruct (fdiv_fin _ _ FT FB ltac:(rewrite VB; lra)) as [FD VD].
    { rewrite VT, VB. rewrite Rabs_right by lra. pose proof (bpow_le radix2 10 1023 ltac:(lia)). change (bpow radix2 10) with 1024%R in *. lra. }
    rewrite VT, VB in VD. split; apply fle_true; rewrite ford_fofZ, (ford_fin (fdiv _ _)) by (auto; lia); (split; [try apply fofZ_nan; now apply fin_nan|]); (split; [try apply fofZ_nan; now apply fin_nan|]); rewrite VD.
    + apply rnd_ge_fmt; [apply (fmt_IZR 1); lia|lra].
    + apply rnd_le_fmt; [apply (fmt_IZR 100); lia|lra].
Qed.

(** Coherence tracking: the peak is at least every coherence given (NaN aside) and is 0 or one of them; the
    convergence time is that of the first coherence of at least 0.7. *)
Definition updates (us : list (F * Z)) (m : Metrics F) : Metrics F := fold_left (fun m u => UpdateCoherence m (fst u) (snd u)) us m.
Fixpoint first_high (us : list (F * Z)) : option Z :=
  match us with [] => None | (c, t) :: r => if fle (flit 7 10) c then Some t else first_high r end.
Theorem C55_coherence : forall us now, let m := updates us (NewMetricsCollector now) in
  (forall c t, In (c, t) us -> fisnan c = false -> fle c (m_peak m) = true) /\
  (m_peak m = fofZ 0 \/ exists t, In (m_peak m, t) us) /\ fle (fofZ 0) (m_peak m) = true /\
  sn_converge (Current m) = match first_high us with Some t => t - now | None => 0 end.
Proof.
  intros us now. cbv zeta.
  assert (G : forall us m, fisnan (m_peak m) = false -> fle (m_peak m) (m_peak (updates us m)) = true /\
     (forall c t, In (c, t) us -> fisnan c = false -> fle c (m_peak (updates us m)) = true) /\
     (m_peak (updates us m) = m_peak m \/ exists t, In (m_peak (updates us m), t) us) /\
     m_start (updates us m) = m_start m /\
     m_converged (updates us m) = match m_converged m with Some t => Some t | None => first_high us end).
  { clear. unfold updates. induction us as [|[c t] us IH]; intros m HN; cbn [fold_left].
    - split; [apply L_Ford.fle_refl; auto|]. split; [intros ? ? []|]. split; [now left|]. split; [reflexivity|]. now destruct (m_converged m).
    - cbn [fst snd]. set (m1 := UpdateCoherence m c t).
      assert (P : m_peak m1 = if flt (m_peak m) c then c else m_peak m) by reflexivity.
      assert (N1 : fisnan (m_peak m1) = false). { rewrite P. destruct (flt (m_peak m) c) eqn:E; auto. apply flt_true in E. tauto. }
      destruct (IH m1 N1) as (I1 & I2 & I3 & I4 & I5). 
      assert (L1 : fle (m_peak m) (m_peak m1) = true). { rewrite P. destruct (flt (m_peak m) c) eqn:E; [now apply L_Ford.flt_le|now apply L_Ford.fle_refl]. }
      split; [eapply L_Ford.fle_trans; eauto|]. split; [|split; [|split]].
      + intros c' t' [E|E] Hc; [|eapply I2; eauto]. injection E as -> ->. eapply L_Ford.fle_trans; [|exact I1]. rewrite P. destruct (flt (m_peak m) c') eqn:E; [now apply L_Ford.fle_refl|]. now apply not_lt_fle.
      + destruct I3 as [E|[t' E]]; [|right; exists t'; now right]. rewrite E, P. destruct (flt (m_peak m) c); [right; exists t; now left|now left].
      + rewrite I4. reflexivity.
      + rewrite I5. cbn [m1 UpdateCoherence m_converged first_high]. destruct (m_converged m); [reflexivity|]. change (nle (nlit 7 10) c) with (fle (flit 7 10) c). now destruct (fle (flit 7 10) c). }
  destruct (G us (NewMetricsCollector (N := NF) now) (fofZ_nan 0)) as (G1 & G2 & G3 & G4 & G5). split; [exact G2|]. split; [exact G3|]. split; [exact G1|].
  unfold Current. cbn [sn_converge]. rewrite G4, G5. cbn [NewMetricsCollector m_converged m_start]. destruct (first_high us); reflexivity.
Qed.
(** But nothing calls UpdateCoherence: the metrics operations of the simulation are the recording of batches and the
    reset, and after any sequence of them the reported peak coherence and time to converge are 0. *)
Inductive SimOp := Process (tasks : list A) (clock : nat -> Z) | ResetAt (now : Z).
Definition simOp (st : Metrics F * Stats) (o : SimOp) : Metrics F * Stats :=
  match o with Process t c => processCollectedBatch t c st | ResetAt now => (ResetMetrics (fst st) now, mkStats 0 0 0) end.
Theorem C55_peak_refuted : forall ops now, let m := fst (fold_left simOp ops (NewMetricsCollector now, mkStats 0 0 0)) in
  sn_peak (Current m) = fofZ 0 /\ sn_converge (Current m) = 0.
Proof.
  intros ops now. cbv zeta. cut (m_peak (fst (fold_left simOp ops (NewMetricsCollector now, mkStats 0 0 0))) = fofZ 0 /\ m_converged (fst (fold_left simOp ops (NewMetricsCollector now, mkStats 0 0 0))) = None).
  { intros [P C]. unfold Current. cbn [sn_peak sn_converge]. rewrite C. auto. }
  assert (G : forall ops st, m_peak (fst st) = fofZ 0 /\ m_converged (fst st) = None -> m_peak (fst (fold_left simOp ops st)) = fofZ 0 /\ m_converged (fst (fold_left simOp ops st)) = None).
  { clear. induction ops as [|o ops IH]; intros st H; cbn [fold_left]; auto. apply IH. destruct o as [t c|now]; cbn [simOp]; [|split; reflexivity].
    destruct (process_metrics t c st) as [E _]. rewrite E. revert H. generalize (fst st). generalize (map (fun b : list A => Z.of_nat (length b)) (splitIntoAPIBatches t)).
    clear. induction l as [|n l IH]; intros m H; cbn [fold_left]; auto. }
  apply G. split; reflexivity.
Qed.
(** The accounting since the last reset: what came before it has no effect. *)
Theorem C46_since_reset : forall before after now now', fold_left simOp (before ++ ResetAt now' :: after) (NewMetricsCollector now, mkStats 0 0 0) =
  fold_left simOp after (NewMetricsCollector now', mkStats 0 0 0).
Proof. intros before after now now'. rewrite fold_left_app. reflexivity. Qed.
End Float.

(** ** C47: the queue *)
Section Queue.
Context {A : Type}.
Local Notation BM := (BM A).
Local Notation Ev := (Ev A).

(** The tasks the processor holds. *)
Definition held (p : Proc A) : list A := match p with Idle => [] | Stopped => [] | Collecting c => c | Sending bs => concat bs end.
(** Nothing accepted is lost, duplicated or reordered. *)
Definition conserved (s : BM) : Prop := concat (bm_done s) ++ held (bm_proc s) ++ concat (bm_queue s) = concat (bm_accepted s).
Lemma step_conserved s e : conserved s -> conserved (bmStep s e).
Proof.
  unfold conserved. intros H. destruct s as [q p c sub acc dn]. destruct e; cbn [bmStep bm_queue bm_proc bm_cancelled bm_submitted bm_accepted bm_done] in *.
  - destruct (length q <? queueCap)%nat; cbn [bm_queue bm_proc bm_accepted bm_done]; [|exact H]. rewrite !concat_app. cbn [concat]. rewrite !app_nil_r, <- H, !app_assoc. reflexivity.
  - destruct q as [|b q], p as [|c0|bs|]; cbn [bm_queue bm_proc bm_accepted bm_done held concat app] in *; auto. rewrite <- H. now rewrite <- !app_assoc.
  - destruct p as [|c0|bs|]; cbn [bm_queue bm_proc bm_accepted bm_done held] in *; auto. destruct (C46_split c0) as [E _]. cbv zeta in E. now rewrite E.
  - destruct q as [|b q]; auto. destruct p as [|c0|bs|]; cbn [bm_queue bm_proc bm_accepted bm_done held] in *; auto. destruct (MaxBatchSize <=? length c0)%nat; cbn [bm_queue bm_proc bm_accepted bm_done held]; auto.
    destruct (C46_split c0) as [E _]. cbv zeta in E. now rewrite E.
  - destruct p as [|c0|[|b bs]|]; cbn [bm_queue bm_proc bm_accepted bm_done held concat app] in *; auto. rewrite concat_app. cbn [concat]. rewrite app_nil_r, <- H, <- !app_assoc. reflexivity.
  - exact H.
  - destruct p as [|c0|bs|]; auto. destruct c; auto.
Qed.
Lemma run_conserved es : forall s, conserved s -> conserved (bmRun s es).
Proof. unfold bmRun. induction es as [|e es IH]; intros s H; cbn [fold_left]; auto. apply IH, step_conserved, H. Qed.

(** At every moment of every schedule the tasks put in the queue are, in order, the finished ones, those the
    processor holds, and those still queued. *)
Theorem C47_conserved : forall es : list Ev, let s := bmRun bm0 es in
  concat (bm_done s) ++ held (bm_proc s) ++ concat (bm_queue s) = concat (bm_accepted s).
Proof. intros es. apply run_conserved. reflexivity. Qed.

(** No submission finds the queue full. *)
Fixpoint never_full (s : BM) (es : list Ev) : Prop :=
  match es with
  | [] => True
  | e :: r => (match e with Submit _ => (length (bm_queue s) < 100)%nat | _ => True end) /\ never_full (bmStep s e) r
  end.
Definition submissions (es : list Ev) : list (list A) := flat_map (fun e => match e with Submit b => [b] | _ => [] end) es.
Lemma accepted_all es : forall s, never_full s es -> bm_accepted (bmRun s es) = bm_accepted s ++ submissions es.
Proof.
  unfold bmRun. induction es as [|e es IH]; intros s; cbn [never_full fold_left submissions flat_map]; [now rewrite app_nil_r|].
  intros [H1 H2]. rewrite (IH _ H2). fold (submissions es). rewrite app_assoc. f_equal. clear IH H2. destruct s as [q p c sub acc dn].
  destruct e; cbn [bmStep bm_queue bm_proc bm_cancelled bm_submitted bm_accepted bm_done] in *; rewrite ?app_nil_r; auto.
  - destruct (Nat.ltb_spec (length q) queueCap); [reflexivity|unfold queueCap in *; lia].
  - destruct q as [|b q], p; auto.
  - destruct p; auto.
  - destruct q as [|b q], p; auto. destruct (MaxBatchSize <=? length c0)%nat; auto.
  - destruct p as [|c0|[|b bs]|]; auto.
  - destruct p; auto. destruct c; auto.
Qed.
(** If no submission finds the queue full, that holds for everything submitted: exactly once, in submission order. *)
Theorem C47_exactly_once : forall es : list Ev, never_full bm0 es -> let s := bmRun bm0 es in
  concat (bm_done s) ++ held (bm_proc s) ++ concat (bm_queue s) = concat (submissions es).
Proof. intros es H. cbv zeta. rewrite run_conserved by reflexivity. rewrite accepted_all by auto. reflexivity. Qed.

(** Every API batch sent has 1 to 100 tasks. *)
Definition sized (s : BM) : Prop := Forall (fun b => (1 <= length b <= 100)%nat) (bm_done s) /\
  match bm_proc s with Sending bs => Forall (fun b => (1 <= length b <= 100)%nat) bs | _ => True end.
Theorem C47_api_sizes : forall es : list Ev, Forall (fun b => (1 <= length b <= 100)%nat) (bm_done (bmRun bm0 es)).
Proof.
  intros es. assert (G : forall es s, sized s -> sized (bmRun s es)).
  { clear. unfold bmRun. induction es as [|e es IH]; intros s H; cbn [fold_left]; auto. apply IH. clear IH. destruct H as [H1 H2]. destruct s as [q p c sub acc dn].
    assert (SP : forall l : list A, Forall (fun b => (1 <= length b <= 100)%nat) (splitIntoAPIBatches l)) by (intros l; apply C46_split).
    destruct e; cbn [bmStep bm_queue bm_proc bm_cancelled bm_submitted bm_accepted bm_done] in *.
    - destruct (length q <? queueCap)%nat; split; auto.
    - destruct q as [|b q], p; split; auto.
    - destruct p; split; auto; apply SP.
    - destruct q as [|b q]; [|split; auto]. destruct p; try (split; auto; fail). destruct (MaxBatchSize <=? length c0)%nat; split; auto; apply SP.
    - destruct p as [|c0|[|b bs]|]; try (split; cbn; auto; fail). cbn [bm_proc] in H2. inversion H2. subst. split; auto. cbn [bm_done]. apply Forall_app. split; auto.
    - split; auto.
    - destruct p; try (split; auto; fail). destruct c; split; auto. }
  apply (G es bm0). split; [constructor|exact I].
Qed.

(** Processing always makes progress: until everything accepted is finished some processor event is possible, and
    every effective one lowers a measure, so without new submissions everything is finished after finitely many. *)
Definition weight (q : list (list A)) : nat := fold_right (fun b w => length b + 3 + w)%nat 0%nat q.
Definition todo (s : BM) : nat := (weight (bm_queue s) + match bm_proc s with Collecting c => length c + 2 | Sending bs => length bs + 1 | _ => 0 end)%nat.
Definition processor (e : Ev) : Prop := e = Take \/ e = Window \/ e = Default \/ e = SendOne.
Lemma split_len (l : list A) : (length (splitIntoAPIBatches l) <= length l)%nat.
Proof.
  destruct (C46_split l) as (E & F & _). cbv zeta in *. rewrite <- E at 2. clear E. induction F as [|b bs Hb _ IH]; cbn [concat length]; [lia|]. rewrite app_length. lia.
Qed.
Theorem C47_progress : forall s : BM, bm_proc s <> Stopped ->
  (forall e, processor e -> bmStep s e = s \/ (todo (bmStep s e) < todo s)%nat) /\
  ((forall e, processor e -> bmStep s e = s) -> bm_proc s = Idle /\ bm_queue s = []).
Proof.
  intros s NS. destruct s as [q p c sub acc dn]. cbn [bm_proc] in NS. split.
  - intros e [-> | [-> | [-> | ->]]]; cbn [bmStep bm_queue bm_proc bm_cancelled bm_submitted bm_accepted bm_done].
    + destruct q as [|b q], p as [|c0|bs|]; auto; right; unfold todo; cbn [bm_queue bm_proc weight fold_right]; fold (weight q); rewrite ?app_length; lia.
    + destruct p as [|c0|bs|]; auto. right. unfold todo. cbn [bm_queue bm_proc]. pose proof (split_len c0). lia.
    + destruct q as [|b q]; auto. destruct p as [|c0|bs|]; auto. destruct (MaxBatchSize <=? length c0)%nat; auto. right. unfold todo. cbn [bm_queue bm_proc]. pose proof (split_len c0). lia.
    + destruct p as [|c0|[|b bs]|]; auto; right; unfold todo; cbn [bm_queue bm_proc length]; lia.
  - intros H. cbn [bm_proc bm_queue]. destruct p as [|c0|[|b bs]|]; [| | | |congruence].
    + split; auto. destruct q as [|b q]; auto. specialize (H Take ltac:(unfold processor; auto)). cbn in H. discriminate.
    + specialize (H Window ltac:(unfold processor; auto)). cbn in H. discriminate.
    + specialize (H SendOne ltac:(unfold processor; auto)). cbn in H. discriminate.
    + specialize (H SendOne ltac:(unfold processor; auto)). cbn in H. injection H as H _. apply (f_equal (@length _)) in H. cbn in H. lia.
Qed.

(** The claim without the guard is false: when 100 batches are waiting the next one is dropped, and its task is
    never processed. *)
Theorem C47_drop_refuted : forall x y : A, x <> y -> exists es b, b = [x] /\ In (Submit b) es /\ In b (bm_submitted (bmRun bm0 es)) /\
  forall more, submissions more = [] -> ~ In x (concat (bm_done (bmRun bm0 (es ++ more)))).
Proof.
  intros x y NE. exists (repeat (Submit [y]) 100 ++ [Submit [x]]), [x]. split; [reflexivity|]. split; [apply in_or_app; right; now left|].
  split; [vm_compute; tauto|]. intros more HM IN.
  pose proof (run_conserved ((repeat (Submit [y]) 100 ++ [Submit [x]]) ++ more) bm0 eq_refl) as C. unfold conserved in C.
  assert (AC : forall more s, submissions more = [] -> bm_accepted (bmRun s more) = bm_accepted s).
  { clear. intros more s H. rewrite accepted_all; [rewrite H; apply app_nil_r|]. revert s H. induction more as [|e more IH]; intros s H; cbn [never_full]; auto.
    destruct e; cbn in H; try discriminate; split; auto. }
  assert (RA : bmRun bm0 ((repeat (Submit [y]) 100 ++ [Submit [x]]) ++ more) = bmRun (bmRun bm0 (repeat (Submit [y]) 100 ++ [Submit [x]])) more) by (unfold bmRun; now rewrite fold_left_app).
  rewrite RA in *. rewrite (AC more _ HM) in C. assert (IX : In x (concat (bm_accepted (bmRun bm0 (repeat (Submit [y]) 100 ++ [Submit [x]]))))).
  { rewrite <- C. apply in_or_app. now left. }
  vm_compute in IX. repeat (destruct IX as [IX|IX]; [congruence|]). exact IX.
Qed.
(** And after cancellation the processor may return with batches still queued. *)
Theorem C47_cancel_refuted : forall x : A, exists es, never_full bm0 es /\ submissions es = [[x]] /\
  forall more, submissions more = [] -> bm_done (bmRun bm0 (es ++ more)) = [].
Proof.
  intros x. exists [Submit [x]; Cancel; Quit]. split; [cbn; repeat split; lia|]. split; [reflexivity|].
  intros more H. unfold bmRun. rewrite fold_left_app. set (s := fold_left bmStep [Submit [x]; Cancel; Quit] bm0).
  assert (P : bm_proc s = Stopped /\ bm_done s = []) by (vm_compute; auto). destruct P as [P D]. clearbody s. revert s P D. induction more as [|e more IH]; intros s P D; cbn [fold_left]; auto.
  destruct s as [q p c sub acc dn]. cbn in P, D. subst p dn. destruct e; cbn in H; try discriminate; apply IH; auto; cbn [bmStep bm_queue bm_proc bm_cancelled bm_submitted bm_accepted bm_done]; destruct q; reflexivity.
Qed.

(** A schedule meeting the guard: two submissions, collected together and sent. *)
Example C47_example : forall x y : A, let es := [Submit [x]; Take; Submit [y; x]; Take; Window; SendOne; SendOne] in
  never_full bm0 es /\ bm_done (bmRun bm0 es) = [[x; y; x]] /\ bm_proc (bmRun bm0 es) = Idle.
Proof. intros x y. cbn. repeat split; lia. Qed.
End Queue.

Example C46_example : map (@length nat) (splitIntoAPIBatches (seq 0 250)) = [100; 100; 50]%nat /\
  m_tasks (fst (account (T := R) [(seq 0 250, fun _ => 0%Z); ([], fun _ => 0%Z)] (NewMetricsCollector 0, mkStats 0 0 0))) = 250%Z.
Proof. split; [vm_compute; reflexivity|]. destruct (C46_counts (T := R) [(seq 0 250, fun _ => 0%Z); ([], fun _ => 0%Z)] 0) as [H _]. rewrite H. vm_compute. reflexivity. Qed.
Print Assumptions C46_split. Print Assumptions C46_counts. Print Assumptions C46_histogram. Print Assumptions C46_costs_exact.
Print Assumptions C46_costs_float. Print Assumptions C46_average. Print Assumptions C55_coherence. Print Assumptions C55_peak_refuted. Print Assumptions C46_since_reset.
Print Assumptions C47_conserved. Print Assumptions C47_exactly_once. Print Assumptions C47_api_sizes. Print Assumptions C47_progress.
Print Assumptions C47_drop_refuted. Print Assumptions C47_cancel_refuted.
