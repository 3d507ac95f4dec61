(** Property theorems C26 (swarm configuration normalisation). *)
From Coq Require Import ZArith Reals Psatz Bool List String Lia.
From Flocq Require Import Core.Core IEEE754.BinarySingleNaN.
From Verif Require Import Num F64 M_AgentConfig M_SwarmConfig S_Config L_F64 L_F64x L_Ford L_Config.
Import ListNotations.
Open Scope Z_scope.

Section C26.
Variable tr : Trig.
Local Notation NV := (@NormalizeAndValidate F (FNum tr)).
Local Notation V := (@Validate F (FNum tr)).
Local Notation Auto := (@AutoScaleConfig F (FNum tr)).
Local Notation Batch := (@ForBatching F (FNum tr)).

(** Success exactly for positive sizes within a positive MaxSwarmSize: for every configuration,
    NaN and infinite fields included. *)
Theorem C26_success_iff : forall c n,
  snd (NV c n) = true <-> 0 < n /\ (0 < sc_maxsize c -> n <= sc_maxsize c).
Proof.
  intros c n. rewrite nv_eq. cbn [snd]. rewrite <- (norm_valid tr c n).
  destruct (V (@normalize F (FNum tr) c n) n); split; auto; discriminate.
Qed.

(** The normalised configuration satisfies every constraint, unless a float field was NaN. *)
Theorem C26_result_ok : forall c n, no_nan c -> snd (NV c n) = true -> config_ok (fst (NV c n)) n.
Proof.
  intros c n Nn H. rewrite C26_success_iff in H. rewrite nv_eq. cbn [fst].
  apply (valid_ok tr); [now apply norm_no_nan|now apply norm_valid|apply norm_batch].
Qed.

(** A NaN probability survives normalisation and validation. *)
Theorem C26_nan_refuted : exists c n, snd (NV c n) = true /\ ~ config_ok (fst (NV c n)) n /\
  fisnan (sc_prob (fst (NV c n))) = true.
Proof.
  exists (let c := @DefaultConfig F (FNum tr) in
    mkSCfg fnan 5 2 (sc_coup c) (sc_stub c) (sc_energy c) 20 (sc_bstr c) (sc_bwid c) (sc_conf c) (sc_infl c)
      0 0 false 0 0 1 1 0 false false), 10.
  rewrite C26_success_iff. rewrite nv_eq. cbn [fst sc_maxsize].
  split; [lia|]. cbv zeta. unfold normalize. cbn [sc_prob]. cbv zeta. split.
  - intros [[K _] _ _ _ _ _ _ _ _ _ _ _ _ _ _ _ _ _]. cbn [sc_prob] in K. rewrite cl_unfold in K. discriminate K.
  - reflexivity.
Qed.

(** Normalising again changes nothing; a configuration that already satisfies the constraints is
    returned unchanged. *)
Theorem C26_idempotent : forall c n, snd (NV c n) = true -> NV (fst (NV c n)) n = (fst (NV c n), true).
Proof.
  intros c n H. rewrite C26_success_iff in H. rewrite !nv_eq. cbn [fst].
  rewrite norm_idem by tauto. now rewrite (proj2 (norm_valid tr c n) H).
Qed.
Theorem C26_keeps_valid : forall c n, config_ok c n -> size_ok c n -> NV c n = (c, true).
Proof.
  intros c n K S. pose proof S as (Hn & _). rewrite nv_eq.
  assert (E : @normalize F (FNum tr) c n = c).
  { destruct K. apply norm_id; auto using prob_out, pos_nle. }
  rewrite E. now rewrite (ok_valid tr c n K S).
Qed.

(** Out-of-range values are moved to the nearest allowed one, in-range values are kept. *)
Theorem C26_clamps : forall c n, snd (NV c n) = true -> 1 < n ->
  (flt (sc_coup c) (fofZ 0) = true -> sc_coup (fst (NV c n)) = fofZ 0) /\
  (flt (fofZ 1) (sc_coup c) = true -> sc_coup (fst (NV c n)) = fofZ 1) /\
  (prob (sc_coup c) -> sc_coup (fst (NV c n)) = sc_coup c) /\
  (1 <= sc_maxn c <= n - 1 -> sc_maxn (fst (NV c n)) = sc_maxn c) /\
  (n - 1 < sc_maxn c -> sc_maxn (fst (NV c n)) = n - 1) /\
  (sc_maxn c < 1 -> sc_maxn (fst (NV c n)) = 1) /\
  (0 <= sc_minn c <= sc_maxn (fst (NV c n)) -> sc_minn (fst (NV c n)) = sc_minn c) /\
  (sc_maxn (fst (NV c n)) < sc_minn c -> sc_minn (fst (NV c n)) = sc_maxn (fst (NV c n))).
Proof.
  intros c n H Hn. rewrite !nv_eq. cbn [fst]. unfold normalize. cbv zeta.
  cbn [sc_coup sc_maxn sc_minn].
  assert (M : normMax n (sc_maxn c) = if n - 1 <? sc_maxn c then n - 1 else if sc_maxn c <? 1 then 1 else sc_maxn c).
  { unfold normMax. rewrite (proj2 (Z.ltb_lt 0 n)), (proj2 (Z.leb_gt (n - 1) 0)) by lia. cbv zeta.
    destruct (Z.ltb_spec (n - 1) (sc_maxn c)); auto. destruct (Z.ltb_spec (n - 1) 1); lia. }
  assert (K : forall mx, normMin n mx (sc_minn c) = let m := if mx <? sc_minn c then mx else sc_minn c in if m <? 0 then 0 else m).
  { intros mx. unfold normMin. rewrite (proj2 (Z.leb_gt (n - 1) 0)) by lia. rewrite andb_false_r. reflexivity. }
  repeat match goal with |- _ /\ _ => split end.
  - rewrite cl_unfold. now intros ->.
  - rewrite cl_unfold. intros E. rewrite E. destruct (flt (sc_coup c) (fofZ 0)) eqn:G; auto.
    apply flt_true in E. apply flt_true in G. rewrite !ford_fofZ in * by lia. lra.
  - intros P. now apply cl_id, prob_out.
  - intros. rewrite M. destruct (Z.ltb_spec (n - 1) (sc_maxn c)), (Z.ltb_spec (sc_maxn c) 1); lia.
  - intros. rewrite M. destruct (Z.ltb_spec (n - 1) (sc_maxn c)); lia.
  - intros. rewrite M. destruct (Z.ltb_spec (n - 1) (sc_maxn c)), (Z.ltb_spec (sc_maxn c) 1); lia.
  - rewrite K. cbv zeta. set (mx := normMax n (sc_maxn c)). intros.
    destruct (Z.ltb_spec mx (sc_minn c)); [lia|]. destruct (Z.ltb_spec (sc_minn c) 0); lia.
  - rewrite K. cbv zeta. pose proof (normMax_ok n (sc_maxn c) ltac:(lia)) as Q. cbv zeta in Q.
    set (mx := normMax n (sc_maxn c)) in *. intros.
    destruct (Z.ltb_spec mx (sc_minn c)); [|lia]. destruct (Z.ltb_spec mx 0); lia.
Qed.

(** Products and quotients of probabilities. *)
Lemma prob_fin_le x : (0 <= x <= 1)%R -> (Rabs x <= bpow radix2 1023)%R.
Proof. intros H. rewrite Rabs_right by lra. apply Rle_trans with (bpow radix2 0); [simpl; lra|apply bpow_le; lia]. Qed.
Lemma rnd_prob x : (0 <= x <= 1)%R -> (0 <= rnd x <= 1)%R.
Proof.
  intros H. split; [apply rnd_ge_0; lra|]. apply rnd_le_fmt; [|lra].
  change 1%R with (IZR 1). apply fmt_IZR. lia.
Qed.
Lemma prob_mul x y : prob x -> prob y -> prob (fmul x y).
Proof.
  intros [Fx Rx] [Fy Ry]. assert (H : (0 <= B2R x * B2R y <= 1)%R) by nra.
  destruct (fmul_fin x y Fx Fy (prob_fin_le _ H)) as [A B]. split; auto. rewrite B. now apply rnd_prob.
Qed.
Lemma prob_100_div n : 100 <= n <= 2 ^ 53 -> prob (fdiv (fofZ 100) (fofZ n)).
Proof.
  intros H. destruct (fofZ_fin 100 ltac:(lia)) as [A B]. destruct (fofZ_fin n ltac:(lia)) as [C D].
  assert (Hn : (100 <= IZR n)%R) by (apply IZR_le; lia).
  assert (Q : (0 <= B2R (fofZ 100) / B2R (fofZ n) <= 1)%R).
  { rewrite B, D. split; [apply Rmult_le_pos; [lra|left; apply Rinv_0_lt_compat; lra]|].
    apply Rmult_le_reg_r with (IZR n); [lra|]. unfold Rdiv. rewrite Rmult_assoc, Rinv_l by lra. lra. }
  destruct (fdiv_fin (fofZ 100) (fofZ n) A C ltac:(rewrite D; lra) (prob_fin_le _ Q)) as [E G].
  split; auto. rewrite G. now apply rnd_prob.
Qed.
Lemma prob_lit a : flt (fofZ 1) a = false -> flt a (fofZ 0) = false -> fisnan a = false -> prob a.
Proof. intros A B C. apply (out_prob tr); auto. rewrite out_unfold, A, B. reflexivity. Qed.
Ltac lit := apply prob_lit; vm_compute; reflexivity.

Lemma quot_bounds n k : 0 < k -> 0 <= n -> k * Z.quot n k <= n /\ n < k * Z.quot n k + k.
Proof.
  intros Hk Hn. pose proof (Z.quot_rem' n k). pose proof (Z.rem_bound_pos n k Hn Hk). lia.
Qed.

Ltac zcase :=
  repeat match goal with
  | |- context [if (?a <? ?b)%Z then _ else _] => destruct (Z.ltb_spec a b)
  end.

(** The auto-scaled configuration satisfies every constraint as it is, for every size New accepts. *)
Theorem C26_autoscale_ok : forall n, 1 <= n <= 1000000 -> config_ok (Auto n) n /\ size_ok (Auto n) n.
Proof.
  intros n Hn.
  assert (CP : prob (sc_coup (Auto n))).
  { unfold AutoScaleConfig. cbv zeta. cbn [sc_coup].
    assert (B : prob (sc_coup (@autoScaleBase F (FNum tr) n))) by (unfold autoScaleBase; zcase; cbv zeta; cbn [sc_coup]; lit).
    destruct (Z.ltb_spec 100 n); auto. apply prob_mul; auto. apply prob_100_div. lia. }
  pose proof (quot_bounds n 5 ltac:(lia) ltac:(lia)). pose proof (quot_bounds n 10 ltac:(lia) ltac:(lia)).
  pose proof (quot_bounds n 100 ltac:(lia) ltac:(lia)). pose proof (quot_bounds n 50 ltac:(lia) ltac:(lia)).
  pose proof (quot_bounds n 20 ltac:(lia) ltac:(lia)). pose proof (quot_bounds n 2 ltac:(lia) ltac:(lia)).
  split; [constructor; auto|]; unfold AutoScaleConfig, size_ok; cbv zeta;
  cbn [sc_prob sc_maxn sc_minn sc_coup sc_stub sc_energy sc_bstr sc_bwid sc_conf sc_infl sc_maxsize sc_maxconc
       sc_bsize sc_workers sc_upd sc_mon sc_optthr sc_batch];
  unfold autoScaleBase, DefaultConfig, MediumSwarmConfig, SmallSwarmConfig, minInt, maxInt, ms;
  (destruct (Z.ltb_spec n 10); [|destruct (Z.ltb_spec n 20); [|destruct (Z.ltb_spec n 100); [|destruct (Z.ltb_spec n 1000)]]]); cbv zeta;
  cbn [sc_prob sc_maxn sc_minn sc_coup sc_stub sc_energy sc_bstr sc_bwid sc_conf sc_infl sc_maxsize sc_maxconc
       sc_bsize sc_workers sc_upd sc_mon sc_optthr sc_batch];
  match goal with |- prob _ => lit | |- positive _ => vm_compute; reflexivity | |- _ => try lia; zcase; lia end.
Qed.

(** ... and passes exactly for 1 <= n <= 1,000,000. *)
Theorem C26_autoscale_iff : forall n, (V (Auto n) n = [] <-> 1 <= n <= 1000000) /\
  (snd (NV (Auto n) n) = true <-> 1 <= n <= 1000000).
Proof.
  intros n. assert (M : 1000 <= n -> sc_maxsize (Auto n) = 1000000).
  { intros H. unfold AutoScaleConfig. cbv zeta. cbn [sc_maxsize]. unfold autoScaleBase. zcase; try lia. reflexivity. }
  split; split; intros H.
  - apply err_conj in H. destruct H as ((H & G) & _). destruct (Z_lt_le_dec n 1000); [lia|]. rewrite M in G; lia.
  - destruct (C26_autoscale_ok n H). now apply ok_valid.
  - apply C26_success_iff in H. destruct H as (H & G). destruct (Z_lt_le_dec n 1000); [lia|]. rewrite M in G; lia.
  - destruct (C26_autoscale_ok n H) as [_ S]. now apply C26_success_iff.
Qed.

(** Multiplying a small float by a small literal does not produce NaN. *)
Lemma mul_lit x k : prob x -> is_finite k = true -> (0 <= B2R k <= 2)%R -> fisnan (fmul x k) = false /\
  is_finite (fmul x k) = true /\ (0 <= B2R (fmul x k))%R.
Proof.
  intros [Fx Rx] Fk Rk. assert (H : (0 <= B2R x * B2R k <= 2)%R) by nra.
  assert (A : (Rabs (B2R x * B2R k) <= bpow radix2 1023)%R).
  { rewrite Rabs_right by lra. apply Rle_trans with (bpow radix2 1); [simpl; lra|apply bpow_le; lia]. }
  destruct (fmul_fin x k Fx Fk A) as [B C]. split; [now apply fin_nan|]. split; auto. rewrite C. apply rnd_ge_0. lra.
Qed.
Lemma lit2 k : is_finite k = true -> flt k (fofZ 0) = false -> flt (fofZ 2) k = false -> (0 <= B2R k <= 2)%R.
Proof.
  intros Fk A B. apply flt_false in A; [|now apply fin_nan|apply fofZ_nan]. apply flt_false in B; [|apply fofZ_nan|now apply fin_nan].
  rewrite ford_fofZ in A, B by lia. rewrite ford_fin in A, B by auto. lra.
Qed.
Lemma min_prob a x : prob a -> is_finite x = true -> (0 <= B2R x)%R -> prob (@minFloat F (FNum tr) a x).
Proof.
  intros [Fa Ra] Fx Rx. unfold minFloat. change (@nlt F (FNum tr)) with flt.
  destruct (flt a x) eqn:E; [split; auto|]. apply flt_false in E; [|now apply fin_nan|now apply fin_nan].
  rewrite !ford_fin in E by auto. split; auto. lra.
Qed.
Ltac ml := match goal with |- is_finite (fmul ?x ?k) = true => apply (mul_lit x k)
           | |- (0 <= B2R (fmul ?x ?k))%R => apply (mul_lit x k) end; auto; apply lit2; vm_compute; reflexivity.

Lemma batch_base_prob n : 1 <= n <= 1000000 -> let c := @forBatchingBase F (FNum tr) n in
  prob (sc_prob c) /\ prob (sc_coup c) /\ prob (sc_stub c) /\ prob (sc_bstr c) /\ prob (sc_conf c) /\ prob (sc_infl c) /\
  fisnan (sc_energy c) = false /\ fisnan (sc_bwid c) = false.
Proof.
  intros Hn. unfold forBatchingBase. destruct (Z.leb_spec n 30).
  { cbv zeta. cbn [sc_prob sc_coup sc_stub sc_bstr sc_conf sc_infl sc_energy sc_bwid].
    repeat match goal with |- _ /\ _ => split end; try lit; vm_compute; reflexivity. }
  destruct (C26_autoscale_ok n Hn) as [K _]. destruct K. cbv zeta.
  cbn [sc_prob sc_coup sc_stub sc_bstr sc_conf sc_infl sc_energy sc_bwid].
  change (@nmul F (FNum tr)) with fmul.
  split; [|split; [|split; [|split; [|split; [|split; [|split]]]]]].
  - apply min_prob; [lit| |]; ml.
  - apply min_prob; [lit| |]; ml.
  - apply prob_mul; auto. lit.
  - lit.
  - lit.
  - lit.
  - unfold positive in k_energy. now apply flt_nan_r in k_energy.
  - reflexivity.
Qed.

(** Every batching configuration passes for exactly 1 <= n <= 1,000,000 whatever the window, and
    the configuration the swarm ends up with satisfies every constraint. *)
Theorem C26_batching : forall n w,
  (snd (NV (Batch n w) n) = true <-> 1 <= n <= 1000000) /\
  (1 <= n <= 1000000 -> config_ok (fst (NV (Batch n w) n)) n).
Proof.
  intros n w.
  assert (MS : sc_maxsize (Batch n w) = if n <=? 30 then 0 else sc_maxsize (Auto n)).
  { unfold ForBatching, forBatchingBase, set_coup_stub. destruct (n <=? 30); cbv zeta;
    destruct (w <? 100 * ms); try reflexivity; destruct (500 * ms <? w); reflexivity. }
  assert (I : snd (NV (Batch n w) n) = true <-> 1 <= n <= 1000000).
  { rewrite C26_success_iff, MS. destruct (C26_autoscale_iff n) as [_ A]. rewrite C26_success_iff in A.
    destruct (Z.leb_spec n 30); lia. }
  split; auto. intros Hn. apply C26_result_ok; [|tauto].
  destruct (batch_base_prob n Hn) as (P1 & P2 & P3 & P4 & P5 & P6 & P7 & P8).
  assert (NN : forall x, prob x -> fisnan x = false) by (intros x [Fx _]; now apply fin_nan).
  unfold ForBatching. cbv zeta. destruct (w <? 100 * ms); [|destruct (500 * ms <? w)];
    unfold no_nan, set_coup_stub; cbn [sc_prob sc_coup sc_stub sc_bstr sc_conf sc_infl sc_energy sc_bwid];
    repeat match goal with |- _ /\ _ => split end; auto; apply NN; change (@nmul F (FNum tr)) with fmul.
  - apply min_prob; [lit| |]; ml.
  - apply prob_mul; auto. lit.
  - apply prob_mul; auto. lit.
Qed.

(** With a window below 100ms the coupling is capped at 0.95, and otherwise it is at most the
    base configuration's. *)
Theorem C26_batching_coupling : forall n w, 1 <= n <= 1000000 ->
  prob (sc_coup (Batch n w)) /\ prob (sc_stub (Batch n w)) /\
  (w < 100 * ms -> fle (sc_coup (Batch n w)) (flit 95 100) = true) /\
  (100 * ms <= w -> fle (sc_coup (Batch n w)) (sc_coup (@forBatchingBase F (FNum tr) n)) = true).
Proof.
  intros n w Hn. destruct (batch_base_prob n Hn) as (_ & P2 & P3 & _).
  assert (L : prob (flit 95 100)) by lit. assert (L5 : prob (flit 5 10)) by lit.
  assert (MP : prob (@minFloat F (FNum tr) (flit 95 100) (fmul (sc_coup (@forBatchingBase F (FNum tr) n)) (flit 12 10)))).
  { apply min_prob; [lit| |]; ml. }
  unfold ForBatching. cbv zeta. change (@nmul F (FNum tr)) with fmul. change (@nlit F (FNum tr)) with flit.
  destruct (Z.ltb_spec w (100 * ms)); [|destruct (500 * ms <? w)];
    unfold set_coup_stub; cbn [sc_coup sc_stub]; (split; [|split; [|split]]); auto using prob_mul; try lia.
  - intros _. unfold minFloat. change (@nlt F (FNum tr)) with flt.
    set (x := fmul _ _). destruct (flt (flit 95 100) x) eqn:E; [vm_compute; reflexivity|].
    apply not_lt_fle; auto. apply fin_nan. unfold x. ml.
  - intros _. set (x := sc_coup _) in *. pose proof (prob_mul x _ P2 L) as [Fm _]. destruct P2 as [Fx Rx].
    apply fle_true. split; [now apply fin_nan|split; [now apply fin_nan|]]. rewrite !ford_fin by auto.
    destruct L as [FL RL].
    assert (G : (0 <= B2R x * B2R (flit 95 100) <= B2R x)%R) by nra.
    destruct (fmul_fin x (flit 95 100) Fx FL) as [_ ->]; [apply prob_fin_le; lra|].
    apply rnd_le_fmt; [apply fmt_B2R|tauto].
  - intros _. apply fle_refl. destruct P2 as [Fx _]. now apply fin_nan.
Qed.

(** The agents of a swarm are configured with the swarm's coupling, energy, influence and
    stubbornness, with known component names and every attribute randomised. *)
Theorem C26_agent_from_swarm : forall (c : SCfg F), let a := @AgentFromSwarm F (FNum tr) c in
  ac_rate a = sc_coup c /\ ac_tokens a = sc_energy c /\ ac_energy a = sc_energy c /\
  ac_infl a = sc_infl c /\ ac_stub a = sc_stub c /\ ac_maxn a = sc_assumed c /\
  ac_rphase a = true /\ ac_rgoal a = true /\ ac_rfreq a = true /\
  createDecisionMaker a = true /\ createGoalManager a = true /\
  @createResourceManager F (FNum tr) a <> None /\ @createStrategy F (FNum tr) a <> None.
Proof. intros c. cbv zeta. repeat split; discriminate. Qed.
End C26.
Print Assumptions C26_success_iff.
Print Assumptions C26_batching.

(** Hypotheses are met by concrete configurations. *)
Example C26_ex_default : forall tr, no_nan (@DefaultConfig F (FNum tr)) /\
  snd (@NormalizeAndValidate F (FNum tr) (@DefaultConfig F (FNum tr)) 50) = true.
Proof. intros tr. split; [repeat split; reflexivity|]. apply C26_success_iff. cbn. lia. Qed.
Example C26_ex_keeps : forall tr, config_ok (@AutoScaleConfig F (FNum tr) 250) 250 /\ size_ok (@AutoScaleConfig F (FNum tr) 250) 250.
Proof. intros tr. apply C26_autoscale_ok. lia. Qed.
