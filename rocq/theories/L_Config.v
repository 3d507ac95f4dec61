(** Lemmas for C26. *)
From Coq Require Import ZArith Reals Psatz Bool List String Lia.
From Flocq Require Import Core.Core IEEE754.BinarySingleNaN.
From Verif Require Import Num F64 M_SwarmConfig S_Config L_F64 L_F64x L_Ford.
Import ListNotations.
Open Scope Z_scope.

Lemma err_nil b f : err b f = [] <-> b = false.
Proof. destruct b; split; try discriminate; auto. Qed.
Lemma app_nil {A} (x y : list A) : x ++ y = [] <-> x = [] /\ y = [].
Proof. destruct x; cbn; [tauto|]. split; [discriminate|]. intros [H _]; discriminate. Qed.

Section C.
Variable tr : Trig.
Local Notation cl := (@clampProbability F (FNum tr)).
Local Notation out := (@outOfUnit F (FNum tr)).

Lemma cl_unfold x : cl x = if flt x (fofZ 0) then fofZ 0 else if flt (fofZ 1) x then fofZ 1 else x.
Proof. reflexivity. Qed.
Lemma out_unfold x : out x = (flt x (fofZ 0) || flt (fofZ 1) x)%bool.
Proof. reflexivity. Qed.
Lemma out_cl x : out (cl x) = false.
Proof.
  rewrite cl_unfold, out_unfold. destruct (flt x (fofZ 0)) eqn:A; [reflexivity|].
  destruct (flt (fofZ 1) x) eqn:B; [reflexivity|]. now rewrite A, B.
Qed.
Lemma cl_id x : out x = false -> cl x = x.
Proof. rewrite cl_unfold, out_unfold. intros H. apply orb_false_iff in H. destruct H as [-> ->]. reflexivity. Qed.
Lemma cl_idem x : cl (cl x) = cl x. Proof. apply cl_id, out_cl. Qed.
Lemma out_prob x : fisnan x = false -> (out x = false <-> prob x).
Proof.
  intros Nx. rewrite out_unfold, orb_false_iff. split.
  - intros [A B]. apply flt_false in A; [|auto|reflexivity]. apply flt_false in B; [|reflexivity|auto].
    rewrite ford_fofZ in A, B by lia.
    assert (Fi : is_finite x = true).
    { apply ford_fin_inv; auto. pose proof BIG_ge_1000. lra. }
    split; auto. rewrite ford_fin in A, B by auto. lra.
  - intros [Fi R]. rewrite <- (ford_fin x Fi) in R. split.
    + apply fle_not_lt, fle_true. repeat split; auto. rewrite ford_fofZ by lia. lra.
    + apply fle_not_lt, fle_true. repeat split; auto. rewrite ford_fofZ by lia. lra.
Qed.
Lemma prob_out x : prob x -> out x = false.
Proof. intros H. apply out_prob; auto. destruct H as [Fi _]. now apply fin_nan. Qed.
Lemma cl_prob x : fisnan x = false -> prob (cl x).
Proof.
  intros Nx. apply out_prob; [|apply out_cl]. rewrite cl_unfold.
  destruct (flt x (fofZ 0)); [reflexivity|]. now destruct (flt (fofZ 1) x).
Qed.

Local Notation V := (@Validate F (FNum tr)).
Local Notation norm := (@normalize F (FNum tr)).

Lemma err_conj c n : V c n = [] <->
  (0 < n /\ (0 < sc_maxsize c -> n <= sc_maxsize c)) /\
  (out (sc_prob c) = false /\ out (sc_coup c) = false /\ out (sc_stub c) = false /\
   out (sc_bstr c) = false /\ out (sc_conf c) = false /\ out (sc_infl c) = false) /\
  (sc_maxn c <= n - 1 /\ 0 <= sc_minn c <= sc_maxn c /\ (1 < n -> 1 <= sc_maxn c)) /\
  (fle (sc_energy c) (fofZ 0) = false /\ fle (sc_bwid c) (fofZ 0) = false /\ 0 < sc_upd c /\ 0 < sc_mon c) /\
  (0 <= sc_maxconc c /\ 0 <= sc_bsize c /\ 0 <= sc_workers c /\ 0 <= sc_optthr c).
Proof.
  unfold Validate, validateSwarmSize, validateProbabilities, validateNeighborConstraints,
    validatePositiveParameters, validateConcurrencyParameters.
  rewrite !app_nil. change (@nle F (FNum tr)) with fle. change (@n0 F (FNum tr)) with (fofZ 0).
  assert (E : (if ((0 <? n) && (n - 1 <=? 0))%bool then err (negb (sc_maxn c =? 0)) "MaxNeighbors"
    else err (sc_maxn c <? 1) "MaxNeighbors") = [] <->
    (0 < n -> n <= 1 -> sc_maxn c = 0) /\ (n <= 0 \/ 1 < n -> 1 <= sc_maxn c)).
  { destruct ((0 <? n) && (n - 1 <=? 0))%bool eqn:B; rewrite err_nil.
    - apply andb_true_iff in B. rewrite Z.ltb_lt, Z.leb_le in B. rewrite negb_false_iff, Z.eqb_eq. lia.
    - apply andb_false_iff in B. rewrite Z.ltb_ge, Z.leb_gt in B. rewrite Z.ltb_ge. lia. }
  rewrite E, !err_nil, !andb_false_iff, !Z.leb_gt, !Z.ltb_ge. clear E.
  split.
  - intros ((A1 & A2) & (B1 & B2 & B3 & B4 & B5 & B6) & ((C1 & C2) & C3 & C4 & C5) & (D1 & D2 & D3 & D4) & E1 & E2 & E3 & E4).
    repeat match goal with |- _ /\ _ => split end; auto; lia.
  - intros ((A1 & A2) & (B1 & B2 & B3 & B4 & B5 & B6) & (C1 & C2 & C3) & (D1 & D2 & D3 & D4) & E1 & E2 & E3 & E4).
    repeat match goal with |- _ /\ _ => split end; auto; lia.
Qed.

Lemma quot_nonneg n k : 0 < n -> 0 < k -> 0 <= Z.quot n k.
Proof. intros. apply Z.quot_pos; lia. Qed.
Lemma maxInt_ge a b : a <= maxInt a b /\ b <= maxInt a b.
Proof. unfold maxInt. destruct (Z.ltb_spec b a); lia. Qed.
Lemma minInt_le a b : minInt a b <= a /\ minInt a b <= b /\ (minInt a b = a \/ minInt a b = b).
Proof. unfold minInt. destruct (Z.ltb_spec a b); lia. Qed.

Lemma normMax_ok n mx : 0 < n -> let m := normMax n mx in 0 <= m <= n - 1 /\ (1 < n -> 1 <= m).
Proof.
  intros Hn. unfold normMax. rewrite (proj2 (Z.ltb_lt 0 n)) by lia.
  destruct (Z.leb_spec (n - 1) 0); cbv zeta; [lia|].
  destruct (Z.ltb_spec (n - 1) mx); [destruct (Z.ltb_spec (n - 1) 1); lia|].
  destruct (Z.ltb_spec mx 1); lia.
Qed.
Lemma normMin_ok n mx mn : 0 <= mx -> 0 <= normMin n mx mn <= mx.
Proof.
  intros H. unfold normMin. cbv zeta. destruct ((0 <? n) && (n - 1 <=? 0))%bool.
  - destruct (Z.ltb_spec mx 0); [lia|]. destruct (Z.ltb_spec 0 0); lia.
  - destruct (Z.ltb_spec mx mn).
    + destruct (Z.ltb_spec mx 0); lia.
    + destruct (Z.ltb_spec mn 0); lia.
Qed.

Lemma pos_default x d : fle d (fofZ 0) = false ->
  fle (if @nle F (FNum tr) x (@n0 F (FNum tr)) then d else x) (fofZ 0) = false.
Proof.
  change (@nle F (FNum tr)) with fle. change (@n0 F (FNum tr)) with (fofZ 0). intros H.
  destruct (fle x (fofZ 0)) eqn:E; auto.
Qed.

Lemma norm_valid c n : V (norm c n) n = [] <-> size_ok c n.
Proof.
  rewrite err_conj. unfold size_ok. split; [intros (H & _); exact H|].
  intros (Hn & Hs). pose proof (normMax_ok n (sc_maxn c) Hn) as MX. cbv zeta in MX.
  pose proof (normMin_ok n (normMax n (sc_maxn c)) (sc_minn c) ltac:(lia)) as MN.
  unfold normalize. cbv zeta.
  cbn [sc_prob sc_maxn sc_minn sc_coup sc_stub sc_energy sc_bstr sc_bwid sc_conf sc_infl sc_maxsize sc_maxconc
       sc_bsize sc_workers sc_upd sc_mon sc_optthr].
  assert (Q1 : 0 <= maxInt 10 (Z.quot n 50)) by (pose proof (maxInt_ge 10 (Z.quot n 50)); lia).
  assert (Q2 : 0 <= maxInt 4 (minInt 100 (Z.quot n 20))) by (pose proof (maxInt_ge 4 (minInt 100 (Z.quot n 20))); lia).
  repeat match goal with |- _ /\ _ => split end; auto using out_cl; try lia.
  1,2: apply pos_default; reflexivity.
  - unfold ms. destruct (Z.leb_spec (sc_upd c) 0); lia.
  - unfold ms. destruct (Z.leb_spec (sc_mon c) 0); lia.
  - destruct (Z.ltb_spec (sc_maxconc c) 0); lia.
  - destruct (Z.ltb_spec (sc_bsize c) 0), (sc_batch c && _)%bool; lia.
  - destruct (Z.ltb_spec (sc_workers c) 0), (sc_batch c && _)%bool; lia.
  - destruct (Z.ltb_spec (sc_optthr c) 0); lia.
Qed.

Lemma nv_eq c n : @NormalizeAndValidate F (FNum tr) c n = (norm c n, match V (norm c n) n with [] => true | _ => false end).
Proof.
  unfold NormalizeAndValidate. destruct (V c n) eqn:E.
  - apply err_conj in E. destruct E as [E _]. now rewrite (proj2 (norm_valid c n) E).
  - cbv zeta. now destruct (V (norm c n) n).
Qed.

(** The well-formedness constraints imply that normalisation changes nothing. *)
Lemma norm_id c n : 0 < n ->
  out (sc_prob c) = false -> out (sc_coup c) = false -> out (sc_stub c) = false ->
  out (sc_bstr c) = false -> out (sc_conf c) = false -> out (sc_infl c) = false ->
  sc_maxn c <= n - 1 -> 0 <= sc_minn c <= sc_maxn c -> (1 < n -> 1 <= sc_maxn c) ->
  fle (sc_energy c) (fofZ 0) = false -> fle (sc_bwid c) (fofZ 0) = false -> 0 < sc_upd c -> 0 < sc_mon c ->
  0 <= sc_maxconc c -> 0 <= sc_bsize c -> 0 <= sc_workers c -> 0 <= sc_optthr c ->
  (sc_batch c = true -> 0 < sc_bsize c /\ 0 < sc_workers c) -> norm c n = c.
Proof.
  intros Hn P1 P2 P3 P4 P5 P6 M1 M2 M3 E1 E2 U1 U2 K1 K2 K3 K4 KB.
  assert (MX : normMax n (sc_maxn c) = sc_maxn c).
  { unfold normMax. rewrite (proj2 (Z.ltb_lt 0 n)) by lia. destruct (Z.leb_spec (n - 1) 0); [lia|].
    destruct (Z.ltb_spec (n - 1) (sc_maxn c)); [lia|]. cbv zeta. destruct (Z.ltb_spec (sc_maxn c) 1); lia. }
  assert (MN : normMin n (sc_maxn c) (sc_minn c) = sc_minn c).
  { unfold normMin. cbv zeta. destruct ((0 <? n) && (n - 1 <=? 0))%bool eqn:B.
    - apply andb_true_iff in B. rewrite Z.ltb_lt, Z.leb_le in B.
      destruct (Z.ltb_spec (sc_maxn c) 0); [lia|]. destruct (Z.ltb_spec 0 0); lia.
    - destruct (Z.ltb_spec (sc_maxn c) (sc_minn c)); [lia|]. destruct (Z.ltb_spec (sc_minn c) 0); lia. }
  unfold normalize. cbv zeta. rewrite MX, MN, !cl_id by auto.
  change (@nle F (FNum tr)) with fle. change (@n0 F (FNum tr)) with (fofZ 0). rewrite E1, E2.
  rewrite (proj2 (Z.ltb_ge (sc_bsize c) 0)), (proj2 (Z.ltb_ge (sc_workers c) 0)),
    (proj2 (Z.ltb_ge (sc_maxconc c) 0)), (proj2 (Z.ltb_ge (sc_optthr c) 0)),
    (proj2 (Z.leb_gt (sc_upd c) 0)), (proj2 (Z.leb_gt (sc_mon c) 0)) by lia.
  destruct (sc_batch c) eqn:B.
  - destruct (KB eq_refl). rewrite (proj2 (Z.eqb_neq (sc_bsize c) 0)), (proj2 (Z.eqb_neq (sc_workers c) 0)) by lia.
    cbn [andb]. rewrite <- B. destruct c; reflexivity.
  - cbn [andb]. rewrite <- B. destruct c; reflexivity.
Qed.

Lemma norm_batch c n : sc_batch (norm c n) = true -> 0 < sc_bsize (norm c n) /\ 0 < sc_workers (norm c n).
Proof.
  unfold normalize. cbv zeta. cbn [sc_batch sc_bsize sc_workers]. intros ->. cbn [andb].
  pose proof (maxInt_ge 10 (Z.quot n 50)). pose proof (maxInt_ge 4 (minInt 100 (Z.quot n 20))).
  split; match goal with |- context [if ?b =? 0 then _ else _] => destruct (Z.eqb_spec b 0); [lia|] end.
  - destruct (Z.ltb_spec (sc_bsize c) 0); lia.
  - destruct (Z.ltb_spec (sc_workers c) 0); lia.
Qed.

Lemma norm_idem c n : 0 < n -> norm (norm c n) n = norm c n.
Proof.
  intros Hn.
  (* the size bound plays no role in normalize: use the unlimited variant for validity *)
  pose proof (normMax_ok n (sc_maxn c) Hn) as MX. cbv zeta in MX.
  pose proof (normMin_ok n (normMax n (sc_maxn c)) (sc_minn c) ltac:(lia)) as MN.
  pose proof (norm_batch c n) as NB.
  apply norm_id; auto; unfold normalize; cbv zeta;
  cbn [sc_prob sc_maxn sc_minn sc_coup sc_stub sc_energy sc_bstr sc_bwid sc_conf sc_infl sc_maxsize sc_maxconc
       sc_bsize sc_workers sc_upd sc_mon sc_optthr]; auto using out_cl; try lia.
  1,2: apply pos_default; reflexivity.
  - unfold ms. destruct (Z.leb_spec (sc_upd c) 0); lia.
  - unfold ms. destruct (Z.leb_spec (sc_mon c) 0); lia.
  - destruct (Z.ltb_spec (sc_maxconc c) 0); lia.
  - pose proof (maxInt_ge 10 (Z.quot n 50)). destruct (Z.ltb_spec (sc_bsize c) 0), (sc_batch c && _)%bool; lia.
  - pose proof (maxInt_ge 4 (minInt 100 (Z.quot n 20))). destruct (Z.ltb_spec (sc_workers c) 0), (sc_batch c && _)%bool; lia.
  - destruct (Z.ltb_spec (sc_optthr c) 0); lia.
Qed.

Lemma nle_pos x : fisnan x = false -> fle x (fofZ 0) = false -> positive x.
Proof. intros A B. apply not_le_flt; auto. Qed.
Lemma pos_nle x : positive x -> fle x (fofZ 0) = false.
Proof. apply flt_not_le. Qed.

Lemma valid_ok c n : no_nan c -> V c n = [] ->
  (sc_batch c = true -> 0 < sc_bsize c /\ 0 < sc_workers c) -> config_ok c n.
Proof.
  intros (N1 & N2 & N3 & N4 & N5 & N6 & N7 & N8) H KB. apply err_conj in H.
  destruct H as ((A1 & A2) & (B1 & B2 & B3 & B4 & B5 & B6) & (C1 & C2 & C3) & (D1 & D2 & D3 & D4) & E1 & E2 & E3 & E4).
  constructor; auto; try (now apply out_prob); now apply nle_pos.
Qed.
Lemma ok_valid c n : config_ok c n -> size_ok c n -> V c n = [].
Proof.
  intros [] (Hn & Hs). apply err_conj. repeat match goal with |- _ /\ _ => split end; auto using prob_out, pos_nle; lia.
Qed.
Lemma norm_no_nan c n : no_nan c -> no_nan (norm c n).
Proof.
  intros (N1 & N2 & N3 & N4 & N5 & N6 & N7 & N8).
  assert (G : forall x, fisnan x = false -> fisnan (cl x) = false).
  { intros x Hx. apply fin_nan. now apply cl_prob. }
  unfold normalize, no_nan. cbv zeta. cbn [sc_prob sc_coup sc_stub sc_energy sc_bstr sc_bwid sc_conf sc_infl].
  repeat match goal with |- _ /\ _ => split end; auto.
  - now destruct (@nle F (FNum tr) (sc_energy c) _).
  - now destruct (@nle F (FNum tr) (sc_bwid c) _).
Qed.
End C.
