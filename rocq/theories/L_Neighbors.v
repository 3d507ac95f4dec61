(** Lemmas about M_Neighbors: refinement to a finite map. *)
From Coq Require Import ZArith List Bool String Lia Permutation.
From Verif Require Import GoBase M_Neighbors S_Neighbors.
Import ListNotations.
Open Scope Z_scope.

Lemma setnth_app {A} (l1 : list A) x l2 v :
  setnth (l1 ++ x :: l2) (List.length l1) v = Some (l1 ++ v :: l2).
Proof. induction l1 as [|a l1 IH]; [reflexivity|]. cbn [app List.length setnth]. now rewrite IH. Qed.
Lemma setnth_app' {A} (l1 : list A) x l2 v k : k = List.length l1 ->
  setnth (l1 ++ x :: l2) k v = Some (l1 ++ v :: l2).
Proof. intros ->. apply setnth_app. Qed.
Lemma nth_error_mid {A} (l1 : list A) x l2 : nth_error (l1 ++ x :: l2) (List.length l1) = Some x.
Proof. rewrite nth_error_app2 by lia. now rewrite Nat.sub_diag. Qed.
Lemma setZ_app {A} (l1 : list A) x l2 v k : k = Z.of_nat (List.length l1) ->
  setZ (l1 ++ x :: l2) k v = Some (l1 ++ v :: l2).
Proof.
  intros ->. unfold setZ. rewrite (proj2 (Z.ltb_ge _ _)) by lia. rewrite Nat2Z.id. apply setnth_app.
Qed.
Lemma nthZ_app {A} (l1 : list A) x l2 k : k = Z.of_nat (List.length l1) -> nthZ (l1 ++ x :: l2) k = Some x.
Proof.
  intros ->. unfold nthZ. rewrite (proj2 (Z.ltb_ge _ _)) by lia. rewrite Nat2Z.id. apply nth_error_mid.
Qed.

Section L.
Context {V : Type} (vnil : V).
Notation NS := (NeighborStorage V).

(** The array contents [l] in use; [r1], [r2] are the free slots. *)
Record repr (ns : NS) (l : list (string * V)) : Prop := mkRepr {
  rp_rest : exists r1 r2, ns_ids ns = map fst l ++ r1 /\ ns_neighbors ns = map snd l ++ r2 /\
    Z.of_nat (List.length l + List.length r1) = ns_capacity ns /\ List.length r1 = List.length r2;
  rp_count : ns_count ns = Z.of_nat (List.length l);
  rp_cap : 0 < ns_capacity ns;
  rp_nodup : NoDup (map fst l) }.

Lemma new_repr cap : repr (NewNeighborStorage vnil cap) [].
Proof.
  unfold NewNeighborStorage. cbv zeta. set (c := if cap <=? 0 then 20 else cap).
  assert (0 < c) by (unfold c; destruct (Z.leb_spec cap 0); lia).
  constructor; cbn [ns_ids ns_neighbors ns_count ns_capacity]; auto; [|constructor].
  exists (repeat EmptyString (Z.to_nat c)), (repeat vnil (Z.to_nat c)). rewrite !repeat_length.
  repeat split; auto. cbn [List.length]. lia.
Qed.

Lemma findIdx_spec id : forall (l : list (string * V)) p r,
  (~ In id (map fst l) /\
   findIdx (p ++ map fst l ++ r) id (List.length p) (List.length l) = Some None) \/
  (exists l1 v l2, l = l1 ++ (id, v) :: l2 /\ ~ In id (map fst l1) /\
   findIdx (p ++ map fst l ++ r) id (List.length p) (List.length l)
   = Some (Some (List.length p + List.length l1)%nat)).
Proof.
  induction l as [|[x v] l IH]; intros p r.
  { left. split; auto. }
  cbn [map fst app List.length findIdx]. rewrite nth_error_mid.
  destruct (String.eqb_spec x id) as [->|Ne].
  - right. exists [], v, l. repeat split; auto. do 2 f_equal. cbn. lia.
  - specialize (IH (p ++ [x]) r). rewrite app_length in IH. cbn [List.length] in IH.
    rewrite Nat.add_1_r in IH. rewrite <- app_assoc in IH. cbn [app] in IH.
    destruct IH as [[NI E]|(l1 & w & l2 & -> & NI & E)].
    + left. split; auto. cbn. intros [H|H]; auto.
    + right. exists ((x, v) :: l1), w, l2. split; [reflexivity|]. split.
      * cbn. intros [H|H]; auto.
      * rewrite E. do 2 f_equal. cbn. lia.
Qed.

Lemma find_spec ns l id : repr ns l ->
  (~ In id (map fst l) /\ find ns id = Some None) \/
  (exists l1 v l2, l = l1 ++ (id, v) :: l2 /\ ~ In id (map fst l1) /\
   find ns id = Some (Some (List.length l1))).
Proof.
  intros [(r1 & r2 & E1 & E2 & Hc & Hr) Hn Hp Hd]. unfold find. rewrite E1, Hn, Nat2Z.id.
  exact (findIdx_spec id l [] r1).
Qed.

Lemma store_old ns l1 id v0 l2 v : repr ns (l1 ++ (id, v0) :: l2) -> ~ In id (map fst l1) ->
  exists ns', Store ns id v = Some (ns', true) /\ repr ns' (l1 ++ (id, v) :: l2) /\
    ns_capacity ns' = ns_capacity ns.
Proof.
  intros R NI. pose proof (find_spec ns _ id R) as [[H _]|(a & w & b & E & Na & F)].
  { exfalso. apply H. rewrite map_app. apply in_or_app. right. now left. }
  assert (a = l1 /\ b = l2 /\ w = v0) as (-> & -> & ->).
  { clear -E Na NI. revert a E Na NI. induction l1 as [|[x u] l1 IH]; intros [|[y z] a] E Na NI.
    - cbn in E. injection E as <- <-. auto.
    - cbn in E. injection E as <- <- E. exfalso. apply Na. now left.
    - cbn in E. injection E as -> -> E. exfalso. apply NI. now left.
    - cbn in E. injection E as <- <- E. destruct (IH a E) as (-> & -> & ->); auto.
      + intros H. apply Na. now right.
      + intros H. apply NI. now right. }
  destruct R as [(r1 & r2 & E1 & E2 & Hc & Hr) Hn Hp Hd].
  unfold Store. rewrite F, E2, map_app. cbn [map snd]. rewrite <- app_assoc. cbn [app].
  rewrite <- (map_length snd l1), setnth_app. eexists. split; [reflexivity|]. split; [|reflexivity].
  constructor; cbn [ns_ids ns_neighbors ns_count ns_capacity]; auto.
  - exists r1, r2. rewrite E1, !map_app. cbn [map fst snd]. rewrite <- !app_assoc. cbn [app].
    rewrite app_length in *. auto.
  - rewrite Hn, !app_length. reflexivity.
  - rewrite map_app in *. exact Hd.
Qed.

Lemma store_new ns l id v : repr ns l -> ~ In id (map fst l) ->
  (ns_count ns < ns_capacity ns -> exists ns', Store ns id v = Some (ns', true) /\
     repr ns' (l ++ [(id, v)]) /\ ns_capacity ns' = ns_capacity ns) /\
  (ns_capacity ns <= ns_count ns -> Store ns id v = Some (ns, false)).
Proof.
  intros R NI. pose proof (find_spec ns _ id R) as [[_ F]|(a & w & b & E & Na & F)].
  2:{ exfalso. apply NI. rewrite E, map_app. apply in_or_app. right. now left. }
  destruct R as [(r1 & r2 & E1 & E2 & Hc & Hr) Hn Hp Hd]. unfold Store. rewrite F.
  split; intros H.
  - rewrite (proj2 (Z.ltb_lt _ _)) by lia. destruct r1 as [|x r1]; [cbn in Hc; lia|].
    destruct r2 as [|y r2]; [discriminate|]. rewrite E1, E2.
    rewrite !setZ_app by (rewrite map_length; lia). eexists. split; [reflexivity|]. split; [|reflexivity].
    constructor; cbn [ns_ids ns_neighbors ns_count ns_capacity]; auto.
    + exists r1, r2. rewrite !map_app, <- !app_assoc. cbn [map fst snd app]. rewrite app_length.
      cbn [List.length] in *. repeat split; auto; lia.
    + rewrite app_length. cbn [List.length]. lia.
    + rewrite map_app. cbn [map fst]. apply (Permutation_NoDup (Permutation_cons_append (map fst l) id)).
      now constructor.
  - rewrite (proj2 (Z.ltb_ge _ _)) by lia. reflexivity.
Qed.

Lemma load_spec ns l id : repr ns l ->
  (~ In id (map fst l) /\ Load vnil ns id = Some (vnil, false)) \/
  (exists v, In (id, v) l /\ Load vnil ns id = Some (v, true)).
Proof.
  intros R. pose proof (find_spec ns _ id R) as [[N F]|(l1 & v & l2 & E & Na & F)]; unfold Load; rewrite F.
  - left. auto.
  - right. exists v. destruct R as [(r1 & r2 & E1 & E2 & _) _ _ _]. subst l. split.
    { apply in_or_app. right. now left. }
    rewrite E2, map_app, <- app_assoc. cbn [map snd app]. rewrite <- (map_length snd l1), nth_error_mid. reflexivity.
Qed.

Lemma list_snoc {A} (l : list A) : l = [] \/ exists l' x, l = l' ++ [x].
Proof. destruct l as [|a l]; [auto|]. right. destruct (@exists_last _ (a :: l)) as (l' & x & E); [discriminate|eauto]. Qed.

Lemma delete_spec ns l id : repr ns l ->
  (~ In id (map fst l) /\ Delete vnil ns id = Some ns) \/
  (exists v ns' l', Delete vnil ns id = Some ns' /\ repr ns' l' /\ ns_capacity ns' = ns_capacity ns /\
     Permutation l ((id, v) :: l')).
Proof.
  intros R. pose proof (find_spec ns _ id R) as [[N F]|(l1 & v & l2 & E & Na & F)]; unfold Delete; rewrite F.
  { left. auto. }
  right. destruct R as [(r1 & r2 & E1 & E2 & Hc & Hr) Hn Hp Hd]. subst l. exists v.
  cbv zeta. rewrite app_length in *. cbn [List.length] in *.
  destruct (list_snoc l2) as [->|(l2' & [y w] & ->)].
  - rewrite (proj2 (Z.ltb_ge _ _)) by (cbn in Hn; lia).
    rewrite E1, E2, !map_app, <- !app_assoc. cbn [map fst snd app].
    rewrite !setZ_app by (rewrite map_length; cbn in Hn; lia).
    eexists. exists l1. split; [reflexivity|]. split; [|split; [reflexivity|]].
    + constructor; cbn [ns_ids ns_neighbors ns_count ns_capacity]; auto.
      * exists (EmptyString :: r1), (vnil :: r2). cbn [List.length] in *. repeat split; auto; lia.
      * cbn in Hn. lia.
      * rewrite map_app in Hd. apply NoDup_remove_1 in Hd. rewrite app_nil_r in Hd. exact Hd.
    + rewrite <- Permutation_middle, app_nil_r. reflexivity.
  - rewrite app_length in *. cbn [List.length] in *. rewrite (proj2 (Z.ltb_lt _ _)) by lia.
    assert (S1 : map fst (l1 ++ (id, v) :: l2' ++ [(y, w)]) ++ r1
                 = (map fst l1 ++ id :: map fst l2') ++ y :: r1).
    { rewrite !map_app. cbn [map fst]. rewrite map_app, <- !app_assoc. cbn [map fst app]. now rewrite <- app_assoc. }
    assert (S2 : map snd (l1 ++ (id, v) :: l2' ++ [(y, w)]) ++ r2
                 = (map snd l1 ++ v :: map snd l2') ++ w :: r2).
    { rewrite !map_app. cbn [map snd]. rewrite map_app, <- !app_assoc. cbn [map snd app]. now rewrite <- app_assoc. }
    rewrite E1, E2, S1, S2.
    rewrite !nthZ_app by (rewrite app_length; cbn [List.length]; rewrite !map_length; lia).
    rewrite <- !app_assoc. cbn [app]. 
    rewrite !setnth_app' by (now rewrite map_length).
    replace (map fst l1 ++ y :: map fst l2' ++ y :: r1) with ((map fst l1 ++ y :: map fst l2') ++ y :: r1)
      by (rewrite <- app_assoc; reflexivity).
    replace (map snd l1 ++ w :: map snd l2' ++ w :: r2) with ((map snd l1 ++ w :: map snd l2') ++ w :: r2)
      by (rewrite <- app_assoc; reflexivity).
    rewrite !setZ_app by (rewrite app_length; cbn [List.length]; rewrite !map_length; lia).
    eexists. exists (l1 ++ (y, w) :: l2'). split; [reflexivity|].
    assert (P : Permutation (l1 ++ (id, v) :: l2' ++ [(y, w)]) ((id, v) :: l1 ++ (y, w) :: l2')).
    { rewrite <- Permutation_middle. constructor. apply Permutation_app_head.
      symmetry. apply Permutation_cons_append. }
    split; [|split; [reflexivity|exact P]].
    constructor; cbn [ns_ids ns_neighbors ns_count ns_capacity]; auto.
    + exists (EmptyString :: r1), (vnil :: r2). rewrite !map_app, app_length. cbn [map fst snd List.length] in *.
      rewrite <- !app_assoc. cbn [app]. repeat split; auto; lia.
    + rewrite app_length. cbn [List.length]. lia.
    + apply (Permutation_map fst) in P. cbn [map fst] in P. apply (Permutation_NoDup P) in Hd. now inversion Hd.
Qed.

Lemma clearTo_spec {A} (z : A) : forall (l p r : list A),
  clearTo (p ++ l ++ r) z (List.length p) (List.length l) = Some (p ++ repeat z (List.length l) ++ r).
Proof.
  induction l as [|x l IH]; intros p r; [reflexivity|].
  cbn [List.length clearTo app]. rewrite setnth_app.
  specialize (IH (p ++ [z]) r). rewrite app_length in IH. cbn [List.length] in IH.
  rewrite Nat.add_1_r, <- !app_assoc in IH. cbn [app] in IH. rewrite IH. reflexivity.
Qed.

Lemma clear_spec ns l : repr ns l ->
  exists ns', Clear vnil ns = Some ns' /\ repr ns' [] /\ ns_capacity ns' = ns_capacity ns.
Proof.
  intros [(r1 & r2 & E1 & E2 & Hc & Hr) Hn Hp Hd]. unfold Clear. rewrite E1, E2, Hn, Nat2Z.id.
  pose proof (clearTo_spec EmptyString (map fst l) [] r1) as C1. rewrite map_length in C1.
  pose proof (clearTo_spec vnil (map snd l) [] r2) as C2. rewrite map_length in C2.
  cbn [app List.length] in C1, C2. rewrite C1, C2.
  eexists. split; [reflexivity|]. split; [|reflexivity].
  constructor; cbn [ns_ids ns_neighbors ns_count ns_capacity]; auto; [|constructor].
  exists (repeat EmptyString (List.length l) ++ r1), (repeat vnil (List.length l) ++ r2).
  rewrite !app_length, !repeat_length. cbn [List.length map app]. repeat split; auto; lia.
Qed.

Lemma all_spec ns l : repr ns l -> All ns = Some (map snd l).
Proof.
  intros [(r1 & r2 & E1 & E2 & Hc & Hr) Hn Hp Hd]. unfold All. rewrite Hn.
  destruct (Z.eqb_spec (Z.of_nat (List.length l)) 0) as [E|E].
  - destruct l; [reflexivity|cbn in E; lia].
  - rewrite E2, app_length, map_length. rewrite (proj2 (Z.ltb_ge _ _)) by lia.
    rewrite Nat2Z.id, <- (map_length snd l), firstn_app, Nat.sub_diag, firstn_all. cbn [firstn]. now rewrite app_nil_r.
Qed.

(** The prefix visited by Range. *)
Fixpoint visited (f : string -> V -> bool) (l : list (string * V)) : list (string * V) :=
  match l with
  | [] => []
  | (x, v) :: r => if f x v then (x, v) :: visited f r else [(x, v)]
  end.
Lemma rangeFrom_spec f : forall (l : list (string * V)) p q r1 r2, List.length p = List.length q ->
  rangeFrom (p ++ map fst l ++ r1) (q ++ map snd l ++ r2) f (List.length p) (List.length l) = Some (visited f l).
Proof.
  induction l as [|[x v] l IH]; intros p q r1 r2 E; [reflexivity|].
  cbn [List.length rangeFrom map fst snd app visited]. rewrite nth_error_mid.
  rewrite E at 1. rewrite nth_error_mid. destruct (f x v); [|reflexivity].
  specialize (IH (p ++ [x]) (q ++ [v]) r1 r2). rewrite !app_length in IH. cbn [List.length] in IH.
  rewrite !Nat.add_1_r, <- !app_assoc in IH. cbn [app] in IH. rewrite IH; [reflexivity|congruence].
Qed.
Lemma range_spec ns l f : repr ns l -> Range ns f = Some (visited f l).
Proof.
  intros [(r1 & r2 & E1 & E2 & Hc & Hr) Hn Hp Hd]. unfold Range. rewrite E1, E2, Hn, Nat2Z.id.
  exact (rangeFrom_spec f l [] [] r1 r2 eq_refl).
Qed.
Lemma visited_prefix f l : exists r, l = visited f l ++ r.
Proof.
  induction l as [|[x v] l [r IH]]; [exists []; reflexivity|]. cbn [visited]. destruct (f x v).
  - exists r. cbn. now rewrite <- IH.
  - exists l. reflexivity.
Qed.
Lemma visited_all l : visited (fun _ _ => true) l = l.
Proof. induction l as [|[x v] l IH]; [reflexivity|]. cbn. now rewrite IH. Qed.

(** Step-by-step refinement. *)
Definition rel (cap : Z) (ns : NS) (m : FMap V) : Prop :=
  exists l, repr ns l /\ enumerates l m /\ ns_capacity ns = cap.

Lemma enum_notin l (m : FMap V) id : enumerates l m -> ~ In id (map fst l) -> fm_get m id = None.
Proof.
  intros (A & B & C) H. destruct (fm_get m id) eqn:E; auto. exfalso. apply H. apply C in E.
  apply (in_map fst) in E. exact E.
Qed.
Lemma enum_in l (m : FMap V) id v : enumerates l m -> In (id, v) l -> fm_get m id = Some v.
Proof. intros (A & B & C) H. now apply C. Qed.
Lemma enum_perm l l' (m : FMap V) : Permutation l l' -> enumerates l m -> enumerates l' m.
Proof.
  intros P (A & B & C). split; [|split].
  - eapply Permutation_NoDup; [apply Permutation_map, P|exact A].
  - now rewrite <- (Permutation_length P).
  - intros id v. rewrite <- C. split; apply Permutation_in; [symmetry|]; exact P.
Qed.

Lemma step_refines cap ns m o : rel cap ns m ->
  exists ns', nsStep vnil ns o = Some (ns', snd (specStep vnil cap m o)) /\
              rel cap ns' (fst (specStep vnil cap m o)).
Proof.
  intros (l & R & En & Hcap). pose proof En as (Nd & Sz & Get).
  assert (Hn : ns_count ns = Z.of_nat (List.length l)) by apply R.
  destruct o as [id v|id|id| |]; cbn [nsStep specStep].
  - destruct (fm_get m id) as [v0|] eqn:E.
    + apply Get in E. pose proof (find_spec ns l id R) as [[H _]|(l1 & w & l2 & El & Na & _)].
      { exfalso. apply H. apply (in_map fst) in E. exact E. }
      subst l. destruct (store_old ns l1 id w l2 v R Na) as (ns' & S1 & S2 & S3).
      rewrite S1. exists ns'. split; [reflexivity|]. exists (l1 ++ (id, v) :: l2).
      split; auto. split; [|congruence]. cbn [fst snd].
      assert (Nd' : NoDup (map fst (l1 ++ (id, v) :: l2))) by (rewrite map_app in *; exact Nd).
      split; [exact Nd'|]. split; [rewrite app_length in *; exact Sz|].
      intros x u. cbn [fm_get]. unfold upd. rewrite in_app_iff. cbn [In].
      rewrite map_app in Nd. cbn [map fst] in Nd. apply NoDup_remove_2 in Nd. rewrite in_app_iff in Nd.
      destruct (String.eqb_spec x id) as [->|Ne].
      * split.
        -- intros [H|[H|H]]; [|now injection H as ->|]; exfalso; apply Nd; [left|right]; apply (in_map fst) in H; exact H.
        -- intros [= ->]. auto.
      * rewrite <- Get, in_app_iff. cbn [In]. split; intros [H|[H|H]]; auto; injection H as -> _; congruence.
    + assert (NI : ~ In id (map fst l)).
      { intros H. apply in_map_iff in H. destruct H as ([x u] & <- & H). apply Get in H. cbn in E. congruence. }
      destruct (store_new ns l id v R NI) as [S1 S2]. rewrite <- Sz, <- Hn, <- Hcap.
      destruct (Z.ltb_spec (ns_count ns) (ns_capacity ns)) as [L|L].
      * destruct (S1 L) as (ns' & T1 & T2 & T3). rewrite T1. exists ns'. split; [reflexivity|].
        exists (l ++ [(id, v)]). split; auto. split; [|congruence]. cbn [fst].
        split; [|split].
        -- rewrite map_app. cbn [map fst]. apply (Permutation_NoDup (Permutation_cons_append (map fst l) id)).
           now constructor.
        -- cbn [fm_size]. rewrite app_length. cbn [List.length]. lia.
        -- intros x u. cbn [fm_get]. unfold upd. rewrite in_app_iff. cbn [In].
           destruct (String.eqb_spec x id) as [->|Ne].
           ++ split; [intros [H|[H|[]]]|intros [= ->]; auto].
              ** exfalso. apply NI. apply (in_map fst) in H. exact H.
              ** now injection H as ->.
           ++ rewrite <- Get. split; [intros [H|[H|[]]]|]; auto. injection H as -> _; congruence.
      * rewrite (S2 L). exists ns. split; [reflexivity|]. exists l. auto.
  - destruct (load_spec ns l id R) as [[N E]|(v & I & E)]; rewrite E; exists ns.
    + rewrite (enum_notin _ _ _ En N). split; [reflexivity|]. exists l. auto.
    + rewrite (enum_in _ _ _ _ En I). split; [reflexivity|]. exists l. auto.
  - destruct (delete_spec ns l id R) as [[N E]|(v & ns' & l' & E & R' & C' & P)]; rewrite E.
    + rewrite (enum_notin _ _ _ En N). exists ns. split; [reflexivity|]. exists l. auto.
    + assert (I : In (id, v) l) by (apply (Permutation_in _ (Permutation_sym P)); now left).
      rewrite (enum_in _ _ _ _ En I). exists ns'. split; [reflexivity|]. exists l'. split; auto.
      split; [|congruence]. cbn [fst]. apply (enum_perm _ _ _ P) in En. destruct En as (Nd' & Sz' & Get').
      cbn [map fst] in Nd'. inversion Nd' as [|? ? Hx Hd]; subst. split; auto. split.
      { cbn [fm_size List.length] in *. lia. }
      intros x u. cbn [fm_get]. unfold upd. destruct (String.eqb_spec x id) as [->|Ne].
      * split; [|discriminate]. intros H. exfalso. apply Hx. apply (in_map fst) in H. exact H.
      * rewrite <- Get'. cbn [In]. split; [auto|]. intros [H|H]; auto. injection H as -> _; congruence.
  - exists ns. split; [unfold Count; now rewrite Hn, Sz|]. exists l. auto.
  - destruct (clear_spec ns l R) as (ns' & E & R' & C'). rewrite E. exists ns'. split; [reflexivity|].
    exists []. split; auto. split; [|congruence]. split; [constructor|]. split; [reflexivity|].
    intros id v. split; [intros []|discriminate].
Qed.

Lemma run_refines cap : forall ops ns m, rel cap ns m ->
  exists ns', nsRun vnil ns ops = Some (ns', snd (specRun vnil cap m ops)) /\
              rel cap ns' (fst (specRun vnil cap m ops)).
Proof.
  induction ops as [|o ops IH]; intros ns m H.
  - exists ns. split; [reflexivity|exact H].
  - cbn [nsRun specRun]. destruct (step_refines cap ns m o H) as (ns1 & E1 & R1). rewrite E1.
    destruct (specStep vnil cap m o) as [m1 x1]. cbn [fst snd] in *.
    destruct (IH ns1 m1 R1) as (ns2 & E2 & R2). rewrite E2.
    destruct (specRun vnil cap m1 ops) as [m2 x2]. cbn [fst snd] in *. exists ns2. auto.
Qed.
End L.
