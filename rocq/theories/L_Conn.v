(** Lemmas for C20-C22: the wiring loops. *)
From Coq Require Import ZArith List Bool String Lia Permutation.
From Verif Require Import Num GoBase M_Neighbors L_Neighbors M_SwarmConfig M_Conn S_Conn.
Import ListNotations.
Open Scope Z_scope.

Ltac spl := repeat match goal with |- _ /\ _ => split end.

Lemma has_iff e a b : has e a b = true <-> In (a, b) e.
Proof.
  unfold has. rewrite existsb_exists. split.
  - intros ([x y] & H & E). apply andb_true_iff in E. cbn [fst snd] in E. destruct E as [E1 E2].
    apply String.eqb_eq in E1, E2. now subst.
  - intros H. exists (a, b). split; auto. cbn [fst snd]. now rewrite !String.eqb_refl.
Qed.
Lemma has_false e a b : has e a b = false <-> ~ In (a, b) e.
Proof. rewrite <- has_iff. destruct (has e a b); split; intros; congruence. Qed.

Record wf (agents : list string) (e : Adj) : Prop := {
  wf_nodup : NoDup e; wf_sym : symmetric e; wf_irr : irreflexive e; wf_over : over agents e }.

Lemma wf_nil agents : wf agents [].
Proof. constructor; [constructor|intros a b; tauto|intros a []|intros a b []]. Qed.

Lemma link_new agents e a b : wf agents e -> a <> b -> has e a b = false ->
  link e a b = (b, a) :: (a, b) :: e.
Proof.
  intros W N H. unfold link, store. rewrite H.
  assert (H' : has ((a, b) :: e) b a = false).
  { apply has_false. intros [E|E]; [congruence|]. apply has_false in H. apply H. now apply (wf_sym _ _ W). }
  now rewrite H'.
Qed.
Lemma link_wf agents e a b : wf agents e -> a <> b -> has e a b = false -> In a agents -> In b agents ->
  wf agents (link e a b).
Proof.
  intros W N H Ia Ib. rewrite (link_new _ _ _ _ W N H). apply has_false in H. destruct W as [W1 W2 W3 W4].
  constructor.
  - constructor.
    + intros [E|E]; [congruence|]. apply H. now apply W2.
    + now constructor.
  - intros x y. cbn [In]. specialize (W2 x y). split.
    + intros [E|[E|E]]; [inversion E; subst; auto|inversion E; subst; auto|tauto].
    + intros [E|[E|E]]; [inversion E; subst; auto|inversion E; subst; auto|tauto].
  - intros x [E|[E|E]]; try congruence. exact (W3 x E).
  - intros x y [E|[E|E]]; [inversion E; subst; auto|inversion E; subst; auto|now apply W4].
Qed.
Lemma link_incl e a b : incl e (link e a b).
Proof.
  unfold link, store. destruct (has e a b); [|]; match goal with |- context [has ?x b a] => destruct (has x b a) end;
    intros z Hz; cbn [In]; auto.
Qed.
Lemma link_in agents e a b : wf agents e -> a <> b -> has e a b = false -> forall x y,
  In (x, y) (link e a b) <-> (x = b /\ y = a) \/ (x = a /\ y = b) \/ In (x, y) e.
Proof.
  intros W N H x y. rewrite (link_new _ _ _ _ W N H). cbn [In]. split.
  - intros [E|[E|E]]; [inversion E; auto|inversion E; auto|auto].
  - intros [[-> ->]|[[-> ->]|E]]; auto.
Qed.
Lemma bool_iff (b b' : bool) : (b = true <-> b' = true) -> b = b'.
Proof. destruct b, b'; intros H; auto; [symmetry; now apply H|now apply H]. Qed.
Lemma link_has agents e a b x : wf agents e -> a <> b -> has e a b = false ->
  has (link e a b) a x = (String.eqb x b || has e a x)%bool.
Proof.
  intros W N H. apply bool_iff. rewrite has_iff, orb_true_iff, String.eqb_eq, has_iff, (link_in _ _ _ _ W N H).
  intuition congruence.
Qed.
Lemma link_len agents e a b : wf agents e -> a <> b -> has e a b = false ->
  List.length (link e a b) = (2 + List.length e)%nat.
Proof. intros W N H. now rewrite (link_new _ _ _ _ W N H). Qed.
Lemma link_deg agents e a b : wf agents e -> a <> b -> has e a b = false ->
  degree (link e a b) a = degree e a + 1.
Proof.
  intros W N H. rewrite (link_new _ _ _ _ W N H). unfold degree. cbn [filter fst].
  rewrite String.eqb_refl. destruct (String.eqb_spec b a); [congruence|]. cbn [List.length]. lia.
Qed.
Lemma degree_mono e e' a : NoDup e -> incl e e' -> degree e a <= degree e' a.
Proof.
  intros ND I. unfold degree. apply inj_le. apply NoDup_incl_length.
  - now apply NoDup_filter.
  - intros x Hx. apply filter_In in Hx. apply filter_In. split; [apply I|]; tauto.
Qed.

(** The degree counts the other agents that are neighbors. *)
Lemma degree_others agents e a R : wf agents e -> NoDup R -> (forall x, In x agents -> x <> a -> In x R) ->
  ~ In a R -> degree e a = Z.of_nat (List.length (filter (has e a) R)).
Proof.
  intros W ND IR NI. unfold degree. f_equal.
  rewrite <- (map_length snd (filter (fun p => String.eqb (fst p) a) e)).
  apply Permutation_length, NoDup_Permutation.
  - (* NoDup of the second components *)
    pose proof (wf_nodup _ _ W) as NE. clear -NE. induction e as [|[x y] e IH]; [constructor|].
    inversion NE; subst. cbn [filter fst]. destruct (String.eqb_spec x a).
    + subst x. cbn [map snd]. constructor; [|auto]. intros H. apply in_map_iff in H.
      destruct H as ([u v] & E & H). cbn [snd] in E. subst v. apply filter_In in H. cbn [fst] in H.
      destruct H as [H E]. apply String.eqb_eq in E. subst u. auto.
    + auto.
  - now apply NoDup_filter.
  - intros x. rewrite in_map_iff, filter_In. split.
    + intros ([u v] & E & H). cbn [snd] in E. subst v. apply filter_In in H. cbn [fst] in H.
      destruct H as [H E]. apply String.eqb_eq in E. subst u. split; [|now apply has_iff].
      destruct (wf_over _ _ W a x H) as [_ Ix]. apply IR; auto. intros ->. now apply (wf_irr _ _ W a).
    + intros [Hx H]. exists (a, x). split; auto. apply filter_In. cbn [fst]. rewrite String.eqb_refl.
      split; auto. now apply has_iff.
Qed.

Section W.
Context {T : Type} {N : Num T}.
Implicit Types (fl : list T).

(** The loop of connectToNeighbors over the list of the other agents. *)
Fixpoint loop2 (mx : Z) (p : T) (a : string) (R : list string) (connected : Z) (e : Adj) fl
  : option (Z * Adj * list T) :=
  match R with
  | [] => Some (connected, e, fl)
  | nb :: r =>
    if mx <=? connected then Some (connected, e, fl)
    else if has e a nb then loop2 mx p a r (connected + 1) e fl
    else match fl with
         | [] => None
         | d :: fl' =>
           if nlt d p then loop2 mx p a r (connected + 1) (link e a nb) fl'
           else loop2 mx p a r connected e fl'
         end
  end.
Lemma loop2_full mx p a R connected e fl : mx <= connected -> loop2 mx p a R connected e fl = Some (connected, e, fl).
Proof. intros H. destruct R; cbn [loop2]; auto. now rewrite (proj2 (Z.leb_le _ _) H). Qed.
Lemma connectLoop_eq mx p a i : forall rest j connected e fl,
  connectLoop mx p a i rest j connected e fl =
  loop2 mx p a (if (j <=? i)%nat then dropIdx (i - j) rest else rest) connected e fl.
Proof.
  induction rest as [|nb r IH]; intros j connected e fl.
  - cbn [connectLoop]. destruct (j <=? i)%nat; [|reflexivity]. destruct (i - j)%nat; reflexivity.
  - cbn [connectLoop]. destruct (Nat.eqb_spec j i) as [->|Hj].
    + rewrite Nat.leb_refl, Nat.sub_diag. cbn [dropIdx]. rewrite IH.
      destruct (Nat.leb_spec (S i) i); [lia|reflexivity].
    + rewrite !IH. destruct (Nat.leb_spec j i).
      * destruct (Nat.leb_spec (S j) i); [|lia].
        replace (i - j)%nat with (S (i - S j)) by lia. cbn [dropIdx loop2].
        destruct (mx <=? connected); auto. destruct (has e a nb); auto. destruct fl as [|d fl']; auto.
        rewrite !IH. destruct (Nat.leb_spec (S j) i); [|lia]. reflexivity.
      * destruct (Nat.leb_spec (S j) i); [lia|]. cbn [loop2].
        destruct (mx <=? connected); auto. destruct (has e a nb); auto. destruct fl as [|d fl']; auto.
        rewrite !IH. destruct (Nat.leb_spec (S j) i); [lia|]. reflexivity.
Qed.

Definition flen {A} (f : A -> bool) (l : list A) : Z := Z.of_nat (List.length (filter f l)).
Lemma flen_cons {A} (f : A -> bool) x l : flen f (x :: l) = (if f x then 1 else 0) + flen f l.
Proof. unfold flen. cbn [filter]. destruct (f x); cbn [List.length]; lia. Qed.
Lemma flen_nonneg {A} (f : A -> bool) l : 0 <= flen f l.
Proof. unfold flen. lia. Qed.

Lemma loop2_spec agents mx p a : In a agents -> forall R connected e fl c' e' fl',
  NoDup R -> ~ In a R -> incl R agents -> wf agents e ->
  loop2 mx p a R connected e fl = Some (c', e', fl') ->
  wf agents e' /\ incl e e' /\ connected <= c' /\ (connected <= mx -> c' <= mx) /\
  Z.of_nat (List.length e') <= Z.of_nat (List.length e) + 2 * (c' - connected) /\
  (forall x, ~ In x R -> has e' a x = has e a x) /\
  (c' < mx -> c' = connected + flen (has e' a) R) /\ c' <= connected + flen (has e' a) R.
Proof.
  intros Ia. induction R as [|nb r IH]; intros connected e fl c' e' fl' ND NI IA W H.
  - cbn [loop2] in H. injection H as <- <- <-. change (flen (has e a) []) with 0. spl; auto; try lia; try apply incl_refl.
  - assert (Na : a <> nb) by (intros ->; apply NI; now left).
    assert (Nr : ~ In nb r) by now inversion ND.
    assert (NDr : NoDup r) by now inversion ND.
    assert (NIr : ~ In a r) by (intros Q; apply NI; now right).
    assert (IAr : incl r agents) by (intros z Hz; apply IA; now right).
    cbn [loop2] in H. destruct (Z.leb_spec mx connected) as [L|L].
    { injection H as <- <- <-. pose proof (flen_nonneg (has e a) (nb :: r)).
      spl; auto; try lia; try apply incl_refl. }
    destruct (has e a nb) eqn:Hh.
    { apply IH in H; auto. destruct H as (A1 & A2 & A3 & A4 & A5 & A6 & A7 & A8).
      rewrite flen_cons, (A6 nb Nr), Hh. spl; auto; try lia.
      intros x Hx. apply A6. intros Q. apply Hx. now right. }
    destruct fl as [|d fl0]; [discriminate|]. destruct (nlt d p).
    + assert (Ib : In nb agents) by (apply IA; now left).
      pose proof (link_wf agents e a nb W Na Hh Ia Ib) as W'.
      apply IH in H; auto. destruct H as (A1 & A2 & A3 & A4 & A5 & A6 & A7 & A8).
      rewrite (link_len agents e a nb W Na Hh) in A5.
      rewrite flen_cons, (A6 nb Nr), (link_has agents e a nb nb W Na Hh), String.eqb_refl. cbn [orb].
      spl; auto; try lia.
      * intros z Hz. apply A2, link_incl, Hz.
      * intros x Hx. rewrite A6 by (intros Q; apply Hx; now right). rewrite (link_has agents e a nb x W Na Hh).
        destruct (String.eqb_spec x nb); [|reflexivity]. exfalso. apply Hx. subst. now left.
    + apply IH in H; auto. destruct H as (A1 & A2 & A3 & A4 & A5 & A6 & A7 & A8).
      rewrite flen_cons, (A6 nb Nr), Hh. spl; auto; try lia.
      intros x Hx. apply A6. intros Q. apply Hx. now right.
Qed.
Lemma loop2_draws mx p a : forall R connected e fl, (List.length R <= List.length fl)%nat ->
  exists c' e' fl', loop2 mx p a R connected e fl = Some (c', e', fl') /\
    (List.length fl <= List.length fl' + List.length R)%nat.
Proof.
  induction R as [|nb r IH]; intros connected e fl H.
  - cbn [loop2]. exists connected, e, fl. split; [reflexivity|lia].
  - cbn [loop2 List.length] in *. destruct (mx <=? connected); [do 3 eexists; split; [reflexivity|lia]|].
    destruct (has e a nb).
    { destruct (IH (connected + 1) e fl ltac:(lia)) as (c & e' & f & E & L). exists c, e', f. split; auto; lia. }
    destruct fl as [|d fl']; [cbn in H; lia|]. cbn [List.length] in H. destruct (nlt d p).
    + destruct (IH (connected + 1) (link e a nb) fl' ltac:(lia)) as (c & e' & f & E & L). exists c, e', f. cbn [List.length]. split; auto; lia.
    + destruct (IH connected e fl' ltac:(lia)) as (c & e' & f & E & L). exists c, e', f. cbn [List.length]. split; auto; lia.
Qed.

Lemma nthZ_In {A} (l : list A) i x : nthZ l i = Some x -> In x l.
Proof. unfold nthZ. destruct (i <? 0); [discriminate|]. apply nth_error_In. Qed.
Lemma nthZ_some {A} (l : list A) i : 0 <= i < Z.of_nat (List.length l) -> exists x, nthZ l i = Some x.
Proof.
  intros H. unfold nthZ. rewrite (proj2 (Z.ltb_ge i 0)) by lia.
  destruct (nth_error l (Z.to_nat i)) eqn:E; eauto. apply nth_error_None in E. lia.
Qed.
Lemma In_nthZ {A} (l : list A) x : In x l -> exists i, 0 <= i < Z.of_nat (List.length l) /\ nthZ l i = Some x.
Proof.
  intros H. apply In_nth_error in H. destruct H as [k E]. exists (Z.of_nat k).
  assert (k < List.length l)%nat by (apply nth_error_Some; congruence).
  split; [lia|]. unfold nthZ. rewrite (proj2 (Z.ltb_ge _ 0)) by lia. now rewrite Nat2Z.id.
Qed.

Lemma ensure_unfold mn a agents connected e il : ensureLoop mn a agents connected e il =
  if connected <? mn then
    match il with
    | [] => None
    | idx :: il' => match nthZ agents idx with
      | None => None
      | Some nb => if String.eqb nb a then ensureLoop mn a agents connected e il'
                   else if has e a nb then ensureLoop mn a agents connected e il'
                   else ensureLoop mn a agents (connected + 1) (link e a nb) il'
      end
    end
  else Some (e, il).
Proof. destruct il; reflexivity. Qed.

Lemma ensure_spec agents mn a : In a agents -> forall il connected e e' il',
  wf agents e -> connected <= degree e a ->
  ensureLoop mn a agents connected e il = Some (e', il') ->
  wf agents e' /\ incl e e' /\ mn <= degree e' a /\
  Z.of_nat (List.length e') <= Z.of_nat (List.length e) + 2 * Z.max 0 (mn - connected).
Proof.
  intros Ia. induction il as [|idx il IH]; intros connected e e' il' W D H; rewrite ensure_unfold in H.
  - destruct (Z.ltb_spec connected mn); [discriminate|]. injection H as <- <-. spl; auto; try lia; try apply incl_refl.
  - destruct (Z.ltb_spec connected mn).
    2:{ injection H as <- <-. spl; auto; try lia; try apply incl_refl. }
    destruct (nthZ agents idx) as [nb|] eqn:E; [|discriminate].
    destruct (String.eqb_spec nb a); [now apply IH in H|].
    destruct (has e a nb) eqn:Hh; [now apply IH in H|].
    assert (Na : a <> nb) by congruence. apply nthZ_In in E.
    pose proof (link_wf agents e a nb W Na Hh Ia E) as W'.
    apply IH in H; auto; [|rewrite (link_deg agents e a nb W Na Hh); lia].
    destruct H as (A1 & A2 & A3 & A4). rewrite (link_len agents e a nb W Na Hh) in A4.
    spl; auto; try lia. intros z Hz. apply A2, link_incl, Hz.
Qed.
(** More draws do not change a finished loop. *)
Lemma ensure_app mn a agents x : forall il connected e e' il',
  ensureLoop mn a agents connected e il = Some (e', il') ->
  ensureLoop mn a agents connected e (il ++ x) = Some (e', il' ++ x).
Proof.
  induction il as [|idx il IH]; intros connected e e' il' H; rewrite ensure_unfold in H; cbn [app]; rewrite ensure_unfold.
  - destruct (connected <? mn); [discriminate|]. injection H as <- <-. reflexivity.
  - destruct (connected <? mn); [|injection H as <- <-; reflexivity].
    destruct (nthZ agents idx) as [nb|]; [|discriminate].
    destruct (String.eqb nb a); [auto|]. destruct (has e a nb); auto.
Qed.

(** There is always an unconnected agent left while degree < mn < number of agents. *)
Lemma exists_free agents e a : NoDup agents -> wf agents e -> In a agents ->
  degree e a < Z.of_nat (List.length agents) - 1 ->
  exists nb, In nb agents /\ nb <> a /\ has e a nb = false.
Proof.
  intros ND W Ia D.
  destruct (existsb (fun nb => negb (String.eqb nb a) && negb (has e a nb))%bool agents) eqn:E.
  - apply existsb_exists in E. destruct E as (nb & I & E). apply andb_true_iff in E. destruct E as [E1 E2].
    exists nb. split; auto. split; [now apply String.eqb_neq, negb_true_iff|now apply negb_true_iff].
  - exfalso. assert (A : forall nb, In nb agents -> nb <> a -> has e a nb = true).
    { intros nb I Nn. rewrite <- not_true_iff_false in E. destruct (has e a nb) eqn:Hh; auto. exfalso. apply E.
      apply existsb_exists. exists nb. split; auto. rewrite Hh. apply String.eqb_neq in Nn. now rewrite Nn. }
    set (R := remove string_dec a agents).
    assert (NR : NoDup R).
    { unfold R. clear -ND. induction agents as [|x l IH]; [constructor|]. inversion ND; subst. cbn [remove].
      destruct (string_dec a x); auto. constructor; auto. intros H. apply in_remove in H. tauto. }
    assert (IR : forall x, In x R <-> In x agents /\ x <> a).
    { intros x. unfold R. split; [apply in_remove|]. intros [H1 H2]. now apply in_in_remove. }
    rewrite (degree_others agents e a R W NR) in D; [|intros x H1 H2; now apply IR|intros H; apply IR in H; tauto].
    assert (L : filter (has e a) R = R).
    { assert (AR : forall x, In x R -> has e a x = true) by (intros x Hx; apply IR in Hx; now apply A).
      clear -AR. induction R as [|x l IH]; [reflexivity|]. cbn [filter]. rewrite (AR x) by now left.
      f_equal. apply IH. intros y Hy. apply AR. now right. }
    rewrite L in D.
    assert (P : Permutation agents (a :: R)).
    { apply NoDup_Permutation; auto. - constructor; auto. intros H. apply IR in H. tauto.
      - intros x. cbn [In]. rewrite IR. split; [|intros [<-|[? _]]; auto]. intros H. destruct (string_dec x a); auto. }
    apply Permutation_length in P. cbn [List.length] in P. lia.
Qed.

Lemma in_range_app n l1 l2 : in_range n (l1 ++ l2) <-> in_range n l1 /\ in_range n l2.
Proof. apply Forall_app. Qed.

Lemma ensure_finish agents mn a : NoDup agents -> In a agents -> mn < Z.of_nat (List.length agents) ->
  forall k connected e, wf agents e -> connected = degree e a -> mn - connected <= Z.of_nat k ->
  exists il, in_range (List.length agents) il /\ exists e', ensureLoop mn a agents connected e il = Some (e', []).
Proof.
  intros ND Ia Hn. induction k as [|k IH]; intros connected e W D Hk.
  - exists []. split; [constructor|]. exists e. rewrite ensure_unfold. destruct (Z.ltb_spec connected mn); [lia|reflexivity].
  - destruct (Z.ltb_spec connected mn) as [L|L].
    2:{ exists []. split; [constructor|]. exists e. rewrite ensure_unfold. destruct (Z.ltb_spec connected mn); [lia|reflexivity]. }
    destruct (exists_free agents e a ND W Ia ltac:(lia)) as (nb & Inb & Nn & Hh).
    destruct (In_nthZ agents nb Inb) as (idx & R & E).
    assert (Na : a <> nb) by congruence.
    destruct (IH (connected + 1) (link e a nb) (link_wf agents e a nb W Na Hh Ia Inb)) as (il & IR & e' & H).
    { rewrite (link_deg agents e a nb W Na Hh). lia. }
    { lia. }
    exists (idx :: il). split; [now constructor|]. exists e'. rewrite ensure_unfold, (proj2 (Z.ltb_lt _ _) L), E.
    destruct (String.eqb_spec nb a); [congruence|]. now rewrite Hh.
Qed.

(** From any prefix of draws the loop can still finish. *)
Lemma ensure_complete agents mn a : NoDup agents -> In a agents -> mn < Z.of_nat (List.length agents) ->
  forall il connected e, wf agents e -> connected = degree e a -> in_range (List.length agents) il ->
  (exists e' il', ensureLoop mn a agents connected e il = Some (e', il') /\ in_range (List.length agents) il') \/
  (ensureLoop mn a agents connected e il = None /\
   exists il2 e', in_range (List.length agents) il2 /\ ensureLoop mn a agents connected e (il ++ il2) = Some (e', [])).
Proof.
  intros ND Ia Hn. induction il as [|idx il IH]; intros connected e W D R.
  - destruct (Z.ltb_spec connected mn) as [L|L].
    + right. rewrite ensure_unfold, (proj2 (Z.ltb_lt _ _) L). split; auto.
      destruct (ensure_finish agents mn a ND Ia Hn (Z.to_nat (mn - connected)) connected e W D ltac:(lia)) as (il2 & R2 & e' & H).
      exists il2, e'. split; auto.
    + left. exists e, []. rewrite ensure_unfold. destruct (Z.ltb_spec connected mn); [lia|]. split; auto.
  - inversion R as [|? ? R1 R2]; subst. rewrite ensure_unfold. cbn [app].
    setoid_rewrite (ensure_unfold mn a agents (degree e a) e (idx :: il ++ _)).
    destruct (Z.ltb_spec (degree e a) mn) as [L|L].
    2:{ left. exists e, (idx :: il). auto. }
    destruct (nthZ_some agents idx R1) as (nb & E). rewrite E.
    destruct (String.eqb_spec nb a); [now apply IH|]. destruct (has e a nb) eqn:Hh; [now apply IH|].
    assert (Na : a <> nb) by congruence. pose proof (nthZ_In _ _ _ E) as Inb.
    apply IH; auto; [now apply link_wf|now rewrite (link_deg agents e a nb W Na Hh)].
Qed.

(** Facts about the index of the agent being processed. *)
Lemma dropIdx_mid {A} (l1 : list A) x l2 : dropIdx (List.length l1) (l1 ++ x :: l2) = l1 ++ l2.
Proof. induction l1 as [|y l1 IH]; [reflexivity|]. cbn [List.length app dropIdx]. now rewrite IH. Qed.

Lemma connect_spec pre a post mx p e fl c' e' fl' :
  let agents := (pre ++ a :: post) in
  NoDup agents -> wf agents e ->
  connectToNeighbors mx p a agents (List.length pre) e fl = Some (c', e', fl') ->
  wf agents e' /\ incl e e' /\ 0 <= c' /\ (0 <= mx -> c' <= mx) /\
  Z.of_nat (List.length e') <= Z.of_nat (List.length e) + 2 * c' /\
  (c' < mx -> c' = degree e' a) /\ c' <= degree e' a.
Proof.
  intros agents ND W H. unfold connectToNeighbors in H. rewrite connectLoop_eq in H.
  cbn [Nat.leb] in H. rewrite Nat.sub_0_r in H. unfold agents in H. rewrite dropIdx_mid in H. fold agents in H.
  pose proof (NoDup_remove_1 _ _ _ ND) as NR. pose proof (NoDup_remove_2 _ _ _ ND) as NI.
  assert (Ia : In a agents) by (apply in_or_app; right; now left).
  assert (IR : incl (pre ++ post) agents).
  { intros z Hz. apply in_app_or in Hz. apply in_or_app. destruct Hz; auto. right. now right. }
  destruct (loop2_spec agents mx p a Ia _ 0 e fl c' e' fl' NR NI IR W H) as (A1 & A2 & A3 & A4 & A5 & A6 & A7 & A8).
  assert (DG : degree e' a = flen (has e' a) (pre ++ post)).
  { apply (degree_others agents); auto. intros x Hx Nx. apply in_app_or in Hx. apply in_or_app.
    destruct Hx as [?|[?|?]]; auto. congruence. }
  rewrite DG. spl; auto; try lia.
Qed.

Lemma prob_spec agents mx mn p : NoDup agents -> forall todo pre e fl il e',
  agents = pre ++ todo -> wf agents e ->
  probLoop mx mn p agents todo (List.length pre) e fl il = Some e' ->
  wf agents e' /\ incl e e' /\
  (mn <= mx -> mn < Z.of_nat (List.length agents) -> forall a, In a todo -> mn <= degree e' a) /\
  (0 <= mx -> mn <= mx -> Z.of_nat (List.length e') <= Z.of_nat (List.length e) + 2 * mx * Z.of_nat (List.length todo)).
Proof.
  intros ND. induction todo as [|a r IH]; intros pre e fl il e' EA W H.
  - cbn [probLoop] in H. injection H as <-. spl; auto; [apply incl_refl|intros _ _ a []|cbn; lia].
  - cbn [probLoop] in H. destruct (connectToNeighbors mx p a agents (List.length pre) e fl) as [[[c e1] fl1]|] eqn:C; [|discriminate].
    destruct (ensureMinimumConnectivity mn a agents c e1 il) as [[e2 il2]|] eqn:En; [|discriminate].
    rewrite EA in C, ND, W. destruct (connect_spec pre a r mx p e fl c e1 fl1 ND W C) as (A1 & A2 & A3 & A4 & A5 & A6 & A7).
    rewrite <- EA in *. assert (Ia : In a agents) by (rewrite EA; apply in_or_app; right; now left).
    assert (S2 : wf agents e2 /\ incl e1 e2 /\ (mn <= mx -> mn < Z.of_nat (List.length agents) -> mn <= degree e2 a) /\
      (0 <= mx -> mn <= mx -> Z.of_nat (List.length e2) <= Z.of_nat (List.length e) + 2 * mx)).
    { unfold ensureMinimumConnectivity in En.
      destruct ((c <? mn) && (mn <? Z.of_nat (List.length agents)))%bool eqn:B.
      - destruct (ensure_spec agents mn a Ia il c e1 e2 il2 A1 A7 En) as (B1 & B2 & B3 & B4).
        apply andb_true_iff in B. rewrite !Z.ltb_lt in B. spl; auto. lia.
      - injection En as <- <-. apply andb_false_iff in B. rewrite !Z.ltb_ge in B.
        spl; auto; [apply incl_refl|lia|lia]. }
    destruct S2 as (B1 & B2 & B3 & B4).
    specialize (IH (pre ++ [a]) e2 fl1 il2 e').
    rewrite app_length in IH. cbn [List.length] in IH. rewrite Nat.add_1_r in IH.
    destruct IH as (D1 & D2 & D3 & D4); auto. { now rewrite <- app_assoc. }
    split; [exact D1|]. split; [intros z Hz; auto|]. split.
    + intros M1 M2 x [<-|Hx]; [|now apply D3]. specialize (B3 M1 M2).
      pose proof (degree_mono e2 e' a (wf_nodup _ _ B1) D2). lia.
    + intros M1 M2. specialize (B4 M1 M2). specialize (D4 M1 M2). cbn [List.length]. nia.
Qed.

Lemma prob_complete agents mx mn p : NoDup agents -> mn <= mx ->
  forall todo pre e fl il, agents = pre ++ todo -> wf agents e ->
  (List.length todo * List.length agents <= List.length fl)%nat -> in_range (List.length agents) il ->
  exists il2, in_range (List.length agents) il2 /\ probLoop mx mn p agents todo (List.length pre) e fl (il ++ il2) <> None.
Proof.
  intros ND Hm. induction todo as [|a r IH]; intros pre e fl il EA W HL R.
  { exists []. split; [constructor|]. cbn [probLoop]. discriminate. }
  cbn [probLoop]. assert (Ia : In a agents) by (rewrite EA; apply in_or_app; right; now left).
  destruct (connectToNeighbors mx p a agents (List.length pre) e fl) as [[[c e1] fl1]|] eqn:C.
  2:{ exfalso. unfold connectToNeighbors in C. rewrite connectLoop_eq in C. cbn [Nat.leb] in C. rewrite Nat.sub_0_r in C.
      rewrite EA in C at 1. rewrite dropIdx_mid in C.
      destruct (loop2_draws mx p a (pre ++ r) 0 e fl) as (c' & e' & f' & E & _).
      { rewrite EA in HL. rewrite app_length in *. cbn [List.length] in HL. nia. }
      congruence. }
  assert (F1 : (List.length r * List.length agents <= List.length fl1)%nat).
  { unfold connectToNeighbors in C. rewrite connectLoop_eq in C. cbn [Nat.leb] in C. rewrite Nat.sub_0_r in C.
    rewrite EA in C at 1. rewrite dropIdx_mid in C.
    destruct (loop2_draws mx p a (pre ++ r) 0 e fl) as (c' & e' & f' & E & L).
    { rewrite EA in HL. rewrite app_length in *. cbn [List.length] in HL. nia. }
    rewrite E in C. injection C as -> -> ->. cbn [List.length] in HL.
    assert (List.length agents = S (List.length (pre ++ r))) by (rewrite EA, !app_length; cbn [List.length]; lia). nia. }
  rewrite EA in C, ND, W. destruct (connect_spec pre a r mx p e fl c e1 fl1 ND W C) as (A1 & A2 & A3 & A4 & A5 & A6 & A7).
  rewrite <- EA in *.
  assert (Step : forall e2 il', wf agents e2 -> in_range (List.length agents) il' ->
    exists il2, in_range (List.length agents) il2 /\ probLoop mx mn p agents r (S (List.length pre)) e2 fl1 (il' ++ il2) <> None).
  { intros e2 il' W2 R2. specialize (IH (pre ++ [a]) e2 fl1 il'). rewrite app_length in IH. cbn [List.length] in IH.
    rewrite Nat.add_1_r in IH. apply IH; auto. now rewrite <- app_assoc. }
  unfold ensureMinimumConnectivity. destruct ((c <? mn) && (mn <? Z.of_nat (List.length agents)))%bool eqn:B.
  - apply andb_true_iff in B. rewrite !Z.ltb_lt in B. destruct B as [B1 B2].
    assert (D : c = degree e1 a) by (apply A6; lia).
    destruct (ensure_complete agents mn a ND Ia B2 il c e1 A1 D R) as [(e2 & il' & H & R')|(H0 & il2 & e2 & R2 & H)].
    + destruct (ensure_spec agents mn a Ia il c e1 e2 il' A1 A7 H) as (W2 & _).
      destruct (Step e2 il' W2 R') as (il2 & R2 & G). exists il2. split; auto.
      now rewrite (ensure_app mn a agents il2 il c e1 e2 il' H).
    + destruct (ensure_spec agents mn a Ia _ c e1 e2 [] A1 A7 H) as (W2 & _).
      destruct (Step e2 [] W2 (Forall_nil _)) as (il3 & R3 & G). exists (il2 ++ il3).
      split; [now apply in_range_app|]. rewrite app_assoc, (ensure_app mn a agents il3 _ c e1 e2 [] H). exact G.
  - destruct (Step e1 il A1 R) as (il2 & R2 & G). exists il2. auto.
Qed.

Lemma minimal_inner agents mn a : In a agents -> forall left connected e il e' il',
  wf agents e -> minimalInner mn a agents connected left e il = Some (e', il') ->
  wf agents e' /\ incl e e' /\
  Z.of_nat (List.length e') <= Z.of_nat (List.length e) + 2 * Z.max 0 (mn - connected).
Proof.
  intros Ia. induction left as [|k IH]; intros connected e il e' il' W H; cbn [minimalInner] in H.
  - injection H as <- <-. split; auto. split; [apply incl_refl|lia].
  - destruct ((connected <? mn) && _)%bool eqn:B.
    2:{ injection H as <- <-. split; auto. split; [apply incl_refl|lia]. }
    apply andb_true_iff in B. rewrite !Z.ltb_lt in B.
    destruct il as [|idx il0]; [discriminate|]. destruct (nthZ agents idx) as [nb|] eqn:E; [|discriminate].
    destruct (String.eqb_spec nb a); cbn [negb] in H; [now apply IH in H|].
    destruct (has e a nb) eqn:Hh; cbn [negb] in H; [now apply IH in H|].
    assert (Na : a <> nb) by congruence. apply nthZ_In in E.
    apply IH in H; [|now apply link_wf]. destruct H as (A1 & A2 & A3). rewrite (link_len agents e a nb W Na Hh) in A3.
    split; auto. split; [intros z Hz; apply A2, link_incl, Hz|lia].
Qed.
Lemma minimal_outer agents mn : forall todo e il e', incl todo agents -> wf agents e ->
  minimalOuter mn agents todo e il = Some e' ->
  wf agents e' /\ incl e e' /\
  Z.of_nat (List.length e') <= Z.of_nat (List.length e) + 2 * Z.max 0 mn * Z.of_nat (List.length todo).
Proof.
  induction todo as [|a r IH]; intros e il e' IT W H; cbn [minimalOuter] in H.
  - injection H as <-. split; auto. split; [apply incl_refl|cbn; lia].
  - destruct (minimalInner _ _ _ _ _ e il) as [[e1 il1]|] eqn:E; [|discriminate].
    apply minimal_inner in E; auto; [|apply IT; now left]. destruct E as (A1 & A2 & A3).
    apply IH in H; auto; [|intros z Hz; apply IT; now right]. destruct H as (B1 & B2 & B3).
    split; auto. split; [intros z Hz; auto|]. cbn [List.length]. nia.
Qed.
(** It always finishes within 2*n draws per agent. *)
Lemma minimal_inner_total agents mn a : forall left connected e il,
  in_range (List.length agents) il -> (left <= List.length il)%nat ->
  exists e' il', minimalInner mn a agents connected left e il = Some (e', il') /\
    in_range (List.length agents) il' /\ (List.length il <= left + List.length il')%nat.
Proof.
  induction left as [|k IH]; intros connected e il R L; cbn [minimalInner].
  - exists e, il. spl; auto; lia.
  - destruct ((connected <? mn) && _)%bool; [|exists e, il; spl; auto; lia].
    destruct il as [|idx il0]; [cbn in L; lia|]. inversion R as [|? ? R1 R2]; subst.
    destruct (nthZ_some agents idx R1) as (nb & E). rewrite E. cbn [List.length] in *.
    destruct (negb (String.eqb nb a)); [destruct (negb (has e a nb))|];
      match goal with |- context [minimalInner mn a agents ?c k ?ee il0] =>
        destruct (IH c ee il0 R2 ltac:(lia)) as (e' & il' & H & R' & L') end;
      exists e', il'; spl; auto; lia.
Qed.
Lemma minimal_total agents mn : forall todo e il,
  in_range (List.length agents) il -> (List.length todo * (List.length agents * 2) <= List.length il)%nat ->
  minimalOuter mn agents todo e il <> None.
Proof.
  induction todo as [|a r IH]; intros e il R L; cbn [minimalOuter]; [discriminate|].
  cbn [List.length] in L.
  destruct (minimal_inner_total agents mn a (List.length agents * 2) 0 e il R ltac:(nia)) as (e' & il' & -> & R' & L').
  apply IH; auto. nia.
Qed.
End W.

(** * Topologies *)
Definition dup (l : list string) : list (string * string) := map (fun x => (x, x)) l.
Lemma fst_dup l : map fst (dup l) = l.
Proof. unfold dup. rewrite map_map. cbn. apply map_id. Qed.
Lemma snd_dup l : map snd (dup l) = l.
Proof. unfold dup. rewrite map_map. cbn. apply map_id. Qed.
Definition holds (n : Net) (a : string) (l : list string) : Prop :=
  repr (net_opt n a) (dup l) /\ ns_capacity (net_opt n a) = 20.

Lemma holds_fresh n a : fresh n -> holds n a [].
Proof. intros F. unfold holds. rewrite (F a). split; [apply new_repr|reflexivity]. Qed.
Lemma holds_len n a l : holds n a l -> (List.length l <= 20)%nat.
Proof.
  intros [[(r1 & r2 & _ & _ & H & _) _ _ _] C]. rewrite C in H. unfold dup in H. rewrite map_length in H. lia.
Qed.
Lemma holds_nodup n a l : holds n a l -> NoDup l.
Proof. intros [[_ _ _ H] _]. now rewrite fst_dup in H. Qed.
Lemma holds_ctx n a l : holds n a l -> contextNeighbors n a = Some l.
Proof. intros [R _]. unfold contextNeighbors. rewrite (all_spec _ _ R). now rewrite snd_dup. Qed.
Lemma holds_conn n a l b : holds n a l -> (In b l -> IsConnectedTo n a b = Some true) /\ (~ In b l -> IsConnectedTo n a b = Some false).
Proof.
  intros [R _]. unfold IsConnectedTo. destruct (load_spec ""%string _ _ b R) as [[NI ->]|(v & I & ->)].
  - rewrite fst_dup in NI. split; intros; [contradiction|reflexivity].
  - split; intros; [reflexivity|]. exfalso. apply (in_map fst) in I. rewrite fst_dup in I. auto.
Qed.
Lemma holds_listed n a l (P : string -> Prop) : holds n a l -> (forall b, In b l <-> P b) -> listed n a P.
Proof.
  intros H E. exists l. split; [now apply holds_ctx|]. split; [now apply (holds_nodup n a)|]. split; [exact E|].
  split; intros b Hb; apply (holds_conn n a l b H); rewrite E; auto.
Qed.

Lemma connect_new n a b l : holds n a l -> b <> a -> ~ In b l ->
  exists n', ConnectTo n a b = Some n' /\ net_map n' = net_map n /\ (forall x, x <> a -> net_opt n' x = net_opt n x) /\
    holds n' a (if (List.length l <? 20)%nat then l ++ [b] else l).
Proof.
  intros [R C] Nb NI. unfold ConnectTo. destruct (String.eqb_spec b a); [congruence|].
  destruct (store_new _ _ b b R) as [H1 H2]; [now rewrite fst_dup|].
  pose proof (rp_count _ _ R) as CC. unfold dup in CC. rewrite map_length in CC. rewrite C in H1, H2.
  destruct (Nat.ltb_spec (List.length l) 20).
  - destruct H1 as (s & -> & R' & C'); [lia|]. eexists. split; [reflexivity|]. cbn [net_map net_opt]. split; auto.
    split. { intros x Hx. now apply String.eqb_neq in Hx; rewrite Hx. }
    unfold holds. cbn [net_opt]. rewrite String.eqb_refl. unfold dup in *. rewrite map_app. split; [exact R'|congruence].
  - rewrite H2 by lia. eexists. split; [reflexivity|]. cbn [net_map net_opt]. split; auto.
    split. { intros x Hx. now apply String.eqb_neq in Hx; rewrite Hx. }
    unfold holds. cbn [net_opt]. rewrite String.eqb_refl. auto.
Qed.
Lemma connect_old n a b l : holds n a l -> b <> a -> In b l ->
  exists n', ConnectTo n a b = Some n' /\ net_map n' = net_map n /\ (forall x, x <> a -> net_opt n' x = net_opt n x) /\
    holds n' a l.
Proof.
  intros [R C] Nb I. unfold ConnectTo. destruct (String.eqb_spec b a); [congruence|].
  pose proof (rp_nodup _ _ R) as ND. rewrite fst_dup in ND.
  apply in_split in I. destruct I as (l1 & l2 & ->). unfold dup in R. rewrite map_app in R. cbn [map] in R.
  destruct (store_old _ (dup l1) b b (dup l2) b R) as (s & -> & R' & C').
  { rewrite fst_dup. apply NoDup_remove_2 in ND. intros H. apply ND, in_or_app. auto. }
  eexists. split; [reflexivity|]. cbn [net_map net_opt]. split; auto.
  split. { intros x Hx. now apply String.eqb_neq in Hx; rewrite Hx. }
  unfold holds. cbn [net_opt]. rewrite String.eqb_refl. unfold dup. rewrite map_app. cbn [map]. split; [exact R'|congruence].
Qed.

Lemma connectAll_spec a : forall bs n l, holds n a l -> NoDup (l ++ bs) -> ~ In a bs ->
  exists n', connectAll n a bs = Some n' /\ net_map n' = net_map n /\ (forall x, x <> a -> net_opt n' x = net_opt n x) /\
    holds n' a (l ++ firstn (20 - List.length l) bs).
Proof.
  induction bs as [|b bs IH]; intros n l H ND NI.
  - exists n. cbn [connectAll]. rewrite firstn_nil, app_nil_r. auto.
  - cbn [connectAll].
    destruct (connect_new n a b l H) as (n1 & -> & M1 & O1 & H1).
    { intros ->. apply NI. now left. }
    { apply NoDup_remove_2 in ND. intros Q. apply ND, in_or_app. auto. }
    pose proof (holds_len _ _ _ H) as LL.
    destruct (Nat.ltb_spec (List.length l) 20).
    + destruct (IH n1 (l ++ [b]) H1) as (n2 & E & M2 & O2 & H2).
      { now rewrite <- app_assoc. } { intros Q. apply NI. now right. }
      exists n2. split; auto. split; [congruence|]. split; [intros x Hx; rewrite O2, O1; auto|].
      rewrite app_length in H2. cbn [List.length] in H2. rewrite <- app_assoc in H2. cbn [app] in H2.
      replace (20 - List.length l)%nat with (S (20 - (List.length l + 1))) by lia. exact H2.
    + destruct (IH n1 l H1) as (n2 & E & M2 & O2 & H2).
      { now apply NoDup_remove_1 in ND. } { intros Q. apply NI. now right. }
      exists n2. split; auto. split; [congruence|]. split; [intros x Hx; rewrite O2, O1; auto|].
      replace (20 - List.length l)%nat with 0%nat in * by lia. exact H2.
Qed.

Lemma nodup_app_l {A} (l1 l2 : list A) : NoDup (l1 ++ l2) -> NoDup l1.
Proof.
  induction l1 as [|x l1 IH]; intros H; [constructor|]. cbn [app] in H. inversion H; subst. constructor; auto.
  intros Q. apply H2, in_or_app. auto.
Qed.

Lemma full_loop agents : NoDup agents -> forall todo pre n, agents = pre ++ todo ->
  (forall a, In a todo -> holds n a []) ->
  (forall p a q, pre = p ++ a :: q -> holds n a (firstn 20 (p ++ q ++ todo))) ->
  exists n', fullLoop agents todo (List.length pre) n = Some n' /\ net_map n' = net_map n /\
    forall p a q, agents = p ++ a :: q -> holds n' a (firstn 20 (p ++ q)).
Proof.
  intros ND. induction todo as [|a r IH]; intros pre n EA HF HD.
  - exists n. cbn [fullLoop]. split; auto. split; auto. intros p a q E. rewrite app_nil_r in EA. subst pre.
    specialize (HD p a q E). now rewrite app_nil_r in HD.
  - cbn [fullLoop]. rewrite EA. rewrite dropIdx_mid. rewrite EA in ND.
    destruct (connectAll_spec a (pre ++ r) n []) as (n1 & -> & M1 & O1 & H1).
    { apply HF. now left. } { cbn [app]. now apply NoDup_remove_1 in ND. } { now apply NoDup_remove_2 in ND. }
    cbn [app List.length Nat.sub] in H1. rewrite <- EA in *.
    specialize (IH (pre ++ [a]) n1). rewrite app_length in IH. cbn [List.length] in IH. rewrite Nat.add_1_r in IH.
    destruct IH as (n2 & E & M2 & H2).
    + now rewrite <- app_assoc.
    + intros x Hx. unfold holds. rewrite O1; [apply HF; now right|]. intros ->.
      rewrite EA in ND. apply NoDup_remove_2 in ND. apply ND, in_or_app. auto.
    + intros p x q E. destruct (string_dec x a) as [->|Nx].
      * assert (p = pre /\ q = []) as [-> ->].
        { assert (NDp : NoDup (pre ++ [a])) by (rewrite EA in ND; replace (pre ++ a :: r) with ((pre ++ [a]) ++ r) in ND by (now rewrite <- app_assoc); now apply nodup_app_l in ND).
          clear -E NDp. revert pre E NDp. induction p as [|y p IHp]; intros pre E NDp.
          - destruct pre as [|y pre]; cbn [app] in *; [injection E as <-; auto|].
            injection E as -> E. inversion NDp; subst. exfalso. apply H1. apply in_or_app. right. now left.
          - destruct pre as [|z pre]; cbn [app] in *; [injection E as _ E; destruct p; discriminate|].
            injection E as -> E. inversion NDp; subst. destruct (IHp pre E H2) as [-> ->]. auto. }
        exact H1.
      * assert (exists q', q = q' ++ [a] /\ pre = p ++ x :: q') as (q' & -> & EP).
        { destruct (list_snoc q) as [->|(q' & y & ->)].
          - apply app_inj_tail in E. destruct E as [_ E]. congruence.
          - exists q'. replace (p ++ x :: q' ++ [y]) with ((p ++ x :: q') ++ [y]) in E by (rewrite <- app_assoc; reflexivity).
            apply app_inj_tail in E. destruct E as [-> ->]. auto. }
        specialize (HD p x q' EP). unfold holds in *. rewrite (O1 x Nx). rewrite <- app_assoc. exact HD.
    + exists n2. split; auto. split; [congruence|]. exact H2.
Qed.

Lemma spokes_spec hub : forall todo n, NoDup todo -> ~ In hub todo -> (forall a, In a todo -> holds n a []) ->
  exists n', spokes hub todo n = Some n' /\ net_map n' = net_map n /\
    (forall a, In a todo -> holds n' a [hub]) /\ forall x, ~ In x todo -> net_opt n' x = net_opt n x.
Proof.
  induction todo as [|a r IH]; intros n ND NI H.
  - exists n. cbn [spokes]. split; [|split; [|split]]; auto. intros a [].
  - cbn [spokes]. destruct (connect_new n a hub []) as (n1 & -> & M1 & O1 & H1).
    { apply H. now left. } { intros ->. apply NI. now left. } { intros []. }
    cbn [List.length Nat.ltb Nat.leb app] in H1. inversion ND; subst.
    destruct (IH n1) as (n2 & E & M2 & H2 & O2); auto.
    { intros Q. apply NI. now right. }
    { intros x Hx. unfold holds. rewrite O1; [apply H; now right|]. intros ->. auto. }
    exists n2. split; auto. split; [congruence|]. split.
    + intros x [<-|Hx]; auto. unfold holds. rewrite (O2 a) by auto. exact H1.
    + intros x Hx. rewrite O2, O1; auto; intros Q; apply Hx; [subst; now left|now right].
Qed.

Lemma nthZ_app_l {A} (l1 l2 : list A) i : 0 <= i < Z.of_nat (List.length l1) -> nthZ (l1 ++ l2) i = nthZ l1 i.
Proof. intros H. unfold nthZ. rewrite (proj2 (Z.ltb_ge i 0)) by lia. apply nth_error_app1. lia. Qed.
Lemma nthZ_inj {A} (l : list A) i j x : NoDup l -> nthZ l i = Some x -> nthZ l j = Some x -> i = j.
Proof.
  intros ND. unfold nthZ. destruct (Z.ltb_spec i 0); [discriminate|]. destruct (Z.ltb_spec j 0); [discriminate|].
  intros A1 A2. assert (Z.to_nat i = Z.to_nat j); [|lia].
  apply (proj1 (NoDup_nth_error l) ND); [apply nth_error_Some|]; congruence.
Qed.
Lemma nthZ_range {A} (l : list A) i x : nthZ l i = Some x -> 0 <= i < Z.of_nat (List.length l).
Proof.
  unfold nthZ. destruct (Z.ltb_spec i 0); [discriminate|]. intros E.
  assert (Z.to_nat i < List.length l)%nat by (apply nth_error_Some; congruence). lia.
Qed.

Lemma ring_loop agents : NoDup agents -> (2 <= List.length agents)%nat ->
  let len := Z.of_nat (List.length agents) in
  forall todo pre n, agents = pre ++ todo ->
  (forall a, In a todo -> holds n a []) ->
  exists n', ringLoop agents todo (Z.of_nat (List.length pre)) n = Some n' /\ net_map n' = net_map n /\
   (forall x, ~ In x todo -> net_opt n' x = net_opt n x) /\
   (forall i a, Z.of_nat (List.length pre) <= i -> nthZ agents i = Some a -> exists prev next,
     nthZ agents ((i - 1) mod len) = Some prev /\ nthZ agents ((i + 1) mod len) = Some next /\
     holds n' a (if string_dec prev next then [prev] else [prev; next])).
Proof.
  intros ND L2 len. induction todo as [|a r IH]; intros pre n EA HF.
  - exists n. cbn [ringLoop]. split; auto. split; auto. split; auto. intros i a Hi E. apply nthZ_range in E.
    rewrite app_nil_r in EA. subst agents. lia.
  - cbn [ringLoop]. fold len.
    set (k := Z.of_nat (List.length pre)).
    assert (Hk : 0 <= k < len). { unfold k, len. rewrite EA, app_length. cbn [List.length]. lia. }
    assert (Ek : nthZ agents k = Some a).
    { rewrite EA. unfold nthZ. rewrite (proj2 (Z.ltb_ge k 0)) by lia. unfold k. rewrite Nat2Z.id. apply nth_error_mid. }
    assert (R1 : Z.rem (k - 1 + len) len = (k - 1) mod len).
    { rewrite Z.rem_mod_nonneg by lia. replace (k - 1 + len) with (k - 1 + 1 * len) by lia. apply Z_mod_plus. lia. }
    assert (R2 : Z.rem (k + 1) len = (k + 1) mod len) by (apply Z.rem_mod_nonneg; lia).
    rewrite R1, R2. assert (LL : 2 <= len) by (unfold len; lia).
    destruct (nthZ_some agents ((k - 1) mod len)) as (prev & Ep); [apply Z.mod_pos_bound; lia|].
    destruct (nthZ_some agents ((k + 1) mod len)) as (next & En); [apply Z.mod_pos_bound; lia|].
    rewrite Ep, En.
    assert (Np : prev <> a).
    { intros ->. pose proof (nthZ_inj agents _ _ a ND Ep Ek) as Q.
      destruct (Z.eq_dec k 0) as [K0|K0].
      - rewrite K0 in Q. replace (0 - 1) with (len - 1 + (-1) * len) in Q by lia. rewrite Z_mod_plus, Z.mod_small in Q; lia.
      - rewrite Z.mod_small in Q; lia. }
    assert (Nn : next <> a).
    { intros ->. pose proof (nthZ_inj agents _ _ a ND En Ek) as Q.
      destruct (Z.eq_dec k (len - 1)) as [K0|K0].
      - rewrite K0 in Q. replace (len - 1 + 1) with (0 + 1 * len) in Q by lia. rewrite Z_mod_plus, Z.mod_small in Q; lia.
      - rewrite Z.mod_small in Q; lia. }
    destruct (connect_new n a prev []) as (n1 & -> & M1 & O1 & H1); [apply HF; now left|auto|intros []|].
    cbn [List.length Nat.ltb Nat.leb app] in H1.
    assert (S2 : exists n2, ConnectTo n1 a next = Some n2 /\ net_map n2 = net_map n1 /\
      (forall x, x <> a -> net_opt n2 x = net_opt n1 x) /\ holds n2 a (if string_dec prev next then [prev] else [prev; next])).
    { destruct (string_dec prev next) as [<-|Ne].
      - apply connect_old; auto. now left.
      - destruct (connect_new n1 a next [prev] H1) as (n2 & E2 & M2 & O2 & H2); [auto|intros [?|[]]; congruence|]. eauto. }
    destruct S2 as (n2 & -> & M2 & O2 & H2).
    specialize (IH (pre ++ [a]) n2). rewrite app_length in IH. cbn [List.length] in IH.
    assert (NDa : ~ In a r). { rewrite EA in ND. apply NoDup_remove_2 in ND. intros Q. apply ND, in_or_app. auto. }
    destruct IH as (n3 & E3 & M3 & O3 & H3).
    + now rewrite <- app_assoc.
    + intros x Hx. unfold holds. assert (x <> a) by (intros ->; auto). rewrite O2, O1 by auto. apply HF. now right.
    + replace (Z.of_nat (List.length pre + 1)) with (k + 1) in * by (unfold k; lia).
      exists n3. split; auto. split; [congruence|]. split.
      * intros x Hx. assert (x <> a) by (intros ->; apply Hx; now left).
        rewrite O3, O2, O1; auto. intros Q. apply Hx. now right.
      * intros i x Hi E. destruct (Z.eq_dec i k) as [->|].
        -- rewrite Ek in E. injection E as <-. exists prev, next. split; auto. split; auto.
           unfold holds. rewrite O3 by auto. exact H2.
        -- apply H3; auto. lia.
Qed.
