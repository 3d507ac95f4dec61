(** C20-C23: wiring and topologies. *)
From Coq Require Import ZArith List Bool String Lia Permutation.
From Verif Require Import Num F64 RealNum GoBase M_Neighbors L_Neighbors M_SwarmConfig M_Conn S_Conn L_Conn.
Import ListNotations.
Open Scope Z_scope.

Section Wire.
Context {T : Type} {N : Num T}.

(** C20.  Whatever the configuration, the size and the random draws, the finished wiring of
    either algorithm is symmetric and irreflexive, contains no duplicate entry and only agents
    of the swarm. *)
Theorem C20_symmetric_irreflexive : forall (c : SCfg T) agents fl il E, NoDup agents ->
  establishConnections c agents fl il = Some E ->
  symmetric E /\ irreflexive E /\ over agents E /\ NoDup E.
Proof.
  intros c agents fl il E ND H. unfold establishConnections in H.
  assert (W : wf agents E).
  { destruct (sc_opt c && _)%bool.
    - unfold establishMinimalConnections in H. now apply minimal_outer in H; auto using incl_refl, wf_nil.
    - unfold establishProbabilisticConnections in H.
      now apply (prob_spec agents _ _ _ ND agents [] [] fl il E eq_refl (wf_nil agents)) in H. }
  destruct W; auto.
Qed.

(** The same at the API level: membership in the Neighbors() maps. *)
Theorem C20_neighbors : forall (c : SCfg T) agents fl il E a b, NoDup agents ->
  establishConnections c agents fl il = Some E ->
  has E a a = false /\ has E a b = has E b a.
Proof.
  intros c agents fl il E a b ND H. destruct (C20_symmetric_irreflexive _ _ _ _ _ ND H) as (S & I & _).
  split; [apply has_false, I|]. apply bool_iff. rewrite !has_iff. apply S.
Qed.

(** C21, lower bound: every agent gets MinNeighbors neighbors when the swarm is larger. *)
Theorem C21_minimum : forall (c : SCfg T) agents fl il E, NoDup agents ->
  sc_minn c <= sc_maxn c -> sc_minn c < Z.of_nat (List.length agents) ->
  establishProbabilisticConnections c agents [] fl il = Some E ->
  forall a, In a agents -> sc_minn c <= degree E a.
Proof.
  intros c agents fl il E ND H1 H2 H.
  destruct (prob_spec agents _ _ _ ND agents [] [] fl il E eq_refl (wf_nil agents) H) as (_ & _ & A & _). auto.
Qed.

(** C21, progress: after any draws made so far (enough Float64 results are available: one per
    pair suffices) there is a continuation of the Intn draws that finishes the wiring. *)
Theorem C21_progress : forall (c : SCfg T) agents fl il, NoDup agents ->
  sc_minn c <= sc_maxn c -> in_range (List.length agents) il ->
  (List.length agents * List.length agents <= List.length fl)%nat ->
  exists il2, in_range (List.length agents) il2 /\
    establishProbabilisticConnections c agents [] fl (il ++ il2) <> None.
Proof.
  intros c agents fl il ND H1 H2 H3.
  exact (prob_complete agents _ _ (sc_prob c) ND H1 agents [] [] fl il eq_refl (wf_nil agents) H3 H2).
Qed.

(** What holds of the upper bound: the total number of (directed) entries. *)
Theorem C21_edge_bound : forall (c : SCfg T) agents fl il E, NoDup agents ->
  0 <= sc_maxn c -> sc_minn c <= sc_maxn c ->
  establishProbabilisticConnections c agents [] fl il = Some E ->
  Z.of_nat (List.length E) <= 2 * sc_maxn c * Z.of_nat (List.length agents).
Proof.
  intros c agents fl il E ND H0 H1 H.
  destruct (prob_spec agents _ _ _ ND agents [] [] fl il E eq_refl (wf_nil agents) H) as (_ & _ & _ & A).
  specialize (A H0 H1). cbn [List.length] in A. lia.
Qed.

(** The minimal wiring always finishes within 2 n draws per agent, with at most
    2 MinNeighbors n entries. *)
Theorem C21_minimal_terminates : forall (c : SCfg T) agents il,
  in_range (List.length agents) il ->
  (List.length agents * (List.length agents * 2) <= List.length il)%nat ->
  exists E, establishMinimalConnections c agents [] il = Some E /\
    Z.of_nat (List.length E) <= 2 * Z.max 0 (sc_minn c) * Z.of_nat (List.length agents).
Proof.
  intros c agents il R L. pose proof (minimal_total agents (sc_minn c) agents [] il R L) as H.
  unfold establishMinimalConnections. destruct (minimalOuter _ _ _ _ _) as [E|] eqn:Q; [|congruence].
  exists E. split; auto. apply minimal_outer in Q; auto using incl_refl, wf_nil.
  destruct Q as (_ & _ & A). cbn [List.length] in A. lia.
Qed.
End Wire.


(** Concrete configurations for examples and counterexamples: DefaultConfig with other bounds. *)
Definition cfgMM {T} {N : Num T} (mx mn : Z) : SCfg T :=
  let d := DefaultConfig in
  mkSCfg (sc_prob d) mx mn (sc_coup d) (sc_stub d) (sc_energy d) (sc_assumed d) (sc_bstr d) (sc_bwid d)
    (sc_conf d) (sc_infl d) (sc_maxsize d) (sc_maxconc d) (sc_batch d) (sc_bsize d) (sc_workers d) (sc_upd d)
    (sc_mon d) (sc_optthr d) (sc_opt d) (sc_auto d).
Definition abc : list string := ["a"; "b"; "c"]%string.
Definition abcde : list string := ["a"; "b"; "c"; "d"; "e"]%string.
Lemma abc_nodup : NoDup abc.
Proof. repeat constructor; cbn; intuition discriminate. Qed.
Lemma abcde_nodup : NoDup abcde.
Proof. repeat constructor; cbn; intuition discriminate. Qed.

Section Examples.
Variable tr : Trig.
Local Instance NF : Num F := FNum tr.
Notation z := (flit 0 1). Notation h := (flit 9 10).


(** Five agents, all Float64 draws 0.9 (no link by chance): the minimum 2 is reached by the
    retry loop, with repeated and rejected draws. *)
Definition ofS (o : option Adj) : Adj := match o with Some e => e | None => [] end.
Example C20_C21_example :
  let r := establishConnections (cfgMM 5 2) abcde (repeat h 25) [0;1;1;2;0;2;4;3;3;4;1;0] in
  let E := ofS r in
  r = Some E /\ List.length E = 12%nat /\ degree E "a" = 3 /\ degree E "e" = 2.
Proof. vm_compute. repeat split. Qed.
Example C21_progress_example : in_range (List.length abcde) [0;0;0;1] /\
  establishProbabilisticConnections (cfgMM 5 2) abcde [] (repeat h 25) [0;0;0;1] = None.
Proof. split; [unfold in_range; repeat constructor; cbn; lia|vm_compute; reflexivity]. Qed.
Example C21_minimal_example :
  let r := establishMinimalConnections (cfgMM 5 2) abc [] [0;1;2;0;1;2;0;1;2;0;1;2;0;1;2;0;1;2] in
  r = Some (ofS r) /\ List.length (ofS r) = 6%nat.
Proof. vm_compute. repeat split. Qed.

Lemma cfgMM_bounds mx mn : sc_maxn (cfgMM mx mn) = mx /\ sc_minn (cfgMM mx mn) = mn.
Proof. split; reflexivity. Qed.

(** C21, upper bound: false.  Connecting to an earlier agent does not look at that agent's own
    count: with MaxNeighbors = 1 agent "a" ends with two neighbors. *)
Theorem C21_maximum_refuted : exists (c : SCfg F) agents fl il E a, NoDup agents /\
  0 < sc_minn c <= sc_maxn c /\ sc_maxn c < Z.of_nat (List.length agents) /\ in_range (List.length agents) il /\
  establishConnections c agents fl il = Some E /\ In a agents /\ sc_maxn c < degree E a.
Proof.
  exists (cfgMM 1 1), abc, (repeat z 9), [],
    (ofS (establishConnections (cfgMM 1 1) abc (repeat z 9) [])), "a"%string.
  rewrite !(proj1 (cfgMM_bounds _ _)), (proj2 (cfgMM_bounds _ _)).
  split; [apply abc_nodup|]. split; [lia|]. split; [cbn; lia|]. split; [constructor|].
  split; [vm_compute; reflexivity|]. split; [now left|]. vm_compute. reflexivity.
Qed.
(** One agent can collect every other agent of the swarm, however small MaxNeighbors is. *)
Theorem C21_maximum_everybody_refuted : exists (c : SCfg F) agents fl il E a, NoDup agents /\
  0 < sc_minn c <= sc_maxn c /\ establishConnections c agents fl il = Some E /\
  degree E a = Z.of_nat (List.length agents) - 1 /\ 4 * sc_maxn c <= degree E a.
Proof.
  exists (cfgMM 1 1), abcde, (repeat z 25), [],
    (ofS (establishConnections (cfgMM 1 1) abcde (repeat z 25) [])), "a"%string.
  rewrite !(proj1 (cfgMM_bounds _ _)), (proj2 (cfgMM_bounds _ _)).
  split; [apply abcde_nodup|]. split; [lia|].
  split; [vm_compute; reflexivity|]. split; vm_compute; [reflexivity|discriminate].
Qed.
(** The minimal wiring (more agents than ConnectionOptimThreshold) may leave an agent below the
    minimum: it gives up after 2 n attempts. *)
Theorem C21_minimal_below_refuted : exists (c : SCfg F) agents il E a, NoDup agents /\
  0 < sc_minn c <= sc_maxn c /\ sc_minn c < Z.of_nat (List.length agents) /\ in_range (List.length agents) il /\
  establishMinimalConnections c agents [] il = Some E /\ In a agents /\ degree E a < sc_minn c.
Proof.
  exists (cfgMM 5 2), abc, (repeat 0 18), (ofS (establishMinimalConnections (cfgMM 5 2) abc [] (repeat 0 18))), "b"%string.
  rewrite !(proj1 (cfgMM_bounds _ _)), !(proj2 (cfgMM_bounds _ _)).
  split; [apply abc_nodup|]. split; [lia|]. split; [cbn; lia|].
  split; [apply Forall_forall; intros x Hx; apply repeat_spec in Hx; subst; cbn; lia|].
  split; [vm_compute; reflexivity|]. split; [right; now left|]. vm_compute. reflexivity.
Qed.
End Examples.

(** * C22 *)
(** The swarm's wiring only fills the sync.Map containers ([net_map]); the neighbor storages that
    IsConnectedTo and UpdateContext read stay as they were. *)
Definition wired (E : Adj) : Net := mkNet (net_opt newNet) E.

(** C22 is false for every single connection the swarm makes. *)
Theorem C22_invisible_refuted : forall {T} {N : Num T} (c : SCfg T) agents fl il E a b,
  establishConnections c agents fl il = Some E -> In (a, b) E ->
  IsConnectedTo (wired E) a b = Some false /\ contextNeighbors (wired E) a = Some [].
Proof.
  intros T N c agents fl il E a b _ _.
  assert (F : fresh (wired E)) by (intros x; reflexivity).
  pose proof (holds_fresh (wired E) a F) as H. split; [|now apply holds_ctx].
  apply (holds_conn _ _ _ b H). intros [].
Qed.
(** Such a connection exists (three agents, one draw). *)
Theorem C22_refuted : forall tr : Trig, exists (c : SCfg F) agents fl il E a b, NoDup agents /\
  @establishConnections F (FNum tr) c agents fl il = Some E /\ In (a, b) E /\
  IsConnectedTo (wired E) a b = Some false.
Proof.
  intros tr. exists (@cfgMM F (FNum tr) 1 1), abc, (repeat (flit 0 1) 9), [],
    (ofS (@establishConnections F (FNum tr) (@cfgMM F (FNum tr) 1 1) abc (repeat (flit 0 1) 9) [])), "a"%string, "b"%string.
  split; [apply abc_nodup|]. split; [vm_compute; reflexivity|].
  split; [vm_compute; tauto|]. vm_compute. reflexivity.
Qed.
(** What does see the wiring: Neighbors() and NeighborCount. *)
Theorem C22_neighbor_count : forall E a, NeighborCount (wired E) a = degree E a.
Proof.
  intros E a. unfold NeighborCount, wired, newNet. cbn [net_opt net_map].
  change (Count (NewNeighborStorage ""%string 20)) with 0. fold (degree E a).
  destruct (Z.ltb_spec (degree E a) 0); [unfold degree in *; lia|reflexivity].
Qed.
(** What makes a connection visible: ConnectTo, in the direction given, as long as the 20 slots are
    not used up; it can be taken back. *)
Theorem C22_connect_to : forall n a b l, holds n a l -> b <> a -> (List.length l < 20)%nat ->
  exists n', ConnectTo n a b = Some n' /\ IsConnectedTo n' a b = Some true /\
    exists l', contextNeighbors n' a = Some l' /\ In b l' /\ incl l l'.
Proof.
  intros n a b l H Nb L. destruct (in_dec string_dec b l) as [I|I].
  - destruct (connect_old n a b l H Nb I) as (n' & E & _ & _ & H'). exists n'. split; auto.
    split; [now apply (holds_conn _ _ _ b H')|]. exists l. split; [now apply holds_ctx|]. split; [auto|apply incl_refl].
  - destruct (connect_new n a b l H Nb I) as (n' & E & _ & _ & H').
    apply Nat.ltb_lt in L. rewrite L in H'. exists n'. split; auto.
    assert (In b (l ++ [b])) by (apply in_or_app; right; now left).
    split; [now apply (holds_conn _ _ _ b H')|]. exists (l ++ [b]). split; [now apply holds_ctx|].
    split; [auto|]. intros z Hz. apply in_or_app. auto.
Qed.
(** An agent never lists itself: ConnectTo with its own id does nothing. *)
Theorem C22_connect_self : forall n a, ConnectTo n a a = Some n.
Proof. intros n a. unfold ConnectTo. now rewrite String.eqb_refl. Qed.
(** NeighborCount reports the larger of the two containers. *)
Theorem C22_neighbor_count_max : forall n a l, holds n a l ->
  NeighborCount n a = Z.max (Z.of_nat (List.length l)) (degree (net_map n) a).
Proof.
  intros n a l [R _]. unfold NeighborCount, Count. rewrite (rp_count _ _ R). unfold dup. rewrite map_length.
  fold (degree (net_map n) a). cbv zeta. destruct (Z.ltb_spec (degree (net_map n) a) (Z.of_nat (List.length l))); lia.
Qed.
(** DisconnectFrom takes exactly the one connection back. *)
Theorem C22_disconnect : forall n a b l, holds n a l -> exists n', DisconnectFrom n a b = Some n' /\
  IsConnectedTo n' a b = Some false /\
  (forall c, c <> b -> IsConnectedTo n' a c = IsConnectedTo n a c) /\
  (forall x, x <> a -> net_opt n' x = net_opt n x) /\ net_map n' = net_map n.
Proof.
  intros n a b l H. assert (HR := H). destruct HR as [R C]. unfold DisconnectFrom.
  destruct (delete_spec ""%string _ _ b R) as [[NI ->]|(v & ns' & l' & -> & R' & C' & P)].
  - rewrite fst_dup in NI. eexists. split; [reflexivity|]. cbn [net_map net_opt].
    assert (Q : forall c, IsConnectedTo {| net_opt := fun x => if (x =? a)%string then net_opt n a else net_opt n x; net_map := net_map n |} a c = IsConnectedTo n a c).
    { intros c. unfold IsConnectedTo. cbn [net_opt]. now rewrite String.eqb_refl. }
    split; [rewrite Q; now apply (holds_conn _ _ _ b H)|]. split; [auto|].
    split; auto. intros x Hx. apply String.eqb_neq in Hx. now rewrite Hx.
  - eexists. split; [reflexivity|]. cbn [net_map net_opt].
    pose proof (rp_nodup _ _ R') as ND'. pose proof (rp_nodup _ _ R) as ND. assert (PF := Permutation.Permutation_map fst P).
    pose proof (Permutation.Permutation_NoDup PF ND) as ND2. cbn [map fst] in ND2, PF. inversion ND2 as [|? ? NIb ND3]; subst.
    assert (LD : forall c, IsConnectedTo {| net_opt := fun x => if (x =? a)%string then ns' else net_opt n x; net_map := net_map n |} a c
        = match Load ""%string ns' c with Some (_, ok) => Some ok | None => None end).
    { intros c. unfold IsConnectedTo. cbn [net_opt]. now rewrite String.eqb_refl. }
    split; [|split; [|split; auto]].
    + rewrite LD. destruct (load_spec ""%string _ _ b R') as [[_ ->]|(w & I & ->)]; auto. exfalso. apply NIb. now apply (in_map fst) in I.
    + intros c Hc. rewrite LD. unfold IsConnectedTo.
      destruct (load_spec ""%string _ _ c R') as [[N1 ->]|(w & I & ->)]; destruct (load_spec ""%string _ _ c R) as [[N2 ->]|(w2 & I2 & ->)]; auto; exfalso.
      * apply (in_map fst) in I2. cbn in I2. apply (Permutation.Permutation_in _ PF) in I2. destruct I2; [congruence|auto].
      * apply N2. apply (in_map fst) in I. apply (Permutation.Permutation_in _ (Permutation.Permutation_sym PF)). now right.
    + intros x Hx. apply String.eqb_neq in Hx. now rewrite Hx.
Qed.
Example C22_disconnect_example : exists n n', holds n "a" ["b"%string] /\ DisconnectFrom n "a" "b" = Some n'.
Proof.
  destruct (connect_new newNet "a" "b" [] (holds_fresh newNet "a" (fun x => eq_refl)) ltac:(discriminate) (fun H => H)) as (n & _ & _ & _ & H).
  cbn in H. destruct (C22_disconnect n "a" "b" ["b"%string] H) as (n' & E & _). eauto.
Qed.
(** The 21st ConnectTo is dropped silently. *)
Theorem C22_connect_full_refuted : forall n a b l, holds n a l -> b <> a -> ~ In b l -> (20 <= List.length l)%nat ->
  exists n', ConnectTo n a b = Some n' /\ IsConnectedTo n' a b = Some false.
Proof.
  intros n a b l H Nb I L. destruct (connect_new n a b l H Nb I) as (n' & E & _ & _ & H').
  apply Nat.ltb_ge in L. rewrite L in H'. exists n'. split; auto. now apply (holds_conn _ _ _ b H').
Qed.
Example C22_connect_example : holds newNet "a" [] /\
  exists n', ConnectTo newNet "a" "b" = Some n' /\ IsConnectedTo n' "a" "b" = Some true.
Proof.
  assert (H : holds newNet "a" []) by (apply holds_fresh; intros x; reflexivity). split; auto.
  destruct (C22_connect_to newNet "a" "b" [] H) as (n' & E & I & _); [discriminate|cbn; lia|]. eauto.
Qed.

(** * C23 *)
(** Fully connected: up to 21 agents, everybody lists exactly the others. *)
Theorem C23_full : forall agents n, NoDup agents -> fresh n -> (List.length agents <= 21)%nat ->
  exists n', FullyConnected agents n = Some (n', true) /\
    forall a, In a agents -> listed n' a (fun b => In b agents /\ b <> a).
Proof.
  intros agents n ND F L. unfold FullyConnected.
  destruct (full_loop agents ND agents [] n eq_refl) as (n' & E & _ & H).
  { intros a _. now apply holds_fresh. } { intros [|? ?] a q; discriminate. }
  cbn [List.length] in E. rewrite E. exists n'. split; auto. intros a Ia.
  apply in_split in Ia. destruct Ia as (p & q & EA). specialize (H p a q EA).
  rewrite firstn_all2 in H by (rewrite EA in L; rewrite app_length in *; cbn [List.length] in L; lia).
  apply (holds_listed _ _ _ _ H). intros b. rewrite EA. rewrite EA in ND. apply NoDup_remove_2 in ND.
  rewrite !in_app_iff in *. cbn [In]. split.
  - intros [Q|Q]; (split; [auto|intros ->; apply ND; auto]).
  - intros [[Q|[Q|Q]] Nb]; auto. congruence.
Qed.
(** In general each agent lists the first 20 of the others, in enumeration order. *)
Theorem C23_full_truncated : forall agents n, NoDup agents -> fresh n ->
  exists n', FullyConnected agents n = Some (n', true) /\
    forall p a q, agents = p ++ a :: q -> contextNeighbors n' a = Some (firstn 20 (p ++ q)).
Proof.
  intros agents n ND F. unfold FullyConnected.
  destruct (full_loop agents ND agents [] n eq_refl) as (n' & E & _ & H).
  { intros a _. now apply holds_fresh. } { intros [|? ?] a q; discriminate. }
  cbn [List.length] in E. rewrite E. exists n'. split; auto. intros p a q EA. apply holds_ctx. auto.
Qed.
(** So with 22 or more agents somebody always misses somebody: the first agent does not know the
    last one. *)
Theorem C23_full_refuted : forall a q z n, NoDup (a :: q ++ [z]) -> fresh n -> (20 <= List.length q)%nat ->
  exists n', FullyConnected (a :: q ++ [z]) n = Some (n', true) /\ IsConnectedTo n' a z = Some false.
Proof.
  intros a q z n ND F L. unfold FullyConnected.
  destruct (full_loop (a :: q ++ [z]) ND (a :: q ++ [z]) [] n eq_refl) as (n' & E & _ & H).
  { intros x _. now apply holds_fresh. } { intros [|? ?] x y; discriminate. }
  cbn [List.length] in E. rewrite E. exists n'. split; auto.
  specialize (H [] a (q ++ [z]) eq_refl). cbn [app] in H.
  rewrite firstn_app in H. replace (20 - List.length q)%nat with 0%nat in H by lia. cbn [firstn] in H. rewrite app_nil_r in H.
  apply (holds_conn _ _ _ z H). intros Q. inversion ND as [|? ? _ NDq]; subst. apply NoDup_remove_2 in NDq.
  apply NDq. rewrite app_nil_r. rewrite <- (firstn_skipn 20 q). apply in_or_app. auto.
Qed.
(** A concrete instance: 22 agents. *)
Definition many (k : nat) : list string := map (fun i => String (Ascii.ascii_of_nat i) EmptyString) (seq 1 k).
Lemma many_nodup k : (k < 255)%nat -> NoDup (many k).
Proof.
  intros Hk. unfold many. assert (G : forall m s, (s + m < 256)%nat -> NoDup (map (fun i => String (Ascii.ascii_of_nat i) EmptyString) (seq s m))).
  { induction m as [|m IH]; intros s Hs; [constructor|]. cbn [seq map]. constructor; [|apply IH; lia].
    intros Q. apply in_map_iff in Q. destruct Q as (j & E & Hj). apply in_seq in Hj. injection E as E.
    apply (f_equal Ascii.nat_of_ascii) in E. rewrite !Ascii.nat_ascii_embedding in E by lia. lia. }
  apply G. lia.
Qed.
Example C23_full_22 : NoDup (many 22) /\ fresh newNet /\ List.length (many 22) = 22%nat /\
  exists a q z, many 22 = a :: q ++ [z] /\ (20 <= List.length q)%nat.
Proof.
  split; [apply many_nodup; lia|]. split; [intros x; reflexivity|]. split; [reflexivity|].
  exists (hd ""%string (many 22)), (removelast (tl (many 22))), (last (many 22) ""%string).
  split; [reflexivity|]. vm_compute. lia.
Qed.

(** Ring: at least two agents; everybody lists exactly its two ring neighbors (one, when there
    are only two agents). *)
Theorem C23_ring : forall agents n, NoDup agents -> fresh n -> (2 <= List.length agents)%nat ->
  exists n', Ring agents n = Some (n', true) /\
    forall i a, nthZ agents i = Some a ->
      listed n' a (fun b => exists j, nthZ agents j = Some b /\ ring_adjacent (Z.of_nat (List.length agents)) i j).
Proof.
  intros agents n ND F L. unfold Ring. rewrite (proj2 (Z.ltb_ge _ _)) by lia.
  destruct (ring_loop agents ND L agents [] n eq_refl) as (n' & E & _ & _ & H).
  { intros a _. now apply holds_fresh. }
  cbn [List.length Z.of_nat] in E. rewrite E. exists n'. split; auto. intros i a Ea.
  set (len := Z.of_nat (List.length agents)) in *. pose proof (nthZ_range _ _ _ Ea) as Ri. fold len in Ri.
  assert (LL : 2 <= len) by (unfold len; lia).
  destruct (H i a) as (prev & next & Ep & En & Ho); [cbn; lia|auto|].
  apply (holds_listed _ _ _ _ Ho). intros b.
  assert (M : In b (if string_dec prev next then [prev] else [prev; next]) <-> b = prev \/ b = next).
  { destruct (string_dec prev next) as [->|]; cbn [In]; intuition congruence. }
  rewrite M. unfold ring_adjacent.
  assert (Pm : forall j, 0 <= j < len -> (i = (j + 1) mod len <-> j = (i - 1) mod len)).
  { intros j Hj. split; intros Q.
    - destruct (Z.eq_dec j (len - 1)) as [->|].
      + replace (len - 1 + 1) with (0 + 1 * len) in Q by lia. rewrite Z_mod_plus, Z.mod_small in Q by lia. subst i.
        replace (0 - 1) with (len - 1 + (-1) * len) by lia. rewrite Z_mod_plus, Z.mod_small; lia.
      + rewrite Z.mod_small in Q by lia. rewrite Z.mod_small; lia.
    - destruct (Z.eq_dec i 0) as [->|].
      + replace (0 - 1) with (len - 1 + (-1) * len) in Q by lia. rewrite Z_mod_plus, Z.mod_small in Q by lia. subst j.
        replace (len - 1 + 1) with (0 + 1 * len) by lia. rewrite Z_mod_plus, Z.mod_small; lia.
      + rewrite Z.mod_small in Q by lia. rewrite Z.mod_small; lia. }
  split.
  - intros [->| ->].
    + exists ((i - 1) mod len). split; auto. right. apply Pm; [apply Z.mod_pos_bound; lia|reflexivity].
    + exists ((i + 1) mod len). split; auto.
  - intros (j & Eb & [->|Q]).
    + right. congruence.
    + left. apply Pm in Q; [|now apply nthZ_range in Eb]. subst j. congruence.
Qed.
Theorem C23_ring_error : forall agents n, (List.length agents < 2)%nat -> Ring agents n = Some (n, false).
Proof. intros agents n L. unfold Ring. now rewrite (proj2 (Z.ltb_lt _ _)) by lia. Qed.

(** Star: at least two agents; the hub is the first agent enumerated, the others list only the
    hub, the hub lists all the others (up to 20 of them). *)
Theorem C23_star : forall hub others n, NoDup (hub :: others) -> fresh n ->
  (1 <= List.length others <= 20)%nat ->
  exists n', Star (hub :: others) n = Some (n', true) /\
    listed n' hub (fun b => In b others) /\
    forall a, In a others -> listed n' a (fun b => b = hub).
Proof.
  intros hub others n ND F [L1 L2]. unfold Star. rewrite (proj2 (Z.ltb_ge _ _)) by (cbn [List.length]; lia).
  inversion ND as [|? ? NI NDo]; subst.
  destruct (connectAll_spec hub others n []) as (n1 & -> & _ & O1 & H1); [now apply holds_fresh|exact NDo|exact NI|].
  destruct (spokes_spec hub others n1 NDo NI) as (n2 & -> & _ & H2 & O2).
  { intros a Ha. unfold holds. rewrite O1 by (intros ->; auto). now apply holds_fresh. }
  exists n2. split; auto. split.
  - assert (Hh : holds n2 hub (firstn 20 others)) by (unfold holds; rewrite O2 by auto; exact H1).
    rewrite firstn_all2 in Hh by lia. apply (holds_listed _ _ _ _ Hh). intros b. reflexivity.
  - intros a Ha. apply (holds_listed _ _ _ _ (H2 a Ha)). intros b. cbn [In]. intuition congruence.
Qed.
Theorem C23_star_error : forall agents n, (List.length agents < 2)%nat -> Star agents n = Some (n, false).
Proof. intros agents n L. unfold Star. now rewrite (proj2 (Z.ltb_lt _ _)) by lia. Qed.
(** With 22 agents or more the hub misses the last spoke. *)
Theorem C23_star_refuted : forall hub q z n, NoDup (hub :: q ++ [z]) -> fresh n -> (20 <= List.length q)%nat ->
  exists n', Star (hub :: q ++ [z]) n = Some (n', true) /\ IsConnectedTo n' hub z = Some false /\
    IsConnectedTo n' z hub = Some true.
Proof.
  intros hub q z n ND F L. unfold Star. rewrite (proj2 (Z.ltb_ge _ _)) by (cbn [List.length]; rewrite app_length; lia).
  inversion ND as [|? ? NI NDo]; subst.
  destruct (connectAll_spec hub (q ++ [z]) n []) as (n1 & -> & _ & O1 & H1); [now apply holds_fresh|exact NDo|exact NI|].
  destruct (spokes_spec hub (q ++ [z]) n1 NDo NI) as (n2 & -> & _ & H2 & O2).
  { intros a Ha. unfold holds. rewrite O1 by (intros ->; auto). now apply holds_fresh. }
  exists n2. split; auto. split.
  - assert (Hh : holds n2 hub (firstn 20 (q ++ [z]))) by (unfold holds; rewrite O2 by auto; exact H1).
    rewrite firstn_app in Hh. replace (20 - List.length q)%nat with 0%nat in Hh by lia. cbn [firstn] in Hh. rewrite app_nil_r in Hh.
    apply (holds_conn _ _ _ z Hh). intros Q. apply NoDup_remove_2 in NDo.
    apply NDo. rewrite app_nil_r. rewrite <- (firstn_skipn 20 q). apply in_or_app. auto.
  - assert (Iz : In z (q ++ [z])) by (apply in_or_app; right; now left).
    apply (holds_conn _ _ _ hub (H2 z Iz)). now left.
Qed.
(** FullyConnected never reports too few agents. *)
Theorem C23_full_too_few_refuted : forall n, FullyConnected [] n = Some (n, true) /\
  forall a, FullyConnected [a] n = Some (n, true).
Proof. intros n. split; [|intros a]; reflexivity. Qed.
Definition lists (r : option (Net * bool)) (a : string) : option (list string) :=
  match r with Some (n, true) => contextNeighbors n a | _ => None end.
Example C23_ring_example : NoDup abcde /\
  lists (Ring abcde newNet) "a" = Some ["e"; "b"]%string /\ lists (Ring abcde newNet) "d" = Some ["c"; "e"]%string.
Proof. split; [apply abcde_nodup|]. split; vm_compute; reflexivity. Qed.
Example C23_star_example : NoDup abcde /\
  lists (Star abcde newNet) "a" = Some ["b"; "c"; "d"; "e"]%string /\ lists (Star abcde newNet) "d" = Some ["a"]%string.
Proof. split; [apply abcde_nodup|]. split; vm_compute; reflexivity. Qed.

Print Assumptions C20_symmetric_irreflexive.
Print Assumptions C21_minimum.
Print Assumptions C21_progress.
Print Assumptions C21_edge_bound.
Print Assumptions C21_maximum_refuted.
Print Assumptions C22_invisible_refuted.
Print Assumptions C22_refuted.
Print Assumptions C23_full.
Print Assumptions C23_ring.
Print Assumptions C23_star.
