(** Lemmas about M_Atomic. *)
From Coq Require Import ZArith List Bool String Lia Reals Lra.
From Flocq Require Import Core.Core IEEE754.BinarySingleNaN.
From Verif Require Import Num F64 S_Agent M_Core M_Strategy M_Agent M_Atomic L_F64 L_PhaseF L_F64x L_State L_Agent.
Import ListNotations.

Section L.
Context {S : Type}.
Notation Conf := (Conf S).
Notation Cmd := (Cmd S).

Lemma setTh_eq ts i (t : Thread S) : setTh ts i t i = t.
Proof. unfold setTh. now rewrite Nat.eqb_refl. Qed.
Lemma setTh_neq ts i j (t : Thread S) : j <> i -> setTh ts i t j = ts j.
Proof. unfold setTh. intros H. destruct (Nat.eqb_spec j i); congruence. Qed.

(** Invariants of the shared value under updates that preserve them. *)
Definition cmd_ok (I : S -> Prop) (c : Cmd) : Prop :=
  match c with
  | CLoad => True
  | CStore v => I v
  | CUpdate f => forall s, I s -> I (f s)
  | CGuarded g f => forall s, I s -> I (f s)
  end.
Definition pc_ok (I : S -> Prop) (p : Pc S) : Prop :=
  match p with Idle => True | Loaded o f => I o /\ (forall s, I s -> I (f s)) | Passed f => forall s, I s -> I (f s) end.
Definition conf_ok (I : S -> Prop) (c : Conf) : Prop :=
  I (cf_cell c) /\ (forall i, pc_ok I (th_pc (cf_threads c i)) /\ Forall (cmd_ok I) (th_prog (cf_threads c i))) /\
  (forall i v, In (ERead i v) (cf_log c) \/ In (EWrite i v) (cf_log c) -> I v).

Lemma step_ok I c i : conf_ok I c -> conf_ok I (step c i).
Proof.
  intros (Hc & Ht & Hl). unfold step. destruct (cf_threads c i) as [pc prog] eqn:Ei.
  pose proof (Ht i) as [Hp Hq]. rewrite Ei in Hp, Hq. cbn [th_pc th_prog] in *.
  assert (U : forall t, pc_ok I (th_pc t) -> Forall (cmd_ok I) (th_prog t) -> forall j,
             pc_ok I (th_pc (setTh (cf_threads c) i t j)) /\ Forall (cmd_ok I) (th_prog (setTh (cf_threads c) i t j))).
  { intros t H1 H2 j. destruct (Nat.eq_dec j i) as [->|Ne]; [rewrite setTh_eq; auto|rewrite setTh_neq by auto; apply Ht]. }
  assert (LR : forall v j, I v -> (forall k w, In (ERead k w) (ERead j v :: cf_log c) \/ In (EWrite k w) (ERead j v :: cf_log c) -> I w)).
  { intros v j Hv k w [[H|H]|[H|H]]; try discriminate; [injection H as _ <-; auto|eapply Hl; left; eauto|eapply Hl; right; eauto]. }
  assert (LW : forall v j, I v -> (forall k w, In (ERead k w) (EWrite j v :: cf_log c) \/ In (EWrite k w) (EWrite j v :: cf_log c) -> I w)).
  { intros v j Hv k w [[H|H]|[H|H]]; try discriminate; [eapply Hl; left; eauto|injection H as _ <-; auto|eapply Hl; right; eauto]. }
  destruct pc as [|old f|f].
  - destruct prog as [|[|v|f|g f] p]; [repeat split; auto; apply Ht| | | |]; inversion Hq as [|? ? H1 H2]; subst;
      cbn [cmd_ok] in H1.
    + split; [exact Hc|]. split; [apply U; cbn; auto|apply LR; auto].
    + split; [exact H1|]. split; [apply U; cbn; auto|apply LW; auto].
    + split; [exact Hc|]. split; [apply U; cbn; auto|apply LR; auto].
    + destruct (g (cf_cell c)).
      * split; [exact Hc|]. split; [apply U; cbn; auto|apply LR; auto].
      * split; [exact Hc|]. split; [apply U; cbn; auto|].
        intros k w [[H|H]|[H|H]]; try discriminate; eapply LR; eauto.
  - cbn [pc_ok] in Hp. destruct Hp as [H1 H2]. split; [cbn; auto|]. split; [apply U; cbn; auto|apply LW; auto].
  - split; [exact Hc|]. split; [apply U; cbn; auto|apply LR; auto].
Qed.
Lemma run_ok I : forall sched c, conf_ok I c -> conf_ok I (run c sched).
Proof. induction sched as [|i r IH]; intros c H; [exact H|]. apply (IH (step c i)), step_ok, H. Qed.
Lemma start_ok (I : S -> Prop) v (progs : nat -> list Cmd) : I v -> (forall i, Forall (cmd_ok I) (progs i)) -> conf_ok I (start v progs).
Proof. intros Hv Hp. split; [exact Hv|split; [intros k; split; [exact Logic.I|apply Hp]|intros k w [H|H]; destruct H]]. Qed.

(** The register: every read returns the value of the latest write before it. *)
Fixpoint latest (v0 : S) (l : list (Event S)) : S :=
  match l with [] => v0 | EWrite _ v :: _ => v | _ :: r => latest v0 r end.
Fixpoint reads_latest (v0 : S) (l : list (Event S)) : Prop :=
  match l with
  | [] => True
  | ERead _ v :: r => v = latest v0 r /\ reads_latest v0 r
  | _ :: r => reads_latest v0 r
  end.
Lemma step_latest v0 c i : cf_cell c = latest v0 (cf_log c) -> reads_latest v0 (cf_log c) ->
  cf_cell (step c i) = latest v0 (cf_log (step c i)) /\ reads_latest v0 (cf_log (step c i)).
Proof.
  intros Hc Hl. unfold step. destruct (th_pc _) as [|old f|f].
  - destruct (th_prog _) as [|[|v|f|g f] p]; [auto|..]; try (cbn; auto; fail).
    destruct (g _); cbn; auto.
  - cbn. auto.
  - cbn. auto.
Qed.
Lemma run_latest v0 progs sched :
  let c := run (start v0 progs) sched in
  cf_cell c = latest v0 (cf_log c) /\ reads_latest v0 (cf_log c).
Proof.
  cbv zeta. unfold run.
  assert (G : forall l c, cf_cell c = latest v0 (cf_log c) -> reads_latest v0 (cf_log c) ->
    cf_cell (fold_left step l c) = latest v0 (cf_log (fold_left step l c)) /\ reads_latest v0 (cf_log (fold_left step l c))).
  { induction l as [|i l IH]; intros c H1 H2; [auto|]. cbn [fold_left].
    destruct (step_latest v0 c i H1 H2) as [A B]. exact (IH _ A B). }
  apply G; cbn; auto.
Qed.
Lemma latest_or v0 l : latest v0 l = v0 \/ exists i, In (EWrite i (latest v0 l)) l.
Proof.
  induction l as [|e l IH]; [now left|]. destruct e as [i v|i v|i]; cbn [latest].
  - destruct IH as [IH|[k IH]]; [auto|right; exists k; now right].
  - right. exists i. now left.
  - destruct IH as [IH|[k IH]]; [auto|right; exists k; now right].
Qed.
Lemma reads_latest_app v0 l1 : forall i v l2, reads_latest v0 (l1 ++ ERead i v :: l2) -> v = latest v0 l2.
Proof.
  induction l1 as [|e l1 IH]; intros i v l2 H; [apply H|]. cbn in H. destruct e; [apply (IH i v l2), H|apply (IH i v l2), H|apply (IH i v l2), H].
Qed.

(** Written values: a Store's argument, or an update applied to a value read earlier. *)
Definition prov (c : Conf) (p0 : nat -> list Cmd) : Prop :=
  (forall i f old, th_pc (cf_threads c i) = Loaded old f ->
     In (ERead i old) (cf_log c) /\ exists g, In (CUpdate f) (p0 i) \/ In (CGuarded g f) (p0 i)) /\
  (forall i f, th_pc (cf_threads c i) = Passed f -> exists g, In (CGuarded g f) (p0 i)) /\
  (forall i, incl (th_prog (cf_threads c i)) (p0 i)) /\
  (forall i v, In (EWrite i v) (cf_log c) -> In (CStore v) (p0 i) \/
     exists f g w, v = f w /\ (In (CUpdate f) (p0 i) \/ In (CGuarded g f) (p0 i)) /\ In (ERead i w) (cf_log c)).
Lemma prov_upd c i p0 v t ev : prov c p0 ->
  (forall f old, th_pc t = Loaded old f -> In (ERead i old) (ev ++ cf_log c) /\ exists g, In (CUpdate f) (p0 i) \/ In (CGuarded g f) (p0 i)) ->
  (forall f, th_pc t = Passed f -> exists g, In (CGuarded g f) (p0 i)) ->
  incl (th_prog t) (p0 i) ->
  (forall k w, In (EWrite k w) ev -> k = i /\ (In (CStore w) (p0 i) \/
     exists f g u, w = f u /\ (In (CUpdate f) (p0 i) \/ In (CGuarded g f) (p0 i)) /\ In (ERead i u) (cf_log c))) ->
  prov (mkConf v (setTh (cf_threads c) i t) (ev ++ cf_log c)) p0.
Proof.
  intros (H1 & H2 & H3 & H4) A B C D. split; [|split; [|split]]; cbn [cf_threads cf_log].
  - intros k f old H. destruct (Nat.eq_dec k i) as [->|Ne]; [rewrite setTh_eq in H; auto|rewrite setTh_neq in H by auto].
    destruct (H1 k f old H) as [X Y]. split; auto. apply in_or_app. auto.
  - intros k f H. destruct (Nat.eq_dec k i) as [->|Ne]; [rewrite setTh_eq in H; auto|rewrite setTh_neq in H by auto; auto].
  - intros k. destruct (Nat.eq_dec k i) as [->|Ne]; [rewrite setTh_eq; auto|rewrite setTh_neq by auto; auto].
  - intros k w H. apply in_app_or in H. destruct H as [H|H].
    + destruct (D k w H) as [-> [X|(f & g & u & X & Y & Z)]]; [auto|]. right. exists f, g, u.
      split; [exact X|split; [exact Y|apply in_or_app; auto]].
    + destruct (H4 k w H) as [X|(f & g & u & X & Y & Z)]; [auto|]. right. exists f, g, u.
      split; [exact X|split; [exact Y|apply in_or_app; auto]].
Qed.
Lemma step_prov c i p0 : prov c p0 -> prov (step c i) p0.
Proof.
  intros P. pose proof P as (H1 & H2 & H3 & H4). unfold step. destruct (cf_threads c i) as [pc prog] eqn:Ei.
  pose proof (H3 i) as Hi. rewrite Ei in Hi. cbn [th_prog] in Hi.
  destruct pc as [|old f|f]; cbn [th_pc th_prog].
  - destruct prog as [|cm p]; [exact P|].
    assert (Ip : incl p (p0 i)) by (intros x Hx; apply Hi; now right).
    assert (I0 : In cm (p0 i)) by (apply Hi; now left).
    destruct cm as [|v|f|g f]; [| | |destruct (g (cf_cell c))].
    + apply (prov_upd c i p0 _ _ [ERead i (cf_cell c)] P); cbn; auto; try discriminate. intros k w [H|[]]; discriminate.
    + apply (prov_upd c i p0 _ _ [EWrite i v] P); cbn; auto; try discriminate. intros k w [H|[]]. injection H as <- <-. auto.
    + apply (prov_upd c i p0 _ _ [ERead i (cf_cell c)] P); cbn; auto; try discriminate.
      * intros f' old H. injection H as <- <-. split; [auto|exists (fun _ => true); auto].
      * intros k w [H|[]]; discriminate.
    + apply (prov_upd c i p0 _ _ [ERead i (cf_cell c)] P); cbn; auto; try discriminate.
      * intros f' H. injection H as <-. eauto.
      * intros k w [H|[]]; discriminate.
    + apply (prov_upd c i p0 _ _ [ERefused i; ERead i (cf_cell c)] P); cbn; auto; try discriminate.
      intros k w [H|[H|[]]]; discriminate.
  - destruct (H1 i f old) as [R [g G]]; [now rewrite Ei|].
    apply (prov_upd c i p0 _ _ [EWrite i (f old)] P); cbn; auto; try discriminate.
    intros k w [H|[]]. injection H as <- <-. split; auto. right. exists f, g, old. auto.
  - destruct (H2 i f) as [g G]; [now rewrite Ei|].
    apply (prov_upd c i p0 _ _ [ERead i (cf_cell c)] P); cbn; auto; try discriminate.
    + intros f' old H. injection H as <- <-. eauto.
    + intros k w [H|[]]; discriminate.
Qed.
Lemma run_prov p0 v sched : prov (run (start v p0) sched) p0.
Proof.
  assert (G : forall l c, prov c p0 -> prov (fold_left step l c) p0).
  { induction l as [|i l IH]; intros c H; [exact H|]. apply (IH (step c i)), step_prov, H. }
  apply G. split; [|split; [|split]]; cbn; try discriminate; [intros i x Hx; exact Hx|intros i w []].
Qed.

(** A single writer loses nothing. *)
Definition upds (fs : list (S -> S)) (v : S) : S := fold_left (fun s f => f s) fs v.
Definition only_reads (l : list Cmd) : Prop := Forall (fun c => c = CLoad) l.
Definition sw_inv (w : nat) (final : S) (c : Conf) : Prop :=
  (forall j, j <> w -> th_pc (cf_threads c j) = Idle /\ only_reads (th_prog (cf_threads c j))) /\
  exists fs, th_prog (cf_threads c w) = map CUpdate fs /\
    match th_pc (cf_threads c w) with
    | Idle => upds fs (cf_cell c) = final
    | Loaded old f => old = cf_cell c /\ upds fs (f old) = final
    | Passed _ => False
    end.
Lemma sw_step w final c i : sw_inv w final c -> sw_inv w final (step c i).
Proof.
  intros [Ho (fs & Hp & Hw)]. unfold step. destruct (Nat.eq_dec i w) as [->|Ne].
  - destruct (cf_threads c w) as [pc prog] eqn:Ei. cbn [th_pc th_prog] in *. subst prog.
    assert (Ho' : forall t j, j <> w -> th_pc (setTh (cf_threads c) w t j) = Idle /\ only_reads (th_prog (setTh (cf_threads c) w t j))).
    { intros t j Hj. rewrite setTh_neq by auto. now apply Ho. }
    destruct pc as [|old f|f]; [|split; [apply Ho'|]|contradiction].
    + destruct fs as [|f fs]; cbn [map].
      * split; auto. exists []. rewrite Ei. auto.
      * split; [apply Ho'|]. exists fs. cbn [cf_threads cf_cell]. rewrite setTh_eq. cbn [th_prog th_pc]. auto.
    + exists fs. cbn [cf_threads cf_cell]. rewrite setTh_eq. cbn [th_prog th_pc]. split; auto. apply Hw.
  - destruct (Ho i Ne) as [E1 E2]. rewrite E1.
    destruct (th_prog (cf_threads c i)) as [|cm p] eqn:Ep.
    { split; auto. exists fs. auto. }
    inversion E2 as [|? ? H1 H2]; subst. split.
    + intros j Hj. cbn [cf_threads]. destruct (Nat.eq_dec j i) as [->|Nj]; [rewrite setTh_eq; auto|rewrite setTh_neq by auto; now apply Ho].
    + exists fs. cbn [cf_threads cf_cell]. rewrite setTh_neq by auto. auto.
Qed.
Lemma single_writer w fs v0 (progs : nat -> list Cmd) sched :
  progs w = map CUpdate fs -> (forall j, j <> w -> only_reads (progs j)) ->
  let c := run (start v0 progs) sched in
  th_pc (cf_threads c w) = Idle -> th_prog (cf_threads c w) = [] -> cf_cell c = upds fs v0.
Proof.
  intros Hw Ho. cbv zeta. unfold run.
  assert (G : forall l c, sw_inv w (upds fs v0) c -> sw_inv w (upds fs v0) (fold_left step l c)).
  { induction l as [|i l IH]; intros c H; [exact H|]. apply (IH (step c i)), sw_step, H. }
  assert (I0 : sw_inv w (upds fs v0) (start v0 progs)).
  { split; [intros j Hj; cbn; split; [reflexivity|now apply Ho]|]. exists fs. cbn. auto. }
  specialize (G sched _ I0). destruct G as [_ (gs & E & H)]. intros E1 E2. rewrite E1 in H. rewrite E2 in E.
  destruct gs; [exact H|discriminate].
Qed.
End L.

(** The agent's ranges as an invariant of its shared state (floats). *)
Section Agent.
Context (tr : Trig).
Definition sd_ok (s : StateData F) : Prop := in_turn (sd_phase s) /\ in_turn (sd_goal s) /\ nonneg (sd_energy s).
Definition sop_fin (o : StateOp F) : Prop :=
  match o with
  | RGet | RSetFrequency _ => True
  | RSetPhase x | RSetEnergy x | RSetLocalGoal x => is_finite x = true
  | RApply act => is_finite (ac_value act) = true /\ is_finite (ac_cost act) = true
  end.
Lemma move_ok v k s : is_finite v = true -> is_finite k = true -> sd_ok s ->
  sd_ok (@fMoveSpend F (FNum tr) v k s) /\ sd_ok (@fSpend F (FNum tr) k s).
Proof.
  intros Hv Hk (P & G & E).
  assert (E' : nonneg (fmax (fofZ 0) (fsub (sd_energy s) k))) by (apply max0_nonneg; now apply sub_nonnan).
  split; (split; [|split]); auto; cbn [fMoveSpend fSpend sd_phase].
  apply wrap_turn. apply (proj1 (in_turn_eq _)) in P. destruct P as [P1 [P2 P3]]. destruct r2pi_bounds as [Q1 Q2].
  refine (proj1 (fadd_small_fin _ _ P1 Hv _)). apply Rabs_le. lra.
Qed.
Lemma opCmds_ok o : sop_fin o -> Forall (cmd_ok sd_ok) (@opCmds F (FNum tr) o).
Proof.
  intros H. destruct o as [|p|f|e|g|act]; cbn [opCmds]; try (constructor; [|constructor]).
  - exact I.
  - intros s (P & G & E). split; [|split]; auto. now apply wrap_turn.
  - intros s H'. exact H'.
  - intros s (P & G & E). split; [|split]; auto. cbn. now apply max0_nonneg, fin_nan.
  - intros s (P & G & E). split; [|split]; auto. now apply wrap_turn.
  - destruct H as [Hv Hk]. destruct (phaseAction _); [|destruct (String.eqb _ _)];
      (constructor; [|constructor]); cbn [cmd_ok]; auto; intros s Hs; now apply (move_ok (ac_value act) (ac_cost act) s Hv Hk).
Qed.
Lemma opProg_ok l : Forall sop_fin l -> Forall (cmd_ok sd_ok) (@opProg F (FNum tr) l).
Proof.
  induction 1 as [|o l Ho Hl IH]; [constructor|]. unfold opProg. cbn [flat_map]. apply Forall_app. split; [now apply opCmds_ok|exact IH].
Qed.
End Agent.
