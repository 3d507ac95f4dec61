(** Property theorems C79: what the displays are told about the simulation. *)
From Coq Require Import ZArith Reals Psatz Bool List String Lia.
From Flocq Require Import Core.Core IEEE754.BinarySingleNaN.
From Verif Require Import Num F64 RealNum M_Core M_GoalConfig M_Batch M_Workload M_SimControl M_Snapshot S_SimControl P_Batch P_SimControl.
Import ListNotations.
Open Scope Z_scope.

Section Agents.
Context {T : Type} {N : Num T}.
Variable measure : list (string * T) -> T.
Notation snap := (takeSnapshot measure).

Definition total (l : list Z) : Z := fold_right Z.add 0 l.
Lemma loop_spec c ws : forall t l t', agentLoop c ws t = Some (l, t') -> map as_id l = map w_id ws /\ map as_type l = map w_name ws /\
  map as_pending l = map (fun w => Z.of_nat (List.length (w_pending w))) ws /\ map as_sent l = map w_sent ws /\
  map (fun a : AgentSnapshot T => (as_activity a, as_burst a)) l = map (fun w => activity w sinceZeroTime) ws /\
  Forall (fun a : AgentSnapshot T => shownPhase c (as_id a) = Some (as_phase a)) l /\ t' = t + total (map (fun w => Z.of_nat (List.length (w_pending w))) ws).
Proof.
  induction ws as [|w ws IH]; intros t l t'; cbn [agentLoop map total fold_right].
  - intros [= <- <-]. repeat split; auto. lia.
  - destruct (shownAgent c w) as [a|] eqn:E; [|discriminate]. destruct (agentLoop c ws (t + as_pending a)) as [[l0 t0]|] eqn:L; [|discriminate]. intros [= <- <-].
    destruct (IH _ _ _ L) as (A1 & A2 & A3 & A4 & A5 & A6 & A7).
    assert (G : as_id a = w_id w /\ as_type a = w_name w /\ as_pending a = Z.of_nat (List.length (w_pending w)) /\ as_sent a = w_sent w /\
      (as_activity a, as_burst a) = activity w sinceZeroTime /\ shownPhase c (as_id a) = Some (as_phase a)).
    { unfold shownAgent in E. destruct (find (c_phases c) (w_id w)) as [p|] eqn:P; [|discriminate]. unfold workloadSnapshot in E. destruct (activity w sinceZeroTime) as [act b]. cbn [as_id as_type as_phase as_pending as_sent as_burst as_activity] in E.
      unfold shownPhase. destruct (c_paused c); [destruct (find (c_pphases c) (w_id w)) as [q|] eqn:Q|]; injection E as <-; cbn [as_id as_type as_phase as_pending as_sent as_burst as_activity]; rewrite ?P, ?Q; repeat split; reflexivity. }
    destruct G as (G1 & G2 & G3 & G4 & G5 & G6). cbn [map]. rewrite G1, G2, G3, G4, G5, A1, A2, A3, A4, A5. repeat split; auto. fold (total (map (fun w => Z.of_nat (List.length (w_pending w))) ws)). lia.
Qed.
(** One line for each workload, in order, with its own counters; the total of pending tasks is the sum of what the lines show. *)
Theorem C79_agents : forall s now sn, snap s now = Some sn ->
  map as_id (s_agents sn) = map w_id (sm_work s) /\ map as_type (s_agents sn) = map w_name (sm_work s) /\
  map as_pending (s_agents sn) = map (fun w => Z.of_nat (List.length (w_pending w))) (sm_work s) /\
  map as_sent (s_agents sn) = map w_sent (sm_work s) /\
  map (fun a : AgentSnapshot T => (as_activity a, as_burst a)) (s_agents sn) = map (fun w => activity w sinceZeroTime) (sm_work s) /\
  s_pending sn = fold_right Z.add 0 (map as_pending (s_agents sn)) /\ 0 <= s_pending sn.
Proof.
  intros s now sn H. unfold takeSnapshot in H. destruct (agentLoop (sm_ctl s) (sm_work s) 0) as [[l t]|] eqn:L; [|discriminate]. injection H as <-. cbn [s_agents s_pending].
  destruct (loop_spec _ _ _ _ _ L) as (A1 & A2 & A3 & A4 & A5 & _ & A7). rewrite A1, A2, A3, A4, A5. unfold total in A7. repeat split; [lia|]. rewrite A7. clear.
  induction (sm_work s) as [|w r IH]; cbn [map fold_right]; lia.
Qed.
(** A snapshot can always be taken when each workload has its agent. *)
Theorem C79_taken : forall s now, (exists sn, snap s now = Some sn) <-> (forall w, In w (sm_work s) -> find (c_phases (sm_ctl s)) (w_id w) <> None).
Proof.
  intros s now. assert (G : forall (c : Ctl T) ws t, agentLoop c ws t <> None <-> (forall w, In w ws -> find (c_phases c) (w_id w) <> None)).
  { intros c. induction ws as [|w ws IH]; intros t; cbn [agentLoop In]; [split; [intros _ w []|discriminate]|]. unfold shownAgent at 1. destruct (find (c_phases c) (w_id w)) as [p|] eqn:E.
    - match goal with |- context [as_pending ?a] => specialize (IH (t + as_pending a)); destruct (agentLoop c ws (t + as_pending a)) as [[l t']|] end.
      + split; [|discriminate]. intros _ v [<-|V]; [congruence|]. apply IH; [discriminate|exact V].
      + split; [congruence|]. intros K. exfalso. apply IH; auto.
    - split; [congruence|]. intros K. exfalso. apply (K w); auto. }
  unfold takeSnapshot. rewrite <- (G (sm_ctl s) (sm_work s) 0). destruct (agentLoop (sm_ctl s) (sm_work s) 0) as [[l t]|]; split; try congruence; [eauto|]. intros [sn H]. discriminate.
Qed.
(** Running: the phases and the coherence are the current ones. *)
Theorem C79_live : forall s now sn, c_paused (sm_ctl s) = false -> snap s now = Some sn ->
  s_coherence sn = measure (c_phases (sm_ctl s)) /\ Forall (fun a : AgentSnapshot T => find (c_phases (sm_ctl s)) (as_id a) = Some (as_phase a)) (s_agents sn) /\ s_paused sn = false.
Proof.
  intros s now sn P H. unfold takeSnapshot in H. destruct (agentLoop (sm_ctl s) (sm_work s) 0) as [[l t]|] eqn:L; [|discriminate]. injection H as <-. cbn [s_coherence s_agents s_paused]. rewrite P.
  destruct (loop_spec _ _ _ _ _ L) as (_ & _ & _ & _ & _ & A6 & _). split; [reflexivity|]. split; [|reflexivity]. unfold shownPhase in A6. now rewrite P in A6.
Qed.
(** Paused: every snapshot until Resume shows the phases and the coherence of the moment of the pause, whatever happens. *)
Theorem C79_paused : forall s before es now sn, no_toggle es -> sm_ctl s = cRun measure (cRun measure before [Pause]) es -> snap s now = Some sn ->
  s_coherence sn = measure (c_phases before) /\ Forall (fun a : AgentSnapshot T => find (c_phases before) (as_id a) = Some (as_phase a)) (s_agents sn) /\ s_paused sn = true.
Proof.
  intros s before es now sn NT E H. unfold takeSnapshot in H. destruct (agentLoop (sm_ctl s) (sm_work s) 0) as [[l t]|] eqn:L; [|discriminate]. injection H as <-. cbn [s_coherence s_agents s_paused].
  destruct (loop_spec _ _ _ _ _ L) as (_ & _ & _ & _ & _ & A6 & _). destruct (C50_paused_frozen measure before es NT) as [F1 F2]. rewrite <- E in F1, F2.
  assert (P : c_paused (sm_ctl s) = true).
  { rewrite E. clear -NT. assert (G : forall es c, no_toggle es -> c_paused c = true -> c_paused (cRun measure c es) = true).
    { clear. induction es as [|e r IH]; intros c Q P; [exact P|]. inversion Q as [|? ? [Q1 Q1'] Q2]; subst. cbn [cRun fold_left]. apply IH; [exact Q2|]. destruct e; try congruence; cbn [cStep]; auto. destruct (c_launched c), (c_cur c); auto. }
    now apply G. }
  unfold shownCoherence in F1. rewrite P in *. split; [exact F1|]. split; [|reflexivity]. eapply Forall_impl; [|exact A6]. intros a K. cbv beta in K. now rewrite F2 in K.
Qed.
(** Every number the displays receive is the one of the snapshot: nothing is swapped, added or left out. *)
Theorem C79_display : forall (s : Snapshot T), let d := convertSnapshot s in
  map da_id (d_agents d) = map as_id (s_agents s) /\ map da_type (d_agents d) = map as_type (s_agents s) /\ map da_phase (d_agents d) = map as_phase (s_agents s) /\
  map da_pending (d_agents d) = map as_pending (s_agents s) /\ map da_sent (d_agents d) = map as_sent (s_agents s) /\
  map (fun a : DAgent T => (da_activity a, da_burst a)) (d_agents d) = map (fun a : AgentSnapshot T => (as_activity a, as_burst a)) (s_agents s) /\
  d_time d = s_time s /\ d_elapsed d = s_elapsed s /\ d_coherence d = s_coherence s /\ d_target d = s_target s /\ d_pending d = s_pending s /\ d_current d = s_current s /\
  d_batches d = s_batches s /\ d_without d = s_without s /\ d_with d = s_with s /\ d_savings d = s_savings s /\ d_percent d = s_percent s /\ d_paused d = s_paused s /\
  d_disrupted d = s_disrupted s /\ d_reset d = s_reset s /\ d_justSent d = s_justSent s /\ d_lastTime d = s_lastTime s /\ d_lastSize d = s_lastSize s.
Proof. intros s. cbn zeta. unfold convertSnapshot. cbn. rewrite !map_map. repeat split. Qed.
Theorem C79_display_final : forall (s : Statistics T), let d := convertStats s in
  dt_calls d = st_calls s /\ dt_batches d = st_batches s /\ dt_average d = st_average s /\ dt_without d = st_without s /\ dt_with d = st_with s /\
  dt_savings d = st_savings s /\ dt_percent d = st_percent s /\ dt_final d = st_final s /\ dt_peak d = st_peak s /\ dt_converge d = st_converge s.
Proof. intros s. repeat split. Qed.
(** The running display and the summary agree on what they both show. *)
Theorem C79_consistent : forall s now sn, snap s now = Some sn -> let st := takeStatistics measure s in
  s_batches sn = st_batches st /\ s_without sn = st_without st /\ s_with sn = st_with st /\ s_savings sn = st_savings st /\ s_percent sn = st_percent st /\
  s_target sn = sm_target s /\ s_disrupted sn = sm_disrupted s /\ s_reset sn = sm_reset s /\ s_time sn = now.
Proof. intros s now sn H. unfold takeSnapshot in H. destruct (agentLoop (sm_ctl s) (sm_work s) 0) as [[l t]|]; [|discriminate]. injection H as <-. repeat split. Qed.
(** The elapsed time is the time since the start, for the 292 years a Duration can hold. *)
Theorem C79_elapsed : forall s now sn, snap s now = Some sn -> sm_start s <= now < sm_start s + 2 ^ 63 -> s_elapsed sn = now - sm_start s.
Proof. intros s now sn H B. unfold takeSnapshot in H. destruct (agentLoop (sm_ctl s) (sm_work s) 0) as [[l t]|]; [|discriminate]. injection H as <-. cbn [s_elapsed]. unfold since. lia. Qed.
End Agents.

(** ** The batches *)
Section Batches.
Context {T : Type} {N : Num T} {A : Type}.
Variable measure : list (string * T) -> T.
(** The API batches of a history with their completion times and sizes, in order. *)
Definition finished (h : list (list A * (nat -> Z))) : list (Z * Z) :=
  flat_map (fun p => let bs := splitIntoAPIBatches (fst p) in map (fun ib => (snd p (fst ib), Z.of_nat (List.length (snd ib)))) (combine (seq 0 (List.length bs)) bs)) h.
Lemma last_app {X} (a b : list X) d : last (a ++ b) d = last b (last a d).
Proof.
  revert d. induction a as [|x a IH]; intros d; [reflexivity|]. destruct a as [|y a].
  - cbn [app last]. destruct b as [|z b]; [reflexivity|]. clear. revert x d z. induction b as [|w b IHb]; intros x d z; [reflexivity|]. cbn [last] in *. apply (IHb x d w).
  - change ((x :: y :: a) ++ b) with (x :: (y :: a) ++ b). change (last (x :: y :: a) d) with (last (y :: a) d). rewrite <- IH. destruct ((y :: a) ++ b) eqn:E; [discriminate|reflexivity].
Qed.
Lemma account_last h : forall st : Metrics T * Stats, (bs_time (snd (account h st)), bs_size (snd (account h st))) = last (finished h) (bs_time (snd st), bs_size (snd st)).
Proof.
  induction h as [|p h IH]; intros st; [reflexivity|]. cbn [finished flat_map]. rewrite last_app. unfold account in *. cbn [fold_left]. rewrite IH. f_equal. clear IH h.
  assert (G : forall bs k (s : Metrics T * Stats), let r := fold_left (fun s q => processOne (snd q) (snd p (fst q)) s) (combine (seq k (List.length bs)) bs) s in
    (bs_time (snd r), bs_size (snd r)) = last (map (fun ib : nat * list A => (snd p (fst ib), Z.of_nat (List.length (snd ib)))) (combine (seq k (List.length bs)) bs)) (bs_time (snd s), bs_size (snd s))).
  { induction bs as [|b bs IH]; intros k s; cbv zeta; [reflexivity|]. cbn [List.length seq combine fold_left map]. specialize (IH (S k) (processOne b (snd p k) s)). cbv zeta in IH. cbn [fst snd] in *. rewrite IH.
    cbn [processOne snd bs_time bs_size]. destruct (map _ (combine (seq (S k) _) bs)) as [|z l]; [reflexivity|]. clear. revert z. induction l as [|y l IHl]; intros z; [reflexivity|]. cbn [last] in *. apply IHl. }
  unfold processCollectedBatch. destruct p as [tasks clock]. cbn [fst snd] in *. destruct tasks as [|t r]; [reflexivity|]. apply (G (splitIntoAPIBatches (t :: r)) 0%nat st).
Qed.
(** "BATCH SENT!" exactly for the half second after the last API batch, with its size; never before the first one. *)
Theorem C79_pulse : forall s h m0 now sn, sm_stats s = snd (account (T := T) h (m0, mkStats 0 zeroTime 0)) -> takeSnapshot measure s now = Some sn -> 0 <= now ->
  (forall e, In e (finished h) -> 0 <= fst e <= now) ->
  (s_justSent sn = true <-> finished h <> [] /\ now - fst (last (finished h) (0, 0)) < 500000000) /\
  (finished h <> [] -> s_lastTime sn = fst (last (finished h) (0, 0)) /\ s_lastSize sn = snd (last (finished h) (0, 0))).
Proof.
  intros s h m0 now sn ES H Hn HT. unfold takeSnapshot in H. destruct (agentLoop (sm_ctl s) (sm_work s) 0) as [[l t]|]; [|discriminate]. injection H as <-. cbn [s_justSent s_lastTime s_lastSize]. rewrite ES.
  assert (L := account_last h (m0, mkStats 0 zeroTime 0)). cbn [snd bs_time bs_size] in L. destruct (snd (account h (m0, mkStats 0 zeroTime 0))) as [tt ti si]. cbn [bs_time bs_size] in *.
  destruct (finished h) as [|e r] eqn:F.
  - cbn in L. injection L as -> ->. split; [|congruence]. split; [|intros [K _]; congruence]. unfold since, zeroTime. intros K. apply Z.ltb_lt in K. lia.
  - assert (LE : forall d d' : Z * Z, last (e :: r) d = last (e :: r) d') by (clear; intros d d'; revert e; induction r as [|x r IH]; intros e; [reflexivity|]; cbn [last] in *; apply (IH x)).
    rewrite (LE _ (0, 0)) in L. assert (I : In (last (e :: r) (0, 0)) (e :: r)). { clear. revert e. induction r as [|x r IH]; intros e; [now left|]. right. apply (IH x). }
    rewrite <- L in *. cbn [fst snd]. specialize (HT _ I). cbn [fst] in HT. split; [|auto]. rewrite Z.ltb_lt. unfold since. split; [intros K; split; [discriminate|lia]|intros [_ K]; lia].
Qed.
(** The counts of the running display and of the summary: API batches, tasks and the average size. *)
Theorem C79_counts : forall s h t0 st0 now sn, sm_metrics s = fst (account (T := T) h (NewMetricsCollector t0, st0)) -> takeSnapshot measure s now = Some sn ->
  s_batches sn = Z.of_nat (List.length (finished h)) /\ st_batches (takeStatistics measure s) = Z.of_nat (List.length (finished h)) /\
  st_calls (takeStatistics measure s) = Z.of_nat (List.length (List.concat (map fst h))) /\ st_calls (takeStatistics measure s) = fold_right Z.add 0 (map snd (finished h)).
Proof.
  intros s h t0 st0 now sn EM H. destruct (C79_consistent measure s now sn H) as (C1 & _). rewrite C1. unfold takeStatistics, Final, Current. cbn [st_batches st_calls sn_batches sn_calls]. rewrite EM.
  destruct (account_fold h (NewMetricsCollector t0, st0)) as [E1 _]. rewrite E1. cbn [fst]. destruct (charge_counts (sizes h) (NewMetricsCollector (T := T) t0)) as (A1 & _ & A3 & _). cbv zeta in *. rewrite A1, A3. cbn [NewMetricsCollector m_calls m_batches].
  destruct (sizes_sum h) as [S1 _].
  assert (FS : map snd (finished h) = sizes h).
  { unfold finished, sizes. clear. induction h as [|p h IH]; [reflexivity|]. cbn [flat_map]. rewrite !map_app, IH. f_equal. rewrite map_map. cbn [snd].
    generalize (splitIntoAPIBatches (fst p)) as bs. intros bs. generalize 0%nat as k. induction bs as [|b bs IHb]; intros k; [reflexivity|]. cbn [List.length seq combine map]. now rewrite IHb. }
  rewrite FS. assert (LN : List.length (finished h) = List.length (sizes h)) by (rewrite <- FS; now rewrite map_length). rewrite LN. unfold sumZ in *. repeat split; lia.
Qed.
End Batches.
(** In exact arithmetic the summary shows 3 cents per task, 1.5 cents per API batch and their difference. *)
Theorem C79_summary_exact : forall (A : Type) measure s (h : list (list A * (nat -> Z))) t0, sm_metrics s = fst (account (T := R) h (NewMetricsCollector t0, mkStats 0 0 0)) ->
  let st := takeStatistics measure s in
  st_without st = (IZR (st_calls st) * (3 / 100))%R /\ st_with st = (IZR (st_batches st) * (15 / 1000))%R /\ st_savings st = (st_without st - st_with st)%R /\
  (st_average st * IZR (st_batches st) = IZR (st_calls st))%R /\ (st_percent st * st_without st = 100 * st_savings st)%R /\ (0 <= st_savings st)%R /\ (st_calls st <> 0%Z -> 50 <= st_percent st < 100)%R.
Proof.
  intros A measure s h t0 E. cbv zeta. unfold takeStatistics, Final, Current. cbn [st_without st_with st_savings st_average st_percent st_calls st_batches sn_calls sn_batches sn_average sn_without sn_with sn_savings sn_percent].
  rewrite E. destruct (C46_costs_exact A h t0) as [C1 C2]. cbv zeta in *. destruct (account_fold h (NewMetricsCollector (T := R) t0, mkStats 0 0 0)) as [E1 _].
  destruct (charge_counts (sizes h) (NewMetricsCollector (T := R) t0)) as (A1 & A2 & A3 & _). cbv zeta in *. rewrite E1 in *. cbn [fst] in *. destruct (sizes_sum h) as [S1 S2].
  set (m := fold_left charge (sizes h) (NewMetricsCollector t0)) in *. rewrite A2 in C1. rewrite A3 in C2. cbn [NewMetricsCollector m_calls m_tasks m_batches] in *.
  assert (B : Z.of_nat (List.length (sizes h)) <= sumZ (sizes h) /\ (sumZ (sizes h) = 0 -> sizes h = [])).
  { clear -S2. induction (sizes h) as [|n l IH]; [cbn; auto with zarith|]. inversion S2; subst. destruct (IH H2) as [I1 I2]. change (sumZ (n :: l)) with (n + sumZ l). cbn [List.length]. split; [lia|]. intros K. lia. }
  destruct B as [B1 B2]. set (k := Z.of_nat (List.length (sizes h))) in *. set (n := sumZ (sizes h)) in *. assert (K0 : 0 <= k) by (unfold k; lia).
  rewrite A1, A2, A3, C1, C2. rewrite !Z.add_0_l. assert (B1' : (IZR k <= IZR n)%R) by now apply IZR_le. assert (K0' : (0 <= IZR k)%R) by now apply IZR_le.
  cbn [nsub nmul ndiv nlt nofZ RNum]. unfold n0. cbn [nofZ RNum].
  split; [reflexivity|]. split; [reflexivity|]. split; [reflexivity|]. split; [|split; [|split]].
  - destruct (Z.ltb_spec 0 k) as [L|L]; [apply IZR_lt in L; field; lra|]. assert (k = 0) as K1 by lia. assert (n = 0). { unfold n, k in *. destruct (sizes h); [reflexivity|cbn in K1; lia]. } rewrite K1, H. lra.
  - destruct (Rlt_bool_spec 0 (IZR n * (3 / 100))) as [P|P]; [field; lra|]. assert (IZR n = 0)%R by lra. lra.
  - lra.
  - intros NZ. assert (P : (1 <= IZR n)%R) by (apply IZR_le; lia). rewrite Rlt_bool_true by lra.
    assert (P1 : (1 <= IZR k)%R). { apply IZR_le. destruct (Z.eq_dec k 0) as [Q|Q]; [|lia]. exfalso. apply NZ. unfold n, k in *. destruct (sizes h); [reflexivity|cbn in Q; lia]. }
    replace ((IZR n * (3 / 100) - IZR k * (15 / 1000)) / (IZR n * (3 / 100)) * 100)%R with (100 - 50 * (IZR k / IZR n))%R by (field; lra).
    assert (0 < IZR k / IZR n <= 1)%R; [|lra]. split; [apply Rdiv_lt_0_compat; lra|]. apply Rmult_le_reg_r with (IZR n); [lra|]. unfold Rdiv. rewrite Rmult_assoc, Rinv_l; lra.
Qed.

(** ** "Collecting: %d tasks" (display.go:1262-1263) *)
Section Queue.
Context {A : Type}.
(** The tasks waiting in the queue. *)
Definition waiting (s : BM A) : Z := Z.of_nat (List.length (List.concat (bm_queue s))).
(** The number shown is that of queued batches: at most 100, at most the tasks waiting, and equal to them only when every
    batch is a single task. *)
Theorem C79_collecting : forall T (N : Num T) (measure : list (string * T) -> T) s now sn (es : list (Ev A)), let b := bmRun bm0 es in
  Forall (fun x => x <> []) (submissions es) -> sm_queue s = List.length (bm_queue b) -> takeSnapshot measure s now = Some sn ->
  0 <= s_current sn <= 100 /\ s_current sn <= waiting b /\ (s_current sn = waiting b <-> Forall (fun x => List.length x = 1%nat) (bm_queue b)).
Proof.
  intros T N measure s now sn es b NE EQ H. unfold takeSnapshot in H. destruct (agentLoop (sm_ctl s) (sm_work s) 0) as [[l t]|]; [|discriminate]. injection H as <-. cbn [s_current]. rewrite EQ.
  assert (G : forall es s0, Forall (fun x => x <> []) (submissions es) -> (List.length (bm_queue s0) <= 100)%nat /\ Forall (fun x => x <> []) (bm_queue s0) ->
    (List.length (bm_queue (bmRun s0 es)) <= 100)%nat /\ Forall (fun x : list A => x <> []) (bm_queue (bmRun s0 es))).
  { clear. unfold bmRun. induction es as [|e es IH]; intros s0 F H; cbn [fold_left]; [exact H|]. cbn [submissions flat_map] in F. apply Forall_app in F. destruct F as [F1 F2]. apply (IH _ F2). clear IH F2.
    destruct H as [H1 H2]. destruct s0 as [q p c sub acc dn]. destruct e; cbn [bmStep bm_queue bm_proc bm_cancelled] in *.
    - inversion F1; subst. destruct (Nat.ltb_spec (List.length q) queueCap); cbn [bm_queue]; [|auto]. rewrite app_length. cbn [List.length]. unfold queueCap in *. split; [lia|]. apply Forall_app. auto.
    - destruct q as [|x q], p; cbn [bm_queue]; auto; inversion H2; subst; cbn in H1; split; auto; lia.
    - destruct p; cbn [bm_queue]; auto.
    - destruct q as [|x q], p; cbn [bm_queue]; auto. destruct (MaxBatchSize <=? List.length c0)%nat; cbn [bm_queue]; auto.
    - destruct p as [|c0|[|x bs]|]; cbn [bm_queue]; auto.
    - auto.
    - destruct p; cbn [bm_queue]; auto. destruct c; cbn [bm_queue]; auto. }
  destruct (G es bm0 NE ltac:(cbn; split; [lia|constructor])) as [G1 G2]. fold b in G1, G2. split; [lia|]. unfold waiting. clear -G2.
  induction (bm_queue b) as [|x q IH]; [cbn; split; [lia|split; auto]|]. inversion G2 as [|? ? X1 X2]; subst. destruct (IH X2) as [I1 I2]. cbn [List.length List.concat]. rewrite app_length.
  assert (1 <= List.length x)%nat by (destruct x; [congruence|cbn; lia]). split; [lia|]. split.
  - intros E. constructor; [lia|]. apply I2. lia.
  - intros F. inversion F as [|? ? F1 F2]; subst. apply I2 in F2. lia.
Qed.
(** So it misses both ways: one "task" for 250 waiting, and none while 99 are being collected. *)
Theorem C79_collecting_refuted : forall x : A, (exists es : list (Ev A), let b := bmRun bm0 es in List.length (bm_queue b) = 1%nat /\ waiting b = 250) /\
  exists es : list (Ev A), let b := bmRun bm0 es in List.length (bm_queue b) = 0%nat /\ List.length (List.concat (bm_accepted b)) = 99%nat /\ bm_done b = [].
Proof. intros x. split; [exists [Submit (repeat x 250)]|exists [Submit (repeat x 99); Take]]; repeat split. Qed.
(** The two unused getters of the manager: always nothing, and ten per batch. *)
Theorem C79_getters_refuted : forall x : A, exists es : list (Ev A), let b := bmRun bm0 es in PendingCount = 0 /\ waiting b = 250 /\ CurrentBatchSize (List.length (bm_queue b)) = 10.
Proof. intros x. exists [Submit (repeat x 250)]. repeat split. Qed.
End Queue.

(** ** Examples *)
Definition exPhases : list (string * R) := [("agent-0", 1%R); ("agent-1", 2%R)].
Definition exWork (id : string) (n : nat) : Workload := mkWL id "DataETL" 3 (repeat (mkTask "x" id "t") n) 0 0 2 false 0 None [] [] [].
Definition exMeasure (m : list (string * R)) : R := fold_right (fun p a => (snd p + a)%R) 0%R m.
Definition exSim (c : Ctl R) : Sim R :=
  mkSim c [exWork "agent-0" 3; exWork "agent-1" 4] (fst (account [([tt; tt], fun _ => 5000)] (NewMetricsCollector 0, mkStats 0 zeroTime 0)))
    (snd (account (T := R) [([tt; tt], fun _ => 5000)] (NewMetricsCollector 0, mkStats 0 zeroTime 0))) 1 false false 0 (9 / 10)%R.
(** Seven tasks pending, one batch of two sent 6 microseconds ago, the phases of the moment of the pause. *)
Example C79_example : exists sn, takeSnapshot exMeasure (exSim (cRun exMeasure (ctl0 0%R exPhases) [Pause; Change (fun _ p => (p + 1)%R)])) 11000 = Some sn /\
  s_pending sn = 7 /\ map as_phase (s_agents sn) = [1%R; 2%R] /\ s_coherence sn = (1 + (2 + 0))%R /\ s_justSent sn = true /\ s_lastSize sn = 2 /\ s_batches sn = 1 /\ s_elapsed sn = 11000.
Proof. eexists. split; [reflexivity|]. repeat split. Qed.
(** FinalCoherence is measured, not cached: after a change while paused the summary differs from what is displayed. *)
Theorem C79_final_coherence_refuted : exists s now sn, takeSnapshot exMeasure s now = Some sn /\ s_paused sn = true /\ (s_coherence sn < st_final (takeStatistics exMeasure s))%R.
Proof.
  eexists (exSim (cRun exMeasure (ctl0 0%R exPhases) [Pause; Change (fun _ p => (p + 1)%R)])), 11000. eexists. split; [reflexivity|]. split; [reflexivity|]. cbn. lra.
Qed.
(** The summary prints a peak coherence of 0 and a time to converge of 0 whatever happened, next to the measured final coherence. *)
Theorem C79_peak_refuted : forall (tr : Trig) (A : Type) measure (s : Sim F) (ops : list (@SimOp A)) now,
  sm_metrics s = fst (fold_left (simOp tr) ops (@NewMetricsCollector F (FNum tr) now, mkStats 0 0 0)) ->
  let st := @takeStatistics F (FNum tr) measure s in st_peak st = fofZ 0 /\ st_converge st = 0 /\ st_final st = measure (c_phases (sm_ctl s)).
Proof.
  intros tr A measure s ops now E st. unfold st, takeStatistics, Final. cbn [st_peak st_converge st_final]. rewrite E.
  destruct (C55_peak_refuted tr ops now) as [P C]. repeat split; [exact P|exact C].
Qed.
(** Before the first batch nothing is announced, and the time since the last batch is the largest Duration. *)
Example C79_before_first : forall now, 0 <= now -> since now zeroTime = 2 ^ 63 - 1.
Proof. intros now H. unfold since, zeroTime. lia. Qed.

Print Assumptions C79_agents.
Print Assumptions C79_taken.
Print Assumptions C79_live.
Print Assumptions C79_paused.
Print Assumptions C79_display.
Print Assumptions C79_display_final.
Print Assumptions C79_consistent.
Print Assumptions C79_elapsed.
Print Assumptions C79_pulse.
Print Assumptions C79_counts.
Print Assumptions C79_summary_exact.
Print Assumptions C79_collecting.
