(** C18: the default configuration of an agent against the constructor without a configuration. *)
From Coq Require Import ZArith Reals Psatz Bool List String Lia.
From Verif Require Import Num RealNum M_Core M_Agent M_Resource M_AgentConfig P_Agent2.
Import ListNotations.
Open Scope R_scope.

(** An agent made from the default configuration has the energy and the stubbornness of one made by [New] without options,
    whatever the random draws; it starts at phase 0 with the fixed period of 100 ms.  The test configuration makes agents
    that are more easily led, less stubborn and twice as fast. *)
Theorem C18_default_agent : forall id d a t, @NewFromConfig R RNum id d (@DefaultAgent R RNum) = Some a ->
  @NewFromConfig R RNum id d (@TestAgent R RNum) = Some t ->
  let b := @NewAgent R RNum id (dr1 d) (dr2 d) (dr3 d) [] in
  sd_energy (ag_sd a) = sd_energy (ag_sd b) /\ bd_stub (ag_bd a) = bd_stub (ag_bd b) /\
  bd_infl (ag_bd a) < bd_infl (ag_bd t) /\ bd_stub (ag_bd t) < bd_stub (ag_bd a) < bd_infl (ag_bd a) /\
  sd_freq (ag_sd a) = 100000000%Z /\ (2 * sd_freq (ag_sd t))%Z = sd_freq (ag_sd a).
Proof.
  intros id d a t Ha Ht b. destruct (C18_attributes id d _ a Ha) as (_ & _ & _ & _ & F & E & I & S & _).
  destruct (C18_attributes id d _ t Ht) as (_ & _ & _ & _ & F' & _ & I' & S' & _).
  unfold DefaultAgent in F, E, I, S. unfold TestAgent in F', I', S'. cbn [ac_rfreq ac_freq ac_energy ac_infl ac_stub nofZ nlit RNum] in *.
  repeat match goal with H : context [Req_EM_T ?x 0] |- _ => destruct (Req_EM_T x 0); [lra|] end.
  rewrite (Rmin_right 1 (5 / 10)), Rmax_right in I by lra. rewrite (Rmin_right 1 (2 / 10)), Rmax_right in S by lra.
  rewrite (Rmin_right 1 (8 / 10)), Rmax_right in I' by lra. rewrite (Rmin_right 1 (1 / 100)), Rmax_right in S' by lra. rewrite Rmax_right in E by lra.
  rewrite I, S, I', S', E, F, F'. subst b. unfold NewAgent. cbn [fold_left set_ctx ag_sd ag_bd sd_energy bd_stub nofZ nlit RNum].
  repeat split; lra.
Qed.
Print Assumptions C18_default_agent.
(** But it is not the same agent: the default configuration weighs the influence five times as much as [New] does. *)
Theorem C18_default_influence_refuted : forall id d a, @NewFromConfig R RNum id d (@DefaultAgent R RNum) = Some a ->
  bd_infl (ag_bd a) = 5 * bd_infl (ag_bd (@NewAgent R RNum id (dr1 d) (dr2 d) (dr3 d) [])).
Proof.
  intros id d a Ha. destruct (C18_attributes id d _ a Ha) as (_ & _ & _ & _ & _ & _ & I & _).
  unfold DefaultAgent in I. cbn [ac_infl nlit RNum] in I. destruct (Req_EM_T (5 / 10) 0); [lra|].
  rewrite (Rmin_right 1 (5 / 10)), Rmax_right in I by lra. rewrite I. unfold NewAgent. cbn [fold_left set_ctx ag_bd bd_infl nlit RNum]. lra.
Qed.
Print Assumptions C18_default_influence_refuted.
(** The hypotheses are met. *)
Example C18_default_applies : forall d, exists a t, @NewFromConfig R RNum "x" d (@DefaultAgent R RNum) = Some a /\ @NewFromConfig R RNum "x" d (@TestAgent R RNum) = Some t.
Proof.
  intros d. destruct (@NewFromConfig R RNum "x"%string d (@DefaultAgent R RNum)) as [a|] eqn:E; [|exfalso; apply C18_error_iff in E; apply E; cbn; tauto].
  destruct (@NewFromConfig R RNum "x"%string d (@TestAgent R RNum)) as [t|] eqn:E'; [|exfalso; apply C18_error_iff in E'; apply E'; cbn; tauto].
  exists a, t. auto.
Qed.
