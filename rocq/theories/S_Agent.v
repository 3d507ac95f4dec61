(** Small specifications for the agent properties C07-C09, C14. *)
From Coq Require Import ZArith Reals Bool List String.
From Flocq Require Import Core.Core IEEE754.BinarySingleNaN.
From Verif Require Import Num F64 M_Resource M_Strategy M_Agent.
Import ListNotations.
Open Scope R_scope.

(** A float in [0, 2*math.Pi), in [0,1], a non-negative float (+Inf allowed). *)
Definition in_turn (x : F) : Prop := is_finite x = true /\ 0 <= B2R x < B2R (fhalfpi 4).
Definition in_unit (x : F) : Prop := is_finite x = true /\ 0 <= B2R x <= 1.
Definition nonneg (x : F) : Prop := (is_finite x = true /\ 0 <= B2R x) \/ x = B754_infinity false.

(** The attribute ranges of C07. *)
Record attrs_ok (a : Agent F) : Prop := {
  ok_phase : in_turn (sd_phase (ag_sd a)); ok_goal : in_turn (sd_goal (ag_sd a));
  ok_energy : nonneg (sd_energy (ag_sd a));
  ok_infl : in_unit (bd_infl (ag_bd a)); ok_stub : in_unit (bd_stub (ag_bd a)) }.

(** Finite arguments; a token manager handed to the agent was itself built and used with
    finite arguments. *)
Definition tok_arg_fin (o : TokOp F) : Prop :=
  match o with TReq x => is_finite x = true | TRel x => is_finite x = true end.
Definition arg_fin (tr : Trig) (o : AgentOp F) : Prop :=
  match o with
  | OSetPhase x | OSetEnergy x | OSetLocalGoal x | OSetInfluence x | OSetStubbornness x =>
      is_finite x = true
  | OWithTokens rm => exists m l, is_finite m = true /\ Forall tok_arg_fin l /\
      rm = @tokRun F (FNum tr) (@NewTokenManager F (FNum tr) m) l
  | OApply act => is_finite (ac_value act) = true /\ is_finite (ac_cost act) = true
  | ORandPhase _ | ORandGoal _ | OSetFrequency _ => True
  end.
