(** Specification of a well-formed swarm configuration (C26): the constraints documented on the
    fields of config.Swarm. *)
From Coq Require Import ZArith Reals Bool List.
From Flocq Require Import Core.Core IEEE754.BinarySingleNaN.
From Verif Require Import Num F64 M_SwarmConfig.
Open Scope Z_scope.

(** A probability: 0 <= x <= 1 (so not NaN); a positive float; an optional count. *)
Definition prob (x : F) : Prop := is_finite x = true /\ (0 <= B2R x <= 1)%R.
Definition positive (x : F) : Prop := flt (fofZ 0) x = true.

Record config_ok (c : SCfg F) (n : Z) : Prop := {
  k_prob : prob (sc_prob c); k_coup : prob (sc_coup c); k_stub : prob (sc_stub c);
  k_bstr : prob (sc_bstr c); k_conf : prob (sc_conf c); k_infl : prob (sc_infl c);
  k_min : 0 <= sc_minn c <= sc_maxn c; k_max : sc_maxn c <= n - 1; k_max1 : 1 < n -> 1 <= sc_maxn c;
  k_energy : positive (sc_energy c); k_width : positive (sc_bwid c);
  k_upd : 0 < sc_upd c; k_mon : 0 < sc_mon c;
  k_conc : 0 <= sc_maxconc c; k_bsize : 0 <= sc_bsize c; k_work : 0 <= sc_workers c;
  k_thr : 0 <= sc_optthr c;
  k_batch : sc_batch c = true -> 0 < sc_bsize c /\ 0 < sc_workers c }.

(** No float field is NaN. *)
Definition no_nan (c : SCfg F) : Prop :=
  fisnan (sc_prob c) = false /\ fisnan (sc_coup c) = false /\ fisnan (sc_stub c) = false /\
  fisnan (sc_bstr c) = false /\ fisnan (sc_conf c) = false /\ fisnan (sc_infl c) = false /\
  fisnan (sc_energy c) = false /\ fisnan (sc_bwid c) = false.

(** Accepted sizes. *)
Definition size_ok (c : SCfg F) (n : Z) : Prop := 0 < n /\ (0 < sc_maxsize c -> n <= sc_maxsize c).
