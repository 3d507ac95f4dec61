(** Small specifications for C57-C60: words for a coherence, diagnosis of a run, rate, clamping. *)
From Coq Require Import ZArith Reals Bool List String.
From Flocq Require Import Core.Core IEEE754.BinarySingleNaN.
From Verif Require Import Num F64.
Import ListNotations.

(** How many of the four marks 0.2, 0.4, 0.6, 0.8 a coherence has reached. *)
Definition marks : list F := [flit 2 10; flit 4 10; flit 6 10; flit 8 10].
Definition rank (c : F) : nat := List.length (filter (fun t => fle t c) marks).
(** The words in increasing order. *)
Definition levelWords : list string := ["Very Low"; "Low"; "Moderate"; "Good"; "Excellent"]%string.
Definition syncWords : list string :=
  ["(Chaos - no coordination)"; "(Groups forming - multiple rhythms)"; "(Partial coordination - groups merging)";
   "(Good sync - single dominant rhythm)"; "(Excellent sync - unified rhythm)"]%string.
Definition batchWords : list string :=
  ["(Chaos - no batching)"; "(Weak batching emerging)"; "(Moderate batching)"; "(Good batching)";
   "(Excellent batching!)"]%string.
(** The rate of a run of [i] out of [m] iterations, in whole-number arithmetic. *)
Definition rateWord (i m : Z) : string :=
  (if 10 * i <? 3 * m then "Fast convergence" else if 10 * i <? 6 * m then "Normal convergence"
   else if 10 * i <? 9 * m then "Slow convergence" else "Very slow convergence")%Z%string.
