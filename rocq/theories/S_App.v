(** What is said about the life of the simulation program. *)
From Coq Require Import ZArith List Bool.
From Verif Require Import M_GoalConfig M_Controller M_App.
Import ListNotations.

(** Events that ask for another goal, scale or pattern. *)
Definition asks_switch (e : Event) : bool :=
  match e with EventQuit | EventReset | EventDisrupt | EventPause | EventResume => false | _ => true end.
(** No key of the schedule asks for a switch. *)
Definition no_switch_key (esc : Z) (es : list AEv) : Prop :=
  forall k ev, In (AKey k) es -> keyEvent esc k = Some ev -> asks_switch ev = false.
(** Steps that have to do with signals. *)
Definition about_signals (e : AEv) : bool := match e with ASignal | ASigStep => true | _ => false end.
(** Everything but the signal goroutine. *)
Definition rest_of (s : App) := (ap_cfg s, ap_run s, ap_ctx s, ap_late s, ap_keys s, ap_ru s, ap_hand s, ap_over s).
(** The events of the keys pressed, in order. *)
Fixpoint pressed (esc : Z) (es : list AEv) : list Event :=
  match es with
  | [] => []
  | AKey k :: r => match keyEvent esc k with Some ev => ev :: pressed esc r | None => pressed esc r end
  | _ :: r => pressed esc r
  end.
(** One list is the other with some elements left out. *)
Inductive part_of {A} : list A -> list A -> Prop :=
| po_nil l : part_of [] l
| po_skip x l m : part_of l m -> part_of l (x :: m)
| po_take x l m : part_of l m -> part_of (x :: l) (x :: m).
(** The configurations of successive runs. *)
Fixpoint switches (c : MainConfig) (evs : list Event) : option MainConfig :=
  match evs with
  | [] => Some c
  | e :: r => match applySwitch c e with Some c' => switches c' r | None => None end
  end.
