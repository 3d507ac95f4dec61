(** Model of how the swarm grid of [M_Display] is written to its panel: simulations/display/display.go:2319-2337
    and 2580-2611.  The widget is the list of the pieces written to it, each with its colour. *)
From Coq Require Import ZArith List Bool String Ascii.
From Verif Require Import Num GoBase M_Display.
Import ListNotations.
Open Scope string_scope.

(** The colour of a piece of text: none given, white, or one of the colours of [M_Display];
    simulations/display/display.go:2319-2337 and 2592-2610 ([cell.FgColor]). *)
Inductive Ink := Plain | White | Col (c : Color).
(** One call of [writeText]: simulations/display/display.go:2322-2335. *)
Definition Piece : Type := string * Ink.
(** The line feed written at simulations/display/display.go:2588, 2592 and 2600. *)
Definition nl : string := String (ascii_of_nat 10) "".
(** simulations/display/display.go:2320-2337 renderGridChar; [char] is a number as in [createEmptyGrid] and
    stands for the characters of lines 2308-2317 and 2555. *)
Definition renderGridChar (char : Z) : Piece :=
  if (char =? 2)%Z then ("●", Col CGreen)
  else if (char =? 3)%Z then ("o", Col CYellow)
  else if (char =? 4)%Z then ("∙", Col CRed)
  else if (char =? 1)%Z then ("⊕", Col CCyan)
  else (" ", Plain).
(** simulations/display/display.go:2582-2588 one round of the loop over the rows. *)
Definition renderRow (g : list (list Z)) (y : nat) : list Piece :=
  (match nth_error g y with Some row => map renderGridChar row | None => [] end) ++ [(nl, Plain)].
(** simulations/display/display.go:2580-2589 the loop over the rows; [height] is 13. *)
Definition renderGrid (g : list (list Z)) : list Piece := flat_map (renderRow g) (seq 0 13).
(** simulations/display/display.go:2591-2610 the legend. *)
Definition gridLegend : list Piece :=
  [(nl, White); ("⊕", Col CCyan); (" Target  ", White); ("●", Col CGreen); (" Synced" ++ nl, White);
   ("o", Col CYellow); (" Near    ", White); ("∙", Col CRed); (" Far", White)].
(** simulations/display/display.go:2540-2611 updateSwarmVisualization. *)
Definition updateSwarmVisualization {T} {N : Num T} (coherence : T) (phases : list T) : option (list Piece) :=
  match swarmGrid coherence phases with None => None | Some g => Some (renderGrid g ++ gridLegend)%list end.
