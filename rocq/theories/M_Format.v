(** Model of the numbers as they are printed: the verb %.pf of fmt (strconv.FormatFloat: the decimal nearest to the
    exact value, ties to even), Duration.Seconds and Duration.Minutes, and the two functions that print times. *)
From Coq Require Import ZArith Bool String Ascii.
From Flocq Require Import IEEE754.BinarySingleNaN.
From Verif Require Import Num F64.
Open Scope Z_scope.

(** The nearest integer to n/d, ties to even (n >= 0, d > 0): strconv's rounding of the last digit, used by every %.pf
    of simulations/display/display.go and text_display.go:63-69. *)
Definition divNE (n d : Z) : Z :=
  let q := n / d in let r := n mod d in
  if 2 * r <? d then q else if d <? 2 * r then q + 1 else if Z.even q then q else q + 1.
(** m * 2^e in units of the p-th decimal place (simulations/display/text_display.go:63-69). *)
Definition scaled (p : nat) (m : positive) (e : Z) : Z :=
  let n := Z.pos m * 10 ^ Z.of_nat p in if 0 <=? e then n * 2 ^ e else divNE n (2 ^ - e).

(** A decimal digit (fmt's %d and %f, simulations/display/display.go:2649). *)
Definition digit (z : Z) : ascii := ascii_of_nat (48 + Z.to_nat z).
(** The digits of z in front of s (simulations/display/display.go:2649). *)
Fixpoint decLoop (fuel : nat) (z : Z) (s : string) : string :=
  match fuel with
  | O => s
  | S f => let s' := String (digit (z mod 10)) s in if z <? 10 then s' else decLoop f (z / 10) s'
  end.
(** %d of a non-negative integer (simulations/display/display.go:1263). *)
Definition dec (z : Z) : string := decLoop (S (Z.to_nat (Z.log2 z))) z "".
(** Zeros in front up to the given width (fmt's 0 flag, simulations/display/text_display.go:98). *)
Fixpoint zeros (n : nat) : string := match n with O => EmptyString | S k => String "0"%char (zeros k) end.
Definition pad (w : nat) (s : string) : string := (zeros (w - String.length s) ++ s)%string.
(** k units of the p-th decimal place (simulations/display/display.go:2649). *)
Definition fixed (p : nat) (k : Z) : string :=
  match p with
  | O => dec k
  | _ => (dec (k / 10 ^ Z.of_nat p) ++ "." ++ pad p (dec (k mod 10 ^ Z.of_nat p)))%string
  end.
(** fmt's %.pf (simulations/display/display.go:1250, 1547, 2649; text_display.go:63-69). *)
Definition fmtF (p : nat) (x : F) : string :=
  match x with
  | B754_nan => "NaN"
  | B754_infinity s => if s then "-Inf" else "+Inf"
  | B754_zero s => ((if s then "-" else "") ++ fixed p 0)%string
  | B754_finite s m e _ => ((if s then "-" else "") ++ fixed p (scaled p m e))%string
  end.

Section Duration.
Context {T : Type} {N : Num T}.
Open Scope num_scope.
(** time.Duration.Seconds (used in simulations/display/display.go:2649, 1343 and text_display.go:98). *)
Definition Seconds (d : Z) : T := nofZ (Z.quot d 1000000000) + nofZ (Z.rem d 1000000000) / nofZ 1000000000.
(** time.Duration.Minutes (used in simulations/display/display.go:2651 and text_display.go:100). *)
Definition Minutes (d : Z) : T := nofZ (Z.quot d 60000000000) + nofZ (Z.rem d 60000000000) / nofZ 60000000000.
End Duration.
(** simulations/display/display.go:2647-2652 formatDuration. *)
Definition formatDuration {N : Num F} (d : Z) : string :=
  if d <? 60000000000 then (fmtF 1 (Seconds d) ++ "s")%string else (fmtF 1 (Minutes d) ++ "m")%string.
(** simulations/display/text_display.go:96-101 formatTime, for a duration that is not negative. *)
Definition formatTime {N : Num F} (d : Z) : string :=
  if d <? 60000000000 then (pad 2 (fmtF 0 (Seconds d)) ++ "s")%string else (pad 2 (fmtF 0 (Minutes d)) ++ "m")%string.
(** The percentage printed for a share of 1 (simulations/display/display.go:1250, 1340; text_display.go:65). *)
Definition percentText {N : Num F} (p : nat) (c : F) : string := fmtF p (nmul c (nofZ 100)).
