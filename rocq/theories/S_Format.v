(** Reading decimal numbers: the specification of the printed numbers. *)
From Coq Require Import ZArith String Ascii Bool.
Open Scope Z_scope.

(** The value of a digit. *)
Definition digitVal (c : ascii) : option Z :=
  let n := Z.of_nat (nat_of_ascii c) in if (48 <=? n) && (n <=? 57) then Some (n - 48) else None.
(** Digits, at most one point among them: the digits as one integer and the number of digits after the point. *)
Fixpoint readFrom (a : Z) (places : option nat) (s : string) : option (Z * nat) :=
  match s with
  | EmptyString => Some (a, match places with Some n => n | None => O end)
  | String c r =>
    if Ascii.eqb c "."%char then match places with None => readFrom a (Some O) r | Some _ => None end
    else match digitVal c with
         | Some v => readFrom (10 * a + v) (match places with Some n => Some (S n) | None => None end) r
         | None => None
         end
  end.
(** An unsigned number must not be empty. *)
Definition readUnsigned (s : string) : option (Z * nat) := match s with EmptyString => None | _ => readFrom 0 None s end.
(** A number with an optional minus sign: (k, p) means k / 10^p. *)
Definition readDec (s : string) : option (Z * nat) :=
  match s with
  | String "-" r => match readUnsigned r with Some (k, p) => Some (- k, p) | None => None end
  | _ => readUnsigned s
  end.
(** A printed duration: a number followed by "s" or "m".  (k, p, u) means k / 10^p units of u nanoseconds. *)
Fixpoint splitLast (c : ascii) (s : string) : string * ascii :=
  match s with EmptyString => (EmptyString, c) | String d r => let (h, l) := splitLast d r in (String c h, l) end.
Definition readDuration (s : string) : option (Z * nat * Z) :=
  match s with
  | EmptyString => None
  | String c r => let (h, l) := splitLast c r in
    match readDec h with
    | None => None
    | Some (k, p) => if Ascii.eqb l "s" then Some (k, p, 1000000000) else if Ascii.eqb l "m" then Some (k, p, 60000000000) else None
    end
  end.
