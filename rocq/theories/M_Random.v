(** Model of internal/random: the crypto/rand bytes are an explicit argument. *)
From Coq Require Import ZArith List Bool.
From Verif Require Import Num.
Import ListNotations.
Open Scope num_scope.

(** internal/random/random.go:24-40 Float64: [b] is the big-endian value of the 8 random
    bytes; [u & (1<<53 - 1)] is [b mod 2^53].  The failing-reader panic is not modelled. *)
Definition Float64 {T} {N : Num T} (b : Z) : T :=
  nofZ (b mod 2 ^ 53)%Z / nofZ (2 ^ 53)%Z.

(** internal/random/random.go:93-96 Phase: [Float64() * 2 * math.Pi]. *)
Definition RandPhase {T} {N : Num T} (b : Z) : T := Float64 b * nofZ 2 * npi.

(** internal/random/random.go:74-91 Int31n: [b] is the value of the 4 random bytes. *)
Definition Int31n (b : Z) : Z := (b mod 2 ^ 31)%Z.

(** internal/random/random.go:48-71 Intn.  The rejection loop reads the stream of 4-byte
    values [bs]; [IntnPanic] = the two panics, [IntnMore] = the given stream is used up while
    still rejecting. *)
Inductive IntnRes := IntnVal (v : Z) | IntnPanic | IntnMore.
Definition maxInt31 : Z := (2 ^ 31 - 1)%Z.
Definition intnLimit (n : Z) : Z := (maxInt31 / n * n)%Z.
Fixpoint intnLoop (n : Z) (bs : list Z) : IntnRes :=
  match bs with
  | [] => IntnMore
  | b :: r => if (Int31n b <? intnLimit n)%Z then IntnVal (Int31n b mod n)%Z else intnLoop n r
  end.
Definition Intn (n : Z) (bs : list Z) : IntnRes :=
  if (n <=? 0)%Z then IntnPanic
  else if (n <=? 1)%Z then IntnVal 0%Z
  else if (n <=? maxInt31)%Z then intnLoop n bs
  else IntnPanic.

(** simulations/emerge/simulation/agent.go:49-71 secureRandIntn: [b] is the 8-byte value,
    [None] when the entropy source fails. *)
Definition secureRandIntn (n : Z) (b : option Z) : Z :=
  if (n <=? 0)%Z then 0%Z
  else match b with
       | None => (n / 2)%Z
       | Some u =>
         let m := if (n >? maxInt31)%Z then maxInt31 else n in
         let r := (u mod m)%Z in if (r >? maxInt31)%Z then maxInt31 else r
       end.

(** simulations/emerge/simulation/agent.go:39-46 secureRandFloat32, in float32 (binary32): the
    4-byte value is rounded to float32, then divided by float32(1<<32); [None] when the
    entropy source fails. *)
From Flocq Require Import IEEE754.BinarySingleNaN.
Notation F32 := (binary_float 24 128).
#[global] Instance prec24 : Flocq.Core.FLX.Prec_gt_0 24 := eq_refl.
#[global] Instance emax128 : Prec_lt_emax 24 128 := eq_refl.
Definition f32ofZ (z : Z) : F32 := binary_normalize 24 128 _ _ mode_NE z 0 false.
Definition secureRandFloat32 (b : option Z) : F32 :=
  match b with
  | None => Bdiv mode_NE (f32ofZ 1) (f32ofZ 2)
  | Some u => Bdiv mode_NE (f32ofZ u) (f32ofZ (2 ^ 32))
  end.
