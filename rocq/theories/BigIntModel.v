(** Model of the 256-bit signed integer type: ergotree-ir/src/bigint256.rs. *)
From Verif Require Import Base VlqModel IntBytes.
Local Open Scope string_scope.
Local Open Scope list_scope.
Local Open Scope Z_scope.

(** [Bounded for BigInt256] (bigint256.rs 118-126). *)
Definition b256_min : Z := - 2 ^ 255.
Definition b256_max : Z := 2 ^ 255 - 1.

(** A [BigInt256] holds an arbitrary-precision integer; the type's invariant. *)
Definition b256 (z : Z) : Prop := b256_min <= z <= b256_max.

(** [TryFrom<BigInt>] (bigint256.rs 21-36). *)
Definition b256_of_bigint (z : Z) : option Z :=
  if z <? b256_min then None else if b256_max <? z then None else Some z.

(** [TryFrom<BigUint>] (bigint256.rs 38-52), for a non-negative argument. *)
Definition b256_of_biguint (z : Z) : option Z :=
  if b256_max <? z then None else Some z.

(** [TryFrom<&[u8]>] (bigint256.rs 54-61). *)
Definition b256_of_bytes (bs : bytes) : option Z := b256_of_bigint (from_signed_bytes_be bs).

(** The [num256] crate (version 0.3.1, source not in the repository) supplies the
    checked addition, subtraction, multiplication and division of [Int256].  They
    are modelled as the exact result filtered by a range test [fits]; the only
    thing assumed of it is [fits_ok] below, which leaves open what happens when the
    exact result is -2^255. *)
Section Num256.
Variable fits : Z -> bool.

Definition chk (z : Z) : option Z := if fits z then Some z else None.

(** [CheckedAdd], [CheckedSub], [CheckedMul], [CheckedDiv] (bigint256.rs 182-204);
    division truncates towards zero. *)
Definition b256_add (a b : Z) : option Z := chk (a + b).
Definition b256_sub (a b : Z) : option Z := chk (a - b).
Definition b256_mul (a b : Z) : option Z := chk (a * b).
Definition b256_div (a b : Z) : option Z := if b =? 0 then None else chk (Z.quot a b).
End Num256.

Definition fits_ok (fits : Z -> bool) : Prop :=
  (forall z, - 2 ^ 255 < z < 2 ^ 255 -> fits z = true) /\
  (forall z, z < - 2 ^ 255 \/ 2 ^ 255 <= z -> fits z = false).

(** [CheckedRem] (bigint256.rs 206-213): floor modulus, positive divisors only. *)
Definition b256_rem (a b : Z) : option Z := if b <=? 0 then None else Some (a mod b).

(** [CheckedNeg] (bigint256.rs 215-223). *)
Definition b256_neg (a : Z) : option Z := if a =? b256_min then None else Some (- a).

(** Bit operations on the underlying two's-complement integer (bigint256.rs
    173-180, 225-271). *)
Definition b256_not (a : Z) : Z := Z.lnot a.
Definition b256_and (a b : Z) : Z := Z.land a b.
Definition b256_or (a b : Z) : Z := Z.lor a b.
Definition b256_xor (a b : Z) : Z := Z.lxor a b.

(** The byte form used for constants, [to_signed_bytes_be] through [Deref]. *)
Definition b256_to_bytes (a : Z) : bytes := to_signed_bytes_be a.
