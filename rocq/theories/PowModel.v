(** Model of ergo-nipopow/src/autolykos_pow_scheme.rs and of the compact difficulty
    encoding.  [AutolykosPowScheme] has private fields and no constructor besides
    [Default], so [k = 32] and [n = 26] throughout (lines 161-170). *)
From Verif Require Import Base VlqModel IntBytes GroupModel MerkleModel HeaderModel.

Definition k_param : nat := 32.
Definition n_param : Z := 26.

(** autolykos_pow_scheme.rs:173-190 [as_unsigned_byte_array]. *)
Definition as_unsigned_byte_array (length : nat) (big_int : Z) : res bytes :=
  let bs := to_signed_bytes_be big_int in
  if Nat.eqb (List.length bs) length then Ok bs
  else
    let start := if hd 0 bs =? 0 then 1%nat else 0%nat in
    let count := (List.length bs - start)%nat in
    if Nat.ltb length count then Err "BigIntToFixedByteArrayError"
    else Ok (repeat 0 (length - count) ++ skipn start bs).

(** autolykos_pow_scheme.rs:155: one growth step, on unsigned integers. *)
Definition grow (acc : Z) : Z := acc / 100 * 105.

(** autolykos_pow_scheme.rs:137-158 [calc_big_n]. *)
Definition calc_big_n (version height : Z) : Z :=
  let n_base := 2 ^ n_param in
  if version =? 1 then n_base
  else
    let height := Z.min 4198400 height in
    let start := 600 * 1024 in
    if height <? start then n_base
    else Nat.iter (Z.to_nat ((height - start) / (50 * 1024) + 1)) grow n_base.

(** autolykos_pow_scheme.rs:120-134 [gen_indexes].  [to_u32_digits().1] is empty for
    zero, so indexing it panics. *)
Definition gen_index (ext : bytes) (big_n : Z) (i : nat) : res Z :=
  let v := be_value (firstn 4 (skipn i ext)) mod big_n in
  if v =? 0 then Panic else Ok (v mod 2 ^ 32).
Definition gen_indexes (seed : bytes) (big_n : Z) : res (list Z) :=
  map_r (gen_index (seed ++ firstn 3 seed) big_n) (seq 0 k_param).

(** autolykos_pow_scheme.rs:74-84 [calc_big_m]. *)
Definition calc_big_m : bytes := flat_map (fun i => be_bytes 8 (Z.of_nat i)) (seq 0 (2 ^ 10)).

Section Pow.
Context {G : group}.
Variable H : bytes -> bytes.

(** autolykos_pow_scheme.rs:88-117 [calc_seed_v2]; [skipn] of a 32-byte hash is the
    slice [[24..]] or [[1..]]. *)
Definition calc_seed_v2 (big_n : Z) (msg non height_bytes : bytes) : res bytes :=
  let pre := be_value (skipn 24 (H (msg ++ non))) in
  i <- as_unsigned_byte_array 4 (pre mod big_n) ;;
  let f := H (i ++ height_bytes ++ calc_big_m) in
  Ok (H (skipn 1 f ++ msg ++ non)).

(** autolykos_pow_scheme.rs:56-64: one summand. *)
Definition element (height_bytes : bytes) (idx : Z) : Z :=
  be_value (skipn 1 (H (be_bytes 4 idx ++ height_bytes ++ calc_big_m))).

(** [Result::unwrap] *)
Definition unwrap_r {A} (r : res A) : res A := match r with Err _ => Panic | _ => r end.

(** autolykos_pow_scheme.rs:31-71 [pow_hit]. *)
Definition pow_hit (h : header G) : res Z :=
  if h_version h =? 1 then
    of_option "MissingPowDistanceParameter" (pow_distance (h_solution h))
  else
    m <- serialize_without_pow h ;;
    let msg := H m in
    let non := nonce (h_solution h) in
    let height_bytes := be_bytes 4 (h_height h) in
    let big_n := calc_big_n (h_version h) (h_height h) in
    seed <- calc_seed_v2 big_n msg non height_bytes ;;
    indexes <- gen_indexes seed big_n ;;
    let f2 := fold_left (fun acc idx => acc + element height_bytes idx) indexes 0 in
    arr <- unwrap_r (as_unsigned_byte_array 32 f2) ;;
    Ok (be_value (H arr)).
End Pow.

(** ergo-nipopow/src/nipopow_algos.rs:383-410 [decode_compact_bits].  A byte read as
    [i8] and cast back to [u8] is itself, so the buffer is kept as bytes; the test
    [buf[0] as i32 & 0x80 == 0x80] is bit 7 of the byte and [buf[0] &= 0x7f] clears it. *)
Definition compact_buf (compact : Z) (size : Z) : bytes :=
  let m := [Z.land (Z.shiftr compact 16) 255; Z.land (Z.shiftr compact 8) 255; Z.land compact 255] in
  firstn (Z.to_nat size) (m ++ repeat 0 (Z.to_nat (size - 3))).
Definition decode_compact_bits (n_bits : Z) : Z :=
  let compact := wraps 64 n_bits in
  let size := Z.land (wraps 32 (Z.shiftr compact 24)) 255 in
  if size =? 0 then 0
  else
    match compact_buf compact size with
    | [] => 0
    | b0 :: bs =>
        if Z.land b0 128 =? 128
        then - from_signed_bytes_be (Z.land b0 127 :: bs)
        else from_signed_bytes_be (b0 :: bs)
    end.
