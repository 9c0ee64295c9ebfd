(** Properties C01-C04: the VLQ / ZigZag codec of sigma-ser. *)
From Verif Require Import Base VlqModel VlqProofs.

(** C01: unsigned numbers of every width round trip, whatever follows. *)
Theorem c01_unsigned_vlq_roundtrip :
  (forall v, u16 v -> roundtrip put_u16 get_u16 v) /\
  (forall v, u32 v -> roundtrip put_u32 get_u32 v) /\
  (forall v, u64 v -> roundtrip put_u64 get_u64 v).
Proof. exact (conj get_put_u16 (conj get_put_u32 get_put_u64)). Qed.
Print Assumptions c01_unsigned_vlq_roundtrip.

Example c01_hyps_met : u64 18446744073709551615 /\
  put_u64 18446744073709551615 = Ok [255;255;255;255;255;255;255;255;255;1].
Proof. split; [split; reflexivity || discriminate | reflexivity]. Qed.

(** C02: signed numbers of every width round trip, whatever follows. *)
Theorem c02_signed_vlq_roundtrip :
  (forall v, i8 v -> roundtrip put_i8 get_i8 v) /\
  (forall v, i16 v -> roundtrip put_i16 get_i16 v) /\
  (forall v, i32 v -> roundtrip put_i32 get_i32 v) /\
  (forall v, i64 v -> roundtrip put_i64 get_i64 v).
Proof. exact (conj get_put_i8 (conj get_put_i16 (conj get_put_i32 get_put_i64))). Qed.
Print Assumptions c02_signed_vlq_roundtrip.

Example c02_hyps_met : i32 (-2147483648) /\
  put_i32 (-2147483648) = Ok [255;255;255;255;255;255;255;255;255;1] /\
  get_i32 [255;255;255;255;255;255;255;255;255;1;7] = Ok (-2147483648, [7]).
Proof. split; [split; reflexivity || discriminate | split; reflexivity]. Qed.

(** C03, reader: on every byte string the u64 reader either reports an error or
    consumes a chain of 1..10 bytes that ends at the first byte below 128
    ([vlq_shape]) and returns its little-endian base 128 value modulo 2^64. *)
Theorem c03_vlq_reader_bounded : forall bs, bytes_ok bs ->
  (exists e, get_u64 bs = Err e) \/
  (exists used rest, bs = used ++ rest /\ vlq_shape used /\
     (1 <= List.length used <= 10)%nat /\
     get_u64 bs = Ok (vlq_value used mod 2 ^ 64, rest)).
Proof.
  intros bs Hok. destruct (get_u64 bs) as [[v rest]|e|] eqn:E.
  - right. destruct (get_u64_inv bs v rest Hok E) as (used & Hb & Hsh & Hl & Hv).
    exists used, rest. subst v. auto.
  - left. eauto.
  - exfalso. exact (get_u64_loop_no_panic 10 0 0 bs E).
Qed.
Print Assumptions c03_vlq_reader_bounded.

(** C03: it fails only when there is no such chain at the front. *)
Theorem c03_vlq_reader_accepts_every_chain : forall used rest,
  vlq_shape used -> (List.length used <= 10)%nat ->
  get_u64 (used ++ rest) = Ok (vlq_value used mod 2 ^ 64, rest).
Proof. exact get_u64_spec. Qed.
Print Assumptions c03_vlq_reader_accepts_every_chain.

(** C03: narrow readers never leave their type. *)
Theorem c03_narrow_readers_in_range : forall bs v rest, bytes_ok bs ->
  (get_u16 bs = Ok (v, rest) -> u16 v) /\
  (get_u32 bs = Ok (v, rest) -> u32 v) /\
  (get_i16 bs = Ok (v, rest) -> i16 v) /\
  (get_i32 bs = Ok (v, rest) -> i32 v) /\
  (get_i64 bs = Ok (v, rest) -> i64 v).
Proof. exact narrow_readers_in_range. Qed.
Print Assumptions c03_narrow_readers_in_range.

(** C03, writer: one to ten bytes, and no other chain with the same value is
    shorter. *)
Theorem c03_vlq_writer_shortest : forall v, u64 v ->
  exists bs, put_u64 v = Ok bs /\ (1 <= List.length bs <= 10)%nat /\ vlq_shape bs /\
    forall used, vlq_shape used -> vlq_value used = v ->
      (List.length bs <= List.length used)%nat.
Proof.
  intros v Hv. destruct (put_u64_spec v Hv) as (bs & H1 & H2 & _ & H4 & _).
  exists bs. repeat split; auto; try lia. intros used Hs Hval.
  exact (put_u64_minimal v bs used Hv H1 Hs Hval).
Qed.
Print Assumptions c03_vlq_writer_shortest.

Example c03_hyps_met : bytes_ok [128; 128; 1; 9] /\ vlq_shape [128; 128; 1] /\
  get_u64 [128; 128; 1; 9] = Ok (16384, [9]) /\
  get_u64 [128;128;128;128;128;128;128;128;128;128;0] = Err "VlqDecodingFailed".
Proof.
  repeat split; try reflexivity; try discriminate.
  repeat constructor; discriminate.
Qed.

(** C04: bit lists. *)
Theorem c04_bits_roundtrip : forall bits,
  roundtrip put_bits (get_bits (List.length bits)) bits /\
  exists bs, put_bits bits = Ok bs /\ List.length bs = ((List.length bits + 7) / 8)%nat.
Proof.
  intros bits. split; [exact (get_put_bits bits)|].
  eexists. split; [reflexivity|]. exact (put_bits_padding bits _ eq_refl).
Qed.
Print Assumptions c04_bits_roundtrip.

(** C04: short strings. *)
Theorem c04_short_string_roundtrip : forall s, utf8_valid s = true ->
  (Zlen s <= 255 -> roundtrip put_short_string get_short_string s) /\
  (Zlen s > 255 -> exists e, put_short_string s = Err e).
Proof.
  intros s Hu. split; [exact (get_put_short_string s Hu)|exact (put_short_string_long s)].
Qed.
Print Assumptions c04_short_string_roundtrip.

(** C04: optional values over any element codec. *)
Theorem c04_option_roundtrip : forall A (w : A -> res bytes) (r : reader A) (o : option A),
  (forall a, o = Some a -> roundtrip w r a) ->
  roundtrip (put_option w) (get_option r) o.
Proof. exact get_put_option. Qed.
Print Assumptions c04_option_roundtrip.

Example c04_hyps_met :
  utf8_valid [226; 130; 172] = true /\ utf8_valid [237; 160; 128] = false /\
  put_bits [true; false; true; true; false; false; false; false; true] = Ok [13; 1] /\
  (forall a, Some 300 = Some a -> roundtrip put_u16 get_u16 a).
Proof.
  repeat split; try reflexivity. intros a H. injection H as <-.
  apply get_put_u16. split; [discriminate|reflexivity].
Qed.
