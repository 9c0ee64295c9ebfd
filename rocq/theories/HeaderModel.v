(** Model of block headers: ergo-chain-types/src/header.rs.
    [H] is [blake2b256_hash]; points come from an arbitrary group [G]. *)
From Verif Require Import Base VlqModel IntBytes GroupModel MerkleModel.

Section Header.
Context {G : group}.
Variable H : bytes -> bytes.

(** ergo-chain-types/src/header.rs:198-233 [AutolykosSolution]. *)
Record solution : Type := Solution {
  miner_pk : G;
  pow_onetime_pk : option G;
  nonce : bytes;
  pow_distance : option Z }.

(** header.rs:16-54 [Header].  Digests are byte strings (32 bytes, 33 for
    [state_root], 3 for [votes]); integers are in the range of their Rust type. *)
Record header : Type := Header {
  h_version : Z;
  h_id : bytes;
  h_parent_id : bytes;
  h_ad_proofs_root : bytes;
  h_state_root : bytes;
  h_transaction_root : bytes;
  h_timestamp : Z;
  h_n_bits : Z;
  h_height : Z;
  h_extension_root : bytes;
  h_solution : solution;
  h_votes : bytes }.

(** header.rs:58-88 [serialize_without_pow]; [n_bits as u32] keeps the low 32 bits. *)
Definition serialize_without_pow (h : header) : res bytes :=
  b0 <- put_u8 (h_version h) ;;
  bt <- put_u64 (h_timestamp h) ;;
  bh <- put_u32 (h_height h) ;;
  bx <- (if 1 <? h_version h then put_i8 0 else Ok []) ;;
  Ok (b0 ++ h_parent_id h ++ h_ad_proofs_root h ++ h_transaction_root h ++ h_state_root h ++
      bt ++ h_extension_root h ++ be_bytes 4 (wrapu 32 (h_n_bits h)) ++ bh ++ h_votes h ++ bx).

(** header.rs:237-267 [AutolykosSolution::serialize_bytes]. *)
Definition solution_serialize (version : Z) (s : solution) : res bytes :=
  if version =? 1 then
    b1 <- ec_write (miner_pk s) ;;
    w <- of_option "pow_onetime_pk must == Some(_) for autolykos v1" (pow_onetime_pk s) ;;
    b2 <- ec_write w ;;
    d <- of_option "pow_distance must be == Some(_) for autolykos v1" (pow_distance s) ;;
    bl <- put_u8 (wrapu 8 (Zlen (to_signed_bytes_be d))) ;;
    Ok (b1 ++ b2 ++ nonce s ++ bl ++ to_signed_bytes_be d)
  else
    b1 <- ec_write (miner_pk s) ;;
    Ok (b1 ++ nonce s).

(** header.rs:92-99 [scorex_serialize]. *)
Definition header_serialize (h : header) : res bytes :=
  b1 <- serialize_without_pow h ;;
  b2 <- solution_serialize (h_version h) (h_solution h) ;;
  Ok (b1 ++ b2).

(** header.rs:124-133: unknown new fields are read and dropped. *)
Definition skip_new_fields (version : Z) : reader unit :=
  fun bs =>
    if 1 <? version then
      '(n, bs) <- get_u8 bs ;;
      if 0 <? n then '(_, bs) <- read_exact (Z.to_nat n) bs ;; Ok (tt, bs) else Ok (tt, bs)
    else Ok (tt, bs).

(** header.rs:136-164. *)
Definition solution_parse (version : Z) : reader solution :=
  fun bs =>
    if version =? 1 then
      '(pk, bs) <- ec_read bs ;;
      '(w, bs) <- ec_read bs ;;
      '(n, bs) <- read_exact 8 bs ;;
      '(dl, bs) <- get_u8 bs ;;
      '(d, bs) <- read_exact (Z.to_nat dl) bs ;;
      Ok (Solution pk (Some w) n (Some (from_signed_bytes_be d)), bs)
    else
      '(pk, bs) <- ec_read bs ;;
      '(n, bs) <- read_exact 8 bs ;;
      Ok (Solution pk None n None, bs).

(** header.rs:101-191 [scorex_parse]: the identifier is the hash of the re-serialized
    header. *)
Definition header_parse : reader header :=
  fun bs =>
    '(version, bs) <- get_u8 bs ;;
    '(parent_id, bs) <- read_exact 32 bs ;;
    '(ad, bs) <- read_exact 32 bs ;;
    '(tx, bs) <- read_exact 32 bs ;;
    '(st, bs) <- read_exact 33 bs ;;
    '(ts, bs) <- get_u64 bs ;;
    '(ext, bs) <- read_exact 32 bs ;;
    '(nb, bs) <- read_exact 4 bs ;;
    '(height, bs) <- get_u32 bs ;;
    '(votes, bs) <- read_exact 3 bs ;;
    '(_, bs) <- skip_new_fields version bs ;;
    '(sol, bs) <- solution_parse version bs ;;
    let h := Header version (repeat 0 32) parent_id ad st tx ts (be_value nb) height ext sol votes in
    b1 <- serialize_without_pow h ;;
    b2 <- solution_serialize version sol ;;
    Ok (Header version (H (b1 ++ b2)) parent_id ad st tx ts (be_value nb) height ext sol votes, bs).

(** Derived [PartialEq] (header.rs:15, 197). *)
Definition opt_eqb {A} (e : A -> A -> bool) (a b : option A) : bool :=
  match a, b with Some x, Some y => e x y | None, None => true | _, _ => false end.
Definition solution_eqb (a b : solution) : bool :=
  geqb (miner_pk a) (miner_pk b) && opt_eqb geqb (pow_onetime_pk a) (pow_onetime_pk b) &&
  bytes_eqb (nonce a) (nonce b) && opt_eqb Z.eqb (pow_distance a) (pow_distance b).
Definition header_eqb (a b : header) : bool :=
  (h_version a =? h_version b) && bytes_eqb (h_id a) (h_id b) &&
  bytes_eqb (h_parent_id a) (h_parent_id b) && bytes_eqb (h_ad_proofs_root a) (h_ad_proofs_root b) &&
  bytes_eqb (h_state_root a) (h_state_root b) && bytes_eqb (h_transaction_root a) (h_transaction_root b) &&
  (h_timestamp a =? h_timestamp b) && (h_n_bits a =? h_n_bits b) && (h_height a =? h_height b) &&
  bytes_eqb (h_extension_root a) (h_extension_root b) && solution_eqb (h_solution a) (h_solution b) &&
  bytes_eqb (h_votes a) (h_votes b).

End Header.
Arguments solution : clear implicits.
Arguments header : clear implicits.
