(** Model of the crate ergo-chain-generation: the stream of simulated blocks
    (src/chain_generation.rs) and their conversion to superblock headers (src/lib.rs).
    [H] is [blake2b256_hash]; the secret of the default miner (lib.rs:58-68, a constant
    derived from a test mnemonic) is a parameter [sk]; the values drawn at random for each
    block are arguments.  [order()] is the order of the group. *)
From Verif Require Import Base VlqModel IntBytes GroupModel MerkleModel HeaderModel PowModel NipopowModel.

(** What one call of [prove_block] draws: the AD proof bytes (chain_generation.rs:167-173)
    and the one-time secret (223). *)
Record draw : Type := Draw { dr_ad : bytes; dr_x : Z }.

(** A transaction as far as [transactions_root] looks at it: the bytes to sign and the
    proof bytes of its inputs. *)
Record gtx : Type := Gtx { gx_message : bytes; gx_proofs : list bytes }.

Section ChainGen.
Context {G : group}.
Variable H : bytes -> bytes.
Variable float_level : Z -> Z -> Z.
Variable sk : Z.
(** Fuel for [numeric_hash] and the number of nonces tried (2^64 - 1 in the code, lines
    232-240). *)
Variable fuel nonces : nat.

Definition out_of_fuel : string := "out of fuel".

(** lib.rs:31-38 [ErgoFullBlock]. *)
Record full_block : Type := FullBlock { fb_header : header G; fb_extension : list (bytes * bytes) }.

(** lib.rs:40-54 [TryInto<PoPowHeader>]. *)
Definition to_popow (b : full_block) : res (popow_header G) :=
  p <- proof_for_interlink_vector H (fb_extension b) ;;
  match p with
  | None => Err "Unable to generate BatchMerkleProof for interlinks"
  | Some pr =>
      links <- unpack_interlinks (fb_extension b) ;;
      Ok (PoPow (fb_header b) links pr)
  end.

(** chain_generation.rs:326-337 [numeric_hash]; an error when [n] rounds do not do. *)
Fixpoint numeric_hash_loop (n : nat) (hashed : bytes) (valid_range order : Z) : res Z :=
  match n with
  | O => Err out_of_fuel
  | S n' =>
      let bi := be_value hashed in
      if bi <? valid_range then Ok (bi mod order) else numeric_hash_loop n' (H hashed) valid_range order
  end.
Definition numeric_hash (input : bytes) (valid_range order : Z) : res Z :=
  numeric_hash_loop fuel (H input) valid_range order.

(** chain_generation.rs:291-319 [generate_element]. *)
Definition generate_element (version : Z) (msg pk w index_bytes height_bytes : bytes) : res Z :=
  if version =? 1 then
    let valid_range := 2 ^ 256 / gord G * gord G in
    numeric_hash (index_bytes ++ calc_big_m ++ pk ++ msg ++ w) valid_range (gord G)
  else Ok (be_value (skipn 1 (H (index_bytes ++ height_bytes ++ calc_big_m)))).

(** chain_generation.rs:340-371 [transactions_root]. *)
Definition tx_leaf (version : Z) (t : gtx) : bytes :=
  if version =? 1 then H (gx_message t) else H (gx_message t) ++ List.concat (gx_proofs t).
Definition transactions_root (txs : list gtx) (version : Z) : res bytes :=
  t <- merkle_new H (map (fun t => from_bytes H (tx_leaf version t)) txs) ;;
  Ok (root_hash_special H t).

(** chain_generation.rs:240-270: one nonce; the distance it gives. *)
Definition try_nonce (version : Z) (msg p1 p2 height_bytes : bytes) (big_n x : Z) (non : bytes) : res Z :=
  seed <- (if version =? 1 then Ok (H (msg ++ non))
           else unwrap_r (calc_seed_v2 H big_n msg non height_bytes)) ;;
  idx <- gen_indexes seed big_n ;;
  elems <- map_r (fun ix => generate_element version msg p1 p2 (be_bytes 4 ix) height_bytes) idx ;;
  let sum := fold_left (fun acc e => acc + e) elems 0 in
  Ok (if version =? 1 then (x * sum - sk) mod gord G else be_value (H (to_signed_bytes_be sum))).

(** chain_generation.rs:240-280: the loop over the nonces from [i64::MIN] up; [Ok None]
    when all of them are used up. *)
Fixpoint mine (n : nat) (i : Z) (version : Z) (msg p1 p2 height_bytes : bytes) (big_n x target : Z)
  : res (option (bytes * Z)) :=
  match n with
  | O => Ok None
  | S n' =>
      let non := be_bytes 8 (wrapu 64 i) in
      d <- try_nonce version msg p1 p2 height_bytes big_n x non ;;
      if d <=? target then Ok (Some (non, d))
      else mine n' (i + 1) version msg p1 p2 height_bytes big_n x target
  end.

(** Assignments to [header.id] and [header.autolykos_solution] (276-277). *)
Definition with_solution (h : header G) (i : bytes) (s : solution G) : header G :=
  Header (h_version h) i (h_parent_id h) (h_ad_proofs_root h) (h_state_root h) (h_transaction_root h)
    (h_timestamp h) (h_n_bits h) (h_height h) (h_extension_root h) s (h_votes h).

(** chain_generation.rs:206-211: the solution before mining; [EcPoint::default] is the
    identity. *)
Definition dummy_solution : solution G := Solution gid None [] (Some 0).

(** chain_generation.rs:153-289 [prove_block].  Adding one to the largest height panics, as
    in builds with overflow checks. *)
Definition prove_block (parent : option (header G)) (version : Z) (txs : list gtx) (timestamp : Z)
    (ext : list (bytes * bytes)) (r : draw) : res full_block :=
  let n_bits := 16842752 in
  tx_root <- transactions_root txs version ;;
  ph <- match parent with
        | Some p => if h_height p =? 2 ^ 32 - 1 then Panic else Ok (h_id p, h_height p + 1)
        | None => Ok (repeat 0 32, 1)
        end ;;
  let '(parent_id, height) := ph in
  tree <- merkle_new H (map (fun kv => from_bytes H (2 :: fst kv ++ snd kv)) ext) ;;
  let extension_root := root_hash_special H tree in
  let h := Header version (repeat 0 32) parent_id (H (dr_ad r)) (repeat 0 33) tx_root timestamp n_bits height
             extension_root dummy_solution [0; 0; 0] in
  m <- unwrap_r (serialize_without_pow h) ;;
  let msg := H m in
  target <- (if decode_compact_bits n_bits =? 0 then Panic else Ok (Z.quot (gord G) (decode_compact_bits n_bits))) ;;
  p1 <- unwrap_r (ec_write (exponentiate (@ggen G) sk)) ;;
  p2 <- unwrap_r (ec_write (exponentiate (@ggen G) (dr_x r))) ;;
  o <- mine nonces (- 2 ^ 63) version msg p1 p2 (be_bytes 4 height) (calc_big_n version height) (dr_x r) target ;;
  match o with
  | None => Ok (FullBlock h ext)
  | Some (non, d) =>
      let s := Solution (exponentiate (@ggen G) sk) (Some (exponentiate (@ggen G) (dr_x r))) non (Some d) in
      data <- unwrap_r (solution_serialize version s) ;;
      Ok (FullBlock (with_solution h (H (m ++ data)) s) ext)
  end.

(** chain_generation.rs:119-151 [next_block]: a failure to read or to update the interlinks
    of the previous block means no interlinks. *)
Definition next_links (prev : option full_block) : res (list bytes) :=
  match prev with
  | None => Ok []
  | Some b =>
      match unpack_interlinks (fb_extension b) with
      | Ok l =>
          match update_interlinks H float_level (fb_header b) l with
          | Err _ => Ok []
          | r => r
          end
      | Err _ => Ok []
      | Panic => Panic
      end
  end.
Definition next_block (prev : option full_block) (txs : list gtx) (ext : list (bytes * bytes)) (version : Z)
    (r : draw) : res full_block :=
  links <- next_links prev ;;
  ext' <- match links with
          | [] => Ok ext
          | _ => f <- pack_interlinks links ;; Ok (ext ++ f)
          end ;;
  prove_block (option_map fb_header prev) version txs 0 ext' r.

(** chain_generation.rs:91-116 [block_stream]: its first elements, one per draw after the
    start block; [txs] is the one transaction built at lines 50-90. *)
Fixpoint successors (txs : list gtx) (prev : full_block) (rs : list draw) : res (list full_block) :=
  match rs with
  | [] => Ok []
  | r :: rest =>
      b <- next_block (Some prev) txs [] 1 r ;;
      bs <- successors txs b rest ;;
      Ok (b :: bs)
  end.
Definition block_stream (start : option full_block) (txs : list gtx) (r0 : draw) (rs : list draw)
  : res (list full_block) :=
  s <- match start with Some b => Ok b | None => next_block None txs [] 1 r0 end ;;
  bs <- successors txs s rs ;;
  Ok (s :: bs).
End ChainGen.
Arguments full_block : clear implicits.
