(** Model of the peer-to-peer data types and the in-memory peer database. *)
From Verif Require Import Base VlqModel MerkleModel.
Local Open Scope string_scope.
Local Open Scope list_scope.
Local Open Scope Z_scope.

(** ergo-chain-types/src/peer_addr.rs:18 [PeerAddr]: a socket address, i.e. the octets
    (4 for IPv4, 16 for IPv6) and the port.  Simplified: the flow information and scope
    of an IPv6 address are left out. *)
Inductive ip : Type := V4 (octets : bytes) | V6 (octets : bytes).
Record peer_addr : Type := PeerAddr { pa_ip : ip; pa_port : Z }.

(** peer_addr.rs:22-27 [ip_size]. *)
Definition ip_size (a : peer_addr) : Z :=
  match pa_ip a with V4 o => Zlen o | V6 o => Zlen o end.

(** peer_addr.rs:38-51 [scorex_serialize]. *)
Definition addr_serialize (a : peer_addr) : res bytes :=
  match pa_ip a with
  | V4 o => p <- put_u32 (pa_port a) ;; Ok (o ++ p)
  | V6 _ => Err "ipv6 not supported"
  end.
(** peer_addr.rs:53-63 [scorex_parse]. *)
Definition addr_parse : reader peer_addr :=
  fun bs =>
    '(o, r) <- read_exact 4 bs ;;
    '(p, r) <- get_u32 r ;;
    if p <? 2 ^ 16 then Ok (PeerAddr (V4 o) p, r) else Err "TryFromIntError".

(** ergo-p2p/src/protocol_version.rs:7-11, 28-43. *)
Record protocol_version : Type := Version { pv_major : Z; pv_minor : Z; pv_patch : Z }.
Definition version_serialize (v : protocol_version) : res bytes :=
  a <- put_u8 (pv_major v) ;; b <- put_u8 (pv_minor v) ;; c <- put_u8 (pv_patch v) ;; Ok (a ++ b ++ c).
Definition version_parse : reader protocol_version :=
  fun bs =>
    '(a, r) <- get_u8 bs ;; '(b, r) <- get_u8 r ;; '(c, r) <- get_u8 r ;; Ok (Version a b c, r).

(** ergo-p2p/src/peer_feature.rs:33-53, 109: the only feature is a local address. *)
Inductive peer_feature : Type := LocalAddress (a : peer_addr).
Definition feature_id (f : peer_feature) : Z := match f with LocalAddress _ => 2 end.

(** peer_feature.rs:56-67 [scorex_serialize]. *)
Definition feature_serialize (f : peer_feature) : res bytes :=
  i <- put_u8 (feature_id f) ;;
  body <- match f with LocalAddress a => addr_serialize a end ;;
  n <- (if Zlen body <? 2 ^ 16 then put_u16 (Zlen body) else Err "TryFromIntError") ;;
  Ok (i ++ n ++ body).
(** peer_feature.rs:69-85 [scorex_parse]; bytes left in the buffer are ignored. *)
Definition feature_parse : reader peer_feature :=
  fun bs =>
    '(i, r) <- get_u8 bs ;;
    '(n, r) <- get_u16 r ;;
    '(body, r) <- read_exact (Z.to_nat n) r ;;
    if i =? 2 then '(a, _) <- addr_parse body ;; Ok (LocalAddress a, r)
    else Err "unknown feature id".

(** ergo-p2p/src/peer_spec.rs:15-21; strings are their UTF-8 bytes. *)
Record peer_spec : Type := PeerSpec {
  ps_agent : bytes;
  ps_version : protocol_version;
  ps_node : bytes;
  ps_declared : option peer_addr;
  ps_features : option (list peer_feature) }.

(** peer_spec.rs:65-90 [scorex_serialize]. *)
Definition spec_serialize (s : peer_spec) : res bytes :=
  a <- put_short_string (ps_agent s) ;;
  v <- version_serialize (ps_version s) ;;
  n <- put_short_string (ps_node s) ;;
  d <- put_option (fun x => z <- put_u8 (wrapu 8 (ip_size x)) ;; b <- addr_serialize x ;; Ok (z ++ b)) (ps_declared s) ;;
  f <- match ps_features s with
       | Some fs => c <- put_u8 (wrapu 8 (Zlen fs)) ;; b <- write_all feature_serialize fs ;; Ok (c ++ b)
       | None => put_u8 0
       end ;;
  Ok (a ++ v ++ n ++ d ++ f).
(** The declared address (peer_spec.rs:103-111), read by [get_option] (sigma-ser
    vlq_encode.rs:245-255): a failure inside gives no address, and reading goes on where
    it happened.  After a number out of range that is behind the number, after a number
    that does not end behind its tenth byte; when the bytes run out the whole reading
    fails (in the code at the next byte; simplified: also when fewer than four bytes are
    left for the octets, where the position of the reader is unspecified). *)
Definition declared_parse : reader (option peer_addr) :=
  fun bs =>
    match get_u8 bs with
    | Ok (1, r) =>
        '(_, r) <- get_u8 r ;;
        '(o, r) <- read_exact 4 r ;;
        match get_u64 r with
        | Ok (p, r) => Ok (if p <? 2 ^ 16 then Some (PeerAddr (V4 o) p) else None, r)
        | Err e => if Zlen r <? 10 then Err e else Ok (None, skipn 10 r)
        | Panic => Panic
        end
    | Ok (_, r) => Ok (None, r)
    | _ => Ok (None, bs)
    end.
(** peer_spec.rs:92-132 [scorex_parse]. *)
Definition spec_parse : reader peer_spec :=
  fun bs =>
    '(a, r) <- get_short_string bs ;;
    match a with
    | [] => Err "agent name cannot be empty"
    | _ =>
        '(v, r) <- version_parse r ;;
        '(n, r) <- get_short_string r ;;
        '(d, r) <- declared_parse r ;;
        '(c, r) <- get_u8 r ;;
        if c =? 0 then Ok (PeerSpec a v n d None, r)
        else
          '(fs, r) <- read_n (Z.to_nat c) feature_parse r ;;
          Ok (PeerSpec a v n d (Some fs), r)
    end.

(** peer_spec.rs:42-61 [local_addr], [reachable_peer], [addr]. *)
Definition local_addr (s : peer_spec) : option peer_addr :=
  match ps_features s with
  | Some (LocalAddress a :: _) => Some a
  | _ => None
  end.
Definition spec_addr (s : peer_spec) : option peer_addr :=
  match ps_declared s with Some a => Some a | None => local_addr s end.
Definition reachable_peer (s : peer_spec) : bool :=
  match spec_addr s with Some _ => true | None => false end.

(** ergo-p2p/src/peer_info.rs:9-16; the connection direction is an optional boolean. *)
Record peer_info : Type := PeerInfo { pi_spec : peer_spec; pi_last : Z; pi_conn : option bool }.

(** Derived equality of socket addresses. *)
Definition addr_eqb (a b : peer_addr) : bool :=
  match pa_ip a, pa_ip b with
  | V4 x, V4 y => bytes_eqb x y
  | V6 x, V6 y => bytes_eqb x y
  | _, _ => false
  end && (pa_port a =? pa_port b).

(** ergo-p2p/src/peer_database/in_memory.rs:9-40; the hash map is an association list
    with the newest entry first. *)
Definition peer_db : Type := list (peer_addr * peer_info).
Definition get_peer_by_addr (db : peer_db) (a : peer_addr) : option peer_info :=
  option_map snd (find (fun kv => addr_eqb (fst kv) a) db).
Definition map_remove (db : peer_db) (a : peer_addr) : peer_db :=
  filter (fun kv => negb (addr_eqb (fst kv) a)) db.
Definition add_or_update_peer (db : peer_db) (i : peer_info) : res (option peer_info * peer_db) :=
  match spec_addr (pi_spec i) with
  | Some a => Ok (get_peer_by_addr db a, (a, i) :: map_remove db a)
  | None => Err "NoPeerAddr"
  end.
Definition remove_peer (db : peer_db) (a : peer_addr) : res peer_db :=
  match get_peer_by_addr db a with
  | Some _ => Ok (map_remove db a)
  | None => Err "NotFound"
  end.
