(** JSON encoding of chain objects: ergotree-ir/src/chain/json.rs and json/,
    ergo-lib/src/chain/json.rs and json/, ergo-lib/src/chain/transaction/input.rs and
    input/prover_result/json.rs, ergo-chain-types/src/json/, ergo-chain-types/src/base16_bytes.rs,
    ergotree-interpreter/src/json/hint.rs, ergo-merkle-tree/src/json.rs, and the serde attributes
    of the types they encode.

    The model starts from a parsed JSON value: the text syntax of JSON and the
    nesting limit of [serde_json] are not modelled.  Texts are UTF-8 bytes.  A struct
    is read from an object (members in any order, unknown ones ignored, a known one
    given twice refused) or from an array of its fields in order; a struct with
    flattened parts is read from an object only.  The fields are read in the
    order of the struct, not of the document, which matters only for which of several
    errors is reported. *)
From Verif Require Import Base VlqModel GfModel GroupModel SigmaModel ProverModel TypeModel MethodModel IrModel SerModel ChainModel
  WalletModel TxModel SignModel HeaderModel MerkleModel.
From Coq Require Import Ascii.
Import SigmaModel.
Local Open Scope string_scope.
Local Open Scope list_scope.
Local Open Scope Z_scope.

(** [serde_json::Value].  [JReal] is a number written with a fraction or an exponent;
    it carries the integer [BigInt::from_f64] makes of it, if any. *)
Inductive json :=
| JNull
| JBool (b : bool)
| JNum (z : Z)
| JReal (trunc : option Z)
| JStr (s : bytes)
| JArr (l : list json)
| JObj (m : list (bytes * json)).

(** The bytes of a literal. *)
Definition txt (s : string) : bytes := map (fun a => Z.of_N (N_of_ascii a)) (list_ascii_of_string s).

(** ** Reading structs (serde derive) *)
Definition key_in (names : list string) (k : bytes) : bool := existsb (fun n => bytes_eqb (txt n) k) names.
Definition members := list (bytes * json).
Definition first_name (names : list string) : bytes := match names with n :: _ => txt n | [] => [] end.
Definition as_fields (fields : list (list string)) (j : json) : res members :=
  match j with
  | JObj m => Ok m
  | JArr l => if Nat.eqb (List.length l) (List.length fields) then Ok (combine (map first_name fields) l)
              else Err "invalid length"
  | _ => Err "invalid type"
  end.
(** An internally tagged enum: an object with the tag, or an array of the tag and the
    fields of the variant it names. *)
Definition as_tagged (tag : string) (variants : bytes -> option (list (list string))) (j : json) : res members :=
  match j with
  | JObj m => Ok m
  | JArr (JStr v :: l) =>
      fields <- of_option "unknown variant" (variants v) ;;
      m <- as_fields fields (JArr l) ;; Ok ((txt tag, JStr v) :: m)
  | _ => Err "invalid type"
  end.
Definition as_object (j : json) : res members := match j with JObj m => Ok m | _ => Err "invalid type" end.
Definition lookup (names : list string) (m : members) : res (option json) :=
  match filter (fun e => key_in names (fst e)) m with
  | [] => Ok None
  | [e] => Ok (Some (snd e))
  | _ => Err "duplicate field"
  end.
Definition field {A} (names : list string) (p : json -> res A) (m : members) : res A :=
  o <- lookup names m ;; j <- of_option "missing field" o ;; p j.
(** [Option] fields: absent or [null]. *)
Definition opt_field {A} (names : list string) (p : json -> res A) (m : members) : res (option A) :=
  o <- lookup names m ;;
  match o with
  | None | Some JNull => Ok None
  | Some j => a <- p j ;; Ok (Some a)
  end.
Fixpoint traverse {A B} (f : A -> res B) (l : list A) : res (list B) :=
  match l with
  | [] => Ok []
  | a :: l' => b <- f a ;; bs <- traverse f l' ;; Ok (b :: bs)
  end.
Definition list_of {A} (p : json -> res A) (j : json) : res (list A) :=
  match j with JArr l => traverse p l | _ => Err "invalid type" end.
Definition as_str (j : json) : res bytes := match j with JStr s => Ok s | _ => Err "invalid type" end.
Definition as_bool (j : json) : res bool := match j with JBool b => Ok b | _ => Err "invalid type" end.
(** An unsigned integer field of the type with the given bound. *)
Definition uint (bound : Z) (j : json) : res Z :=
  match j with
  | JNum z => if (0 <=? z) && (z <? bound) then Ok z else Err "invalid value"
  | _ => Err "invalid type"
  end.

(** ** Base16 ([base16::encode_lower], [base16::decode]; ergo-chain-types/src/base16_bytes.rs
    13-50). *)
Definition hex_digit (n : Z) : Z := if n <? 10 then 48 + n else 87 + n.
Definition hex (b : bytes) : bytes := flat_map (fun x => [hex_digit (x / 16); hex_digit (x mod 16)]) b.
Definition unhex_digit (c : Z) : option Z :=
  if (48 <=? c) && (c <=? 57) then Some (c - 48)
  else if (97 <=? c) && (c <=? 102) then Some (c - 87)
  else if (65 <=? c) && (c <=? 70) then Some (c - 55)
  else None.
Fixpoint unhex (s : bytes) : option bytes :=
  match s with
  | [] => Some []
  | [_] => None
  | a :: b :: s' =>
      match unhex_digit a, unhex_digit b, unhex s' with
      | Some x, Some y, Some r => Some (16 * x + y :: r)
      | _, _, _ => None
      end
  end.
Definition of_hex (j : json) : res bytes := s <- as_str j ;; of_option "DecodeError" (unhex s).
Definition to_hex (b : bytes) : json := JStr (hex b).
(** [Digest<N>] (digest32.rs 14-24, base16_bytes.rs 58-70); [BlockId], [BoxId], [TxId],
    [TokenId] are newtypes of [Digest32]; [Challenge] is 24 bytes (fiat_shamir.rs 27-63). *)
Definition digest (n : Z) (j : json) : res bytes :=
  b <- of_hex j ;; if Zlen b =? n then Ok b else Err "invalid size".

(** ** Amounts (chain/json/box_value.rs, chain/json/token.rs): a number or the text of
    one; [as_u64], then the newtype without a check of its bounds. *)
Definition amount (j : json) : res Z :=
  match j with
  | JNum z => if (0 <=? z) && (z <? 2 ^ 64) then Ok z else Err "can't convert"
  | JStr s =>
      (* a JSON number has no leading zeros *)
      match s with
      | [48] => Ok 0
      | c :: _ => if (49 <=? c) && (c <=? 57) then
                    match digits_value 0 s with
                    | Some v => if v <? 2 ^ 64 then Ok v else Err "can't convert"
                    | None => Err "can't convert"
                    end
                  else Err "can't convert"
      | [] => Err "can't convert"
      end
  | _ => Err "can't convert"
  end.

Section Json.
Context {G : group}.
Notation expr := (expr G). Notation const := (const G). Notation tree := (tree G).
Notation cand := (cand G). Notation box := (box G). Notation regval := (regval G).
Notation sbool := (sbool G). Notation leaf := (leaf G). Notation utree := (utree G).

(** The iteration order of a [HashMap], which [serde_json] writes it in. *)
Variable ord : members -> members.

(** ** Boxes *)

(** [Token] (chain/token.rs 170-179). *)
Definition json_of_token (t : bytes * Z) : json :=
  JObj [(txt "tokenId", to_hex (fst t)); (txt "amount", JNum (snd t))].
Definition token_of_json (j : json) : res (bytes * Z) :=
  m <- as_fields [["tokenId"]; ["amount"]] j ;;
  id <- field ["tokenId"] (digest 32) m ;;
  a <- field ["amount"] amount m ;;
  Ok (id, a).

(** json/ergo_tree.rs 9-32. *)
Definition json_of_tree (t : tree) : res json := b <- ser_tree t ;; Ok (to_hex b).
Definition tree_of_json (j : json) : res tree := b <- of_hex j ;; tree_of_bytes b.

(** [ConstantHolder] (json/ergo_box.rs 196-239, json.rs 29-80): a text or an object with
    the bytes; never refused ([RegisterValue::sigma_parse_bytes]). *)
Definition holder_of_json (j : json) : res regval :=
  b <- match j with
       | JStr _ => of_hex j
       | JObj m => field ["rawValue"; "serializedValue"] of_hex m
       | _ => Err "invalid type"
       end ;;
  reg_of_bytes b.

(** [NonMandatoryRegisters] (register.rs 25-33, 171-233): keys are read by
    [NonMandatoryRegisterId::try_from] and the last of equal ones is kept. *)
Fixpoint map_put (k : Z) (v : regval) (m : @reg_map G) : reg_map :=
  match m with
  | [] => [(k, v)]
  | (k', v') :: m' => if k' =? k then (k, v) :: m' else (k', v') :: map_put k v m'
  end.
Fixpoint reg_entries (acc : @reg_map G) (l : members) : res reg_map :=
  match l with
  | [] => Ok acc
  | (k, j) :: l' =>
      id <- reg_id_of_text k ;;
      v <- holder_of_json j ;;
      reg_entries (map_put id v acc) l'
  end.
Definition regs_of_json (j : json) : res (list regval) :=
  l <- as_object j ;; m <- reg_entries [] l ;; regs_of_map m.
Definition json_of_reg (p : Z * regval) : res (bytes * json) :=
  b <- reg_to_bytes (snd p) ;; Ok (reg_id_text (fst p), to_hex b).
Definition json_of_regs (l : list regval) : res json :=
  m <- traverse json_of_reg (map_of_regs l) ;; Ok (JObj (ord m)).

(** [ErgoBoxCandidateJson] (json/ergo_box.rs 121-181). *)
Definition tokens_bounded (l : list (bytes * Z)) : res (list (bytes * Z)) :=
  if max_tokens <? Zlen l then Err "More than ErgoBox::MAX_TOKENS_COUNT tokens are not allowed in a box" else Ok l.
Definition cand_members (c : cand) : res members :=
  t <- json_of_tree (cd_tree c) ;;
  r <- json_of_regs (cd_regs c) ;;
  Ok [(txt "value", JNum (cd_value c)); (txt "ergoTree", t);
      (txt "assets", JArr (map json_of_token (cd_tokens c)));
      (txt "additionalRegisters", r); (txt "creationHeight", JNum (cd_height c))].
Definition cand_of_members (m : members) : res cand :=
  v <- field ["value"] amount m ;;
  t <- field ["ergoTree"] tree_of_json m ;;
  k <- field ["assets"] (list_of token_of_json) m ;;
  r <- field ["additionalRegisters"] regs_of_json m ;;
  h <- field ["creationHeight"] (uint (2 ^ 32)) m ;;
  k <- tokens_bounded k ;;
  Ok (MkCand v t k r h).
Definition json_of_cand (c : cand) : res json := m <- cand_members c ;; Ok (JObj m).
Definition cand_of_json (j : json) : res cand :=
  m <- as_fields [["value"]; ["ergoTree"]; ["assets"]; ["additionalRegisters"]; ["creationHeight"]] j ;;
  cand_of_members m.

(** [ErgoBoxJson] (json/ergo_box.rs 26-119): the identifier is recomputed and compared
    with the given one. *)
Definition json_of_box (b : ebox G) : res json :=
  m <- cand_members (b_cand (snd b)) ;;
  Ok (JObj ((txt "boxId", to_hex (fst b)) :: m ++
            [(txt "transactionId", to_hex (b_txid (snd b))); (txt "index", JNum (b_index (snd b)))])).
Definition box_of_json (H : bytes -> bytes) (j : json) : res (ebox G) :=
  m <- as_fields [["boxId"; "id"]; ["value"]; ["ergoTree"]; ["assets"]; ["additionalRegisters"]; ["creationHeight"];
                  ["transactionId"; "txId"]; ["index"]] j ;;
  given <- opt_field ["boxId"; "id"] (digest 32) m ;;
  c <- cand_of_members m ;;
  x <- field ["transactionId"; "txId"] (digest 32) m ;;
  i <- field ["index"] (uint (2 ^ 16)) m ;;
  let b := MkBox c x i in
  id <- box_id H b ;;
  match given with
  | Some g => if bytes_eqb id g then Ok (id, b) else Err "InvalidBoxId"
  | None => Ok (id, b)
  end.

(** ** Inputs *)

(** [ContextExtension] (ergo-lib/src/chain/json/context_extension.rs 6-33,
    ergotree-interpreter/src/sigma_protocol/prover/context_extension.rs 62-92), through
    an [IndexMap<String, String>]. *)
Fixpoint smap_put (k : bytes) (v : bytes) (m : list (bytes * bytes)) : list (bytes * bytes) :=
  match m with
  | [] => [(k, v)]
  | (k', v') :: m' => if bytes_eqb k' k then (k, v) :: m' else (k', v') :: smap_put k v m'
  end.
Fixpoint smap_of (acc : list (bytes * bytes)) (l : members) : res (list (bytes * bytes)) :=
  match l with
  | [] => Ok acc
  | (k, j) :: l' => s <- as_str j ;; smap_of (smap_put k s acc) l'
  end.
Fixpoint ext_of_smap (acc : ext G) (l : list (bytes * bytes)) : res (ext G) :=
  match l with
  | [] => Ok acc
  | (k, s) :: l' =>
      i <- of_option "cannot parse index" (unsigned_of_text 256 k) ;;
      b <- of_option "cannot decode base16 constant bytes" (unhex s) ;;
      c <- SerModel.from_bytes parse_const b ;;
      ext_of_smap (ext_insert i c acc) l'
  end.
Definition ext_of_json (j : json) : res (ext G) :=
  l <- as_object j ;; m <- smap_of [] l ;; ext_of_smap [] m.
Definition json_of_entry (e : Z * const) : res (bytes * json) :=
  b <- ser_const (snd e) ;; Ok (dec_text 3 (fst e), to_hex b).
Definition json_of_ext (m : ext G) : res json := l <- traverse json_of_entry m ;; Ok (JObj l).

(** [ProofBytes] and [ProverResult] (ergo-lib/src/chain/json.rs 11-24, input/prover_result.rs 14-32,
    input/prover_result/json.rs 10-35, prover_result.rs 39-66). *)
Definition json_of_proof (p : proof) (e : ext G) : res json :=
  x <- json_of_ext e ;;
  Ok (JObj [(txt "proofBytes", to_hex (proof_bytes p)); (txt "extension", x)]).
Definition proof_of_json (j : json) : res (proof * ext G) :=
  match j with
  | JStr _ => b <- of_hex j ;; Ok (proof_of_bytes b, [])
  | JObj m =>
      b <- field ["proofBytes"] of_hex m ;;
      e <- field ["extension"] ext_of_json m ;;
      Ok (proof_of_bytes b, e)
  | _ => Err "invalid type"
  end.
(** [Input] (input.rs 81-98), [UnsignedInput] (25-55), [DataInput] (data_input.rs 13-20). *)
Definition json_of_input (i : input G) : res json :=
  p <- json_of_proof (in_proof i) (in_ext i) ;;
  Ok (JObj [(txt "boxId", to_hex (in_box i)); (txt "spendingProof", p)]).
Definition input_of_json (j : json) : res (input G) :=
  m <- as_fields [["boxId"; "id"]; ["spendingProof"]] j ;;
  b <- field ["boxId"; "id"] (digest 32) m ;;
  '(p, e) <- field ["spendingProof"] proof_of_json m ;;
  Ok (MkInput b p e).
Definition json_of_uinput (i : uinput G) : res json :=
  e <- json_of_ext (ui_ext i) ;;
  Ok (JObj [(txt "boxId", to_hex (ui_box i)); (txt "extension", e)]).
Definition uinput_of_json (j : json) : res (uinput G) :=
  m <- as_fields [["boxId"]; ["extension"]] j ;;
  b <- field ["boxId"] (digest 32) m ;;
  e <- field ["extension"] ext_of_json m ;;
  Ok (MkUInput b e).
Definition json_of_data (b : bytes) : json := JObj [(txt "boxId", to_hex b)].
Definition data_of_json (j : json) : res bytes :=
  m <- as_fields [["boxId"; "id"]] j ;; field ["boxId"; "id"] (digest 32) m.

(** ** Transactions (ergo-lib/src/chain/json/transaction.rs 11-106) *)
Definition data_or_empty (d : option (list bytes)) : list bytes := match d with Some l => l | None => [] end.
Definition json_of_tx (t : tx G) : res json :=
  i <- traverse json_of_input (t_inputs t) ;;
  o <- traverse json_of_box (t_outputs t) ;;
  Ok (JObj [(txt "id", to_hex (t_id t)); (txt "inputs", JArr i);
            (txt "dataInputs", JArr (map json_of_data (data_or_empty (t_data t)))); (txt "outputs", JArr o)]).
Definition tx_of_json (H : bytes -> bytes) (j : json) : res (tx G) :=
  m <- as_fields [["id"]; ["inputs"]; ["dataInputs"]; ["outputs"]] j ;;
  id <- field ["id"] (digest 32) m ;;
  i <- field ["inputs"] (list_of input_of_json) m ;;
  d <- field ["dataInputs"] (list_of data_of_json) m ;;
  o <- field ["outputs"] (list_of (box_of_json H)) m ;;
  t <- tx_of_vecs H i d (map (fun b => b_cand (snd b)) o) ;;
  if bytes_eqb (t_id t) id then Ok t else Err "InvalidTxId".
Definition json_of_utx (u : utx G) : res json :=
  i <- traverse json_of_uinput (u_inputs u) ;;
  o <- traverse json_of_cand (u_cands u) ;;
  Ok (JObj [(txt "inputs", JArr i); (txt "dataInputs", JArr (map json_of_data (data_or_empty (u_data u)))); (txt "outputs", JArr o)]).
Definition utx_of_json (H : bytes -> bytes) (j : json) : res (utx G) :=
  m <- as_fields [["inputs"]; ["dataInputs"]; ["outputs"]] j ;;
  i <- field ["inputs"] (list_of uinput_of_json) m ;;
  d <- field ["dataInputs"] (list_of data_of_json) m ;;
  o <- field ["outputs"] (list_of cand_of_json) m ;;
  utx_of_vecs H i d o.

(** ** Propositions (ergotree-ir/src/chain/json/sigma_protocol.rs) *)

(** [EcPoint] (ec_point.rs 12-19, 44-68): bytes after the first 33 are ignored. *)
Definition json_of_point (x : G) : json := to_hex (match ec_write x with Ok b => b | _ => [] end).
Definition point_of_json (j : json) : res G := b <- of_hex j ;; '(x, _) <- ec_read b ;; Ok x.

(** [SigmaBooleanJson] (18-41). *)
Definition sb_variants (op : bytes) : option (list (list string)) :=
  if bytes_eqb op (txt "205") then Some [["h"]]
  else if bytes_eqb op (txt "206") then Some [["g"]; ["h"]; ["u"]; ["v"]]
  else if bytes_eqb op (txt "300") || bytes_eqb op (txt "301") then Some [["condition"]]
  else if bytes_eqb op (txt "150") || bytes_eqb op (txt "151") then Some [["args"]]
  else if bytes_eqb op (txt "152") then Some [["k"]; ["args"]]
  else None.
Definition op_name (s : sbool) : string :=
  match s with
  | SLeaf (Dlog _) => "205"
  | SLeaf (Dht _ _ _ _) => "206"
  | Triv false => "300"
  | Triv true => "301"
  | SConj And _ => "150"
  | SConj Or _ => "151"
  | SConj (Thr _) _ => "152"
  end.
(** [From<SigmaBoolean>] (43-93). *)
Fixpoint json_of_sb (s : sbool) : json :=
  JObj ((txt "op", JStr (txt (op_name s))) ::
    match s with
    | SLeaf (Dlog h) => [(txt "h", json_of_point h)]
    | SLeaf (Dht g h u v) =>
        [(txt "g", json_of_point g); (txt "h", json_of_point h); (txt "u", json_of_point u); (txt "v", json_of_point v)]
    | Triv b => [(txt "condition", JBool b)]
    | SConj (Thr k) l => [(txt "k", JNum k); (txt "args", JArr (map json_of_sb l))]
    | SConj _ l => [(txt "args", JArr (map json_of_sb l))]
    end).
(** [TryFrom<SigmaBooleanJson>] (95-133); the variants of the enum are read by the tag
    [op].  [fuel] bounds the nesting. *)
Fixpoint sb_of_json_f (fuel : nat) (j : json) : res sbool :=
  match fuel with
  | O => Err "fuel"
  | S n =>
      m <- as_tagged "op" sb_variants j ;;
      op <- field ["op"] as_str m ;;
      let args (c : ckind) := l <- field ["args"] (list_of (sb_of_json_f n)) m ;; l <- bounded l ;; Ok (SConj c l) in
      if bytes_eqb op (txt "205") then h <- field ["h"] point_of_json m ;; Ok (SLeaf (Dlog h))
      else if bytes_eqb op (txt "206") then
        g <- field ["g"] point_of_json m ;; h <- field ["h"] point_of_json m ;;
        u <- field ["u"] point_of_json m ;; v <- field ["v"] point_of_json m ;; Ok (SLeaf (Dht g h u v))
      else if bytes_eqb op (txt "300") || bytes_eqb op (txt "301") then
        b <- field ["condition"] as_bool m ;; Ok (Triv b)
      else if bytes_eqb op (txt "150") then args And
      else if bytes_eqb op (txt "151") then args Or
      else if bytes_eqb op (txt "152") then k <- field ["k"] (uint 256) m ;; args (Thr k)
      else Err "unknown variant"
  end.
Fixpoint json_depth (j : json) : nat :=
  match j with
  | JArr l => S (fold_right Nat.max 0%nat (map json_depth l))
  | JObj m => S (fold_right Nat.max 0%nat (map (fun e => json_depth (snd e)) m))
  | _ => 1%nat
  end.
Definition sb_of_json (j : json) : res sbool := sb_of_json_f (json_depth j) j.

(** ** Secrets (ergo-lib/src/wallet/secret_key.rs 15-28, private_input.rs 22-29, 108-117,
    wscalar.rs 21-73): a text is a discrete logarithm, an object a Diffie-Hellman
    secret. *)
Definition json_of_scalar (z : Z) : json := to_hex (scalar_bytes z).
Definition scalar_of_json (j : json) : res Z := b <- digest 32 j ;; Ok (@scalar_of_bytes G b).
Definition json_of_secret (s : secret G) : json :=
  match s with
  | SecDlog w => json_of_scalar w
  | SecDht w g h u v =>
      JObj [(txt "secret", json_of_scalar w); (txt "g", json_of_point g); (txt "h", json_of_point h);
            (txt "u", json_of_point u); (txt "v", json_of_point v)]
  end.
Definition secret_of_json (j : json) : res (secret G) :=
  match j with
  | JStr _ => w <- scalar_of_json j ;; Ok (SecDlog w)
  | JObj m =>
      w <- field ["secret"] scalar_of_json m ;;
      g <- field ["g"] point_of_json m ;; h <- field ["h"] point_of_json m ;;
      u <- field ["u"] point_of_json m ;; v <- field ["v"] point_of_json m ;;
      Ok (SecDht w g h u v)
  | _ => Err "data did not match any variant"
  end.

(** ** Hints (prover/hint.rs 15-177, ergotree-interpreter/src/json/hint.rs) *)

(** [NodePositionJson] (json/hint.rs 17-44). *)
Fixpoint join_dash (l : list bytes) : bytes :=
  match l with [] => [] | [x] => x | x :: l' => x ++ 45 :: join_dash l' end.
Fixpoint split_dash (s : bytes) : list bytes :=
  match s with
  | [] => [[]]
  | c :: s' => if c =? 45 then [] :: split_dash s' else
      match split_dash s' with x :: l => (c :: x) :: l | [] => [[c]] end
  end.
Definition json_of_position (p : position) : json := JStr (join_dash (map (fun i => dec_text 20 (Z.of_nat i)) p)).
Definition index_of_text (s : bytes) : res nat := i <- of_option "ParseIntError" (unsigned_of_text (2 ^ 64) s) ;; Ok (Z.to_nat i).
Definition position_of_json (j : json) : res position := s <- as_str j ;; traverse index_of_text (split_dash s).

(** [FirstProverMessage] (sigma_protocol.rs 44-56), flattened into its hint. *)
Definition fmsg_members (m : fmsg G) : members :=
  match m with
  | FDlog a => [(txt "type", JStr (txt "dlog")); (txt "a", json_of_point a)]
  | FDht a b => [(txt "type", JStr (txt "dht")); (txt "a", json_of_point a); (txt "b", json_of_point b)]
  end.
Definition fmsg_of_members (m : members) : res (fmsg G) :=
  t <- field ["type"] as_str m ;;
  if bytes_eqb t (txt "dlog") then a <- field ["a"] point_of_json m ;; Ok (FDlog a)
  else if bytes_eqb t (txt "dht") then a <- field ["a"] point_of_json m ;; b <- field ["b"] point_of_json m ;; Ok (FDht a b)
  else Err "unknown variant".

(** The proof is written as its encoding (unchecked_tree.rs 26-38, 64-69) and read against
    the proposition (json/hint.rs 46-98). *)
Definition json_of_utree (u : utree) : res json := b <- serialize_sig u ;; Ok (to_hex b).
Definition proof_members (name : string) (s : sbool) (e : challenge) (u : utree) (p : position) : res json :=
  b <- json_of_utree u ;;
  Ok (JObj [(txt "hint", JStr (txt name)); (txt "pubkey", json_of_sb s); (txt "challenge", to_hex e); (txt "proof", b);
            (txt "position", json_of_position p)]).
Definition json_of_hint (h : hint G) : res json :=
  match h with
  | HRealProof s e u p => proof_members "proofReal" s e u p
  | HSimProof s e u p => proof_members "proofSimulated" s e u p
  | HOwnCommitment s r cm p =>
      Ok (JObj ((txt "hint", JStr (txt "cmtWithSecret")) :: (txt "pubkey", json_of_sb s) :: (txt "secret", json_of_scalar r) ::
                fmsg_members cm ++ [(txt "position", json_of_position p)]))
  | HRealCommitment s cm p =>
      Ok (JObj ((txt "hint", JStr (txt "cmtReal")) :: (txt "pubkey", json_of_sb s) ::
                fmsg_members cm ++ [(txt "position", json_of_position p)]))
  | HSimCommitment s cm p =>
      Ok (JObj ((txt "hint", JStr (txt "cmtSimulated")) :: (txt "pubkey", json_of_sb s) ::
                fmsg_members cm ++ [(txt "position", json_of_position p)]))
  end.
Definition proof_hint (m : members) : res (sbool * challenge * utree * position) :=
  s <- field ["pubkey"] sb_of_json m ;;
  e <- field ["challenge"] (digest 24) m ;;
  b <- field ["proof"] of_hex m ;;
  p <- field ["position"] position_of_json m ;;
  u <- parse_sig_compute_challenges s b ;;
  Ok (s, e, u, p).
Definition hint_variants (v : bytes) : option (list (list string)) :=
  if bytes_eqb v (txt "proofReal") || bytes_eqb v (txt "proofSimulated")
  then Some [["pubkey"]; ["challenge"]; ["proof"]; ["position"]] else None.
Definition hint_of_json (j : json) : res (hint G) :=
  m <- as_tagged "hint" hint_variants j ;;
  t <- field ["hint"] as_str m ;;
  if bytes_eqb t (txt "proofReal") then '(s, e, u, p) <- proof_hint m ;; Ok (HRealProof s e u p)
  else if bytes_eqb t (txt "proofSimulated") then '(s, e, u, p) <- proof_hint m ;; Ok (HSimProof s e u p)
  else
    s <- field ["pubkey"] sb_of_json m ;;
    p <- field ["position"] position_of_json m ;;
    cm <- fmsg_of_members m ;;
    if bytes_eqb t (txt "cmtWithSecret") then r <- field ["secret"] scalar_of_json m ;; Ok (HOwnCommitment s r cm p)
    else if bytes_eqb t (txt "cmtReal") then Ok (HRealCommitment s cm p)
    else if bytes_eqb t (txt "cmtSimulated") then Ok (HSimCommitment s cm p)
    else Err "data did not match any variant".

(** [TransactionHintsBag] (ergo-lib/src/chain/json/hint.rs 8-50).  A map is written
    with its first entry for each key, the later ones being shadowed; on reading the
    last of equal keys is kept. *)
Fixpoint hm_entries (seen : list nat) (m : hmap G) : hmap G :=
  match m with
  | [] => []
  | (i, l) :: m' => if existsb (Nat.eqb i) seen then hm_entries seen m' else (i, l) :: hm_entries (i :: seen) m'
  end.
Definition json_of_hints (e : nat * list (hint G)) : res (bytes * json) :=
  l <- traverse json_of_hint (snd e) ;; Ok (dec_text 20 (Z.of_nat (fst e)), JArr l).
Definition json_of_hmap (m : hmap G) : res json := l <- traverse json_of_hints (hm_entries [] m) ;; Ok (JObj (ord l)).
Fixpoint hmap_of_members (acc : hmap G) (l : members) : res (hmap G) :=
  match l with
  | [] => Ok acc
  | (k, j) :: l' =>
      i <- index_of_text k ;; h <- list_of hint_of_json j ;;
      hmap_of_members (hm_insert i h acc) l'
  end.
Definition hmap_of_json (j : json) : res (hmap G) := l <- as_object j ;; hmap_of_members [] l.
Definition json_of_txhints (b : txhints G) : res json :=
  s <- json_of_hmap (th_secret b) ;; p <- json_of_hmap (th_public b) ;;
  Ok (JObj [(txt "secretHints", s); (txt "publicHints", p)]).
Definition txhints_of_json (j : json) : res (txhints G) :=
  m <- as_fields [["secretHints"]; ["publicHints"]] j ;;
  s <- field ["secretHints"] hmap_of_json m ;;
  p <- field ["publicHints"] hmap_of_json m ;;
  Ok (TxHints s p).

(** ** Headers (ergo-chain-types/src/header.rs 14-54, 196-233) *)

(** [Votes] (votes.rs 8-19, json/votes.rs): the numbers of an array go through
    [as_u64().unwrap() as u8]. *)
Definition vote_of_json (j : json) : res Z :=
  match j with
  | JNum z => if (0 <=? z) && (z <? 2 ^ 64) then Ok (wrapu 8 z) else Panic
  | JReal _ => Panic
  | _ => Err "data did not match any variant"
  end.
Definition is_number (j : json) : bool := match j with JNum _ | JReal _ => true | _ => false end.
Definition votes_of_json (j : json) : res bytes :=
  match j with
  | JArr l =>
      if forallb is_number l then
        v <- traverse vote_of_json l ;; if Zlen v =? 3 then Ok v else Err "InvalidSize"
      else Err "data did not match any variant"
  | _ => digest 3 j
  end.
(** json/autolykos_solution.rs 9-79. [BigInt::from_str]: an optional sign, then digits
    between which underscores are skipped. *)
Definition bigint_digits (s : bytes) : option Z :=
  match s with
  | [] => None
  | 95 :: _ => None
  | _ => digits_value 0 (filter (fun c => negb (c =? 95)) s)
  end.
Definition bigint_of_text (s : bytes) : option Z :=
  match s with
  | 45 :: 43 :: _ => None
  | 45 :: s' => option_map Z.opp (bigint_digits s')
  | 43 :: 43 :: _ => None
  | 43 :: s' => bigint_digits s'
  | _ => bigint_digits s
  end.
Definition bigint_text (z : Z) : bytes :=
  let d := dec_text (S (Z.to_nat (Z.log2 (Z.abs z)))) (Z.abs z) in
  if z <? 0 then 45 :: d else d.
Definition distance_of_json (j : json) : res (option Z) :=
  match j with
  | JStr s => d <- of_option "ParseBigIntError" (bigint_of_text s) ;; Ok (Some d)
  | JNum z => Ok (Some z)
  | JReal t => d <- of_option "failed to create BigInt from f64" t ;; Ok (Some d)
  | _ => Err "data did not match any variant"
  end.
Definition json_of_solution (s : @solution G) : json :=
  JObj [(txt "pk", json_of_point (miner_pk s));
        (txt "w", match pow_onetime_pk s with Some w => json_of_point w | None => JNull end);
        (txt "n", to_hex (nonce s));
        (txt "d", match pow_distance s with Some d => JStr (bigint_text d) | None => JNull end)].
Definition solution_of_json (j : json) : res (@solution G) :=
  m <- as_fields [["pk"]; ["w"]; ["n"]; ["d"]] j ;;
  pk <- field ["pk"] point_of_json m ;;
  w <- opt_field ["w"] point_of_json m ;;
  n <- field ["n"] of_hex m ;;
  (* [default] applies to an absent field only *)
  o <- lookup ["d"] m ;;
  d <- match o with None => Ok None | Some j => distance_of_json j end ;;
  Ok (Solution pk w n d).
Definition json_of_header (h : @header G) : json :=
  JObj [(txt "version", JNum (h_version h)); (txt "id", to_hex (h_id h)); (txt "parentId", to_hex (h_parent_id h));
        (txt "adProofsRoot", to_hex (h_ad_proofs_root h)); (txt "stateRoot", to_hex (h_state_root h));
        (txt "transactionsRoot", to_hex (h_transaction_root h)); (txt "timestamp", JNum (h_timestamp h));
        (txt "nBits", JNum (h_n_bits h)); (txt "height", JNum (h_height h)); (txt "extensionHash", to_hex (h_extension_root h));
        (txt "powSolutions", json_of_solution (h_solution h)); (txt "votes", to_hex (h_votes h))].
(** The identifier is taken from the document. *)
Definition header_of_json (j : json) : res (@header G) :=
  m <- as_fields [["version"]; ["id"]; ["parentId"]; ["adProofsRoot"]; ["stateRoot"]; ["transactionsRoot"]; ["timestamp"];
                  ["nBits"]; ["height"]; ["extensionHash"]; ["powSolutions"]; ["votes"]] j ;;
  v <- field ["version"] (uint 256) m ;;
  id <- field ["id"] (digest 32) m ;;
  p <- field ["parentId"] (digest 32) m ;;
  a <- field ["adProofsRoot"] (digest 32) m ;;
  s <- field ["stateRoot"] (digest 33) m ;;
  t <- field ["transactionsRoot"] (digest 32) m ;;
  ts <- field ["timestamp"] (uint (2 ^ 64)) m ;;
  nb <- field ["nBits"] (uint (2 ^ 64)) m ;;
  ht <- field ["height"] (uint (2 ^ 32)) m ;;
  e <- field ["extensionHash"] (digest 32) m ;;
  sol <- field ["powSolutions"] solution_of_json m ;;
  vt <- field ["votes"] votes_of_json m ;;
  Ok (Header v id p a s t ts nb ht e sol vt).
End Json.

(** ** Merkle proofs (ergo-merkle-tree/src/json.rs; [NodeSide] by its number,
    merkleproof.rs 5-31) *)
Definition side_of_json (j : json) : res side :=
  match j with JNum 0 => Ok SLeft | JNum 1 => Ok SRight | JNum _ => Err "invalid value" | _ => Err "invalid type" end.
Definition hash_of_json (j : json) : res (option bytes) :=
  b <- of_hex j ;;
  match b with [] => Ok None | _ => if Zlen b =? 32 then Ok (Some b) else Err "LengthError" end.
Definition json_of_hash (o : option bytes) : json := to_hex (match o with Some h => h | None => [] end).
(** [LevelNodeJson] (5-35) is a pair. *)
Definition json_of_level (n : level_node) : json := JArr [json_of_hash (ln_hash n); JNum (side_code (ln_side n))].
Definition level_of_json (j : json) : res level_node :=
  match j with
  | JArr [h; s] => h <- hash_of_json h ;; s <- side_of_json s ;; Ok {| ln_hash := h; ln_side := s |}
  | _ => Err "invalid length"
  end.
(** [MerkleProofJson] (37-79). *)
Definition json_of_merkle (p : merkle_proof) : json :=
  JObj [(txt "leafData", to_hex (leaf_data p)); (txt "levels", JArr (map json_of_level (levels p)))].
Definition merkle_of_json (j : json) : res merkle_proof :=
  m <- as_fields [["leafData"]; ["levels"]] j ;;
  d <- field ["leafData"] of_hex m ;;
  l <- field ["levels"] (list_of level_of_json) m ;;
  Ok {| leaf_data := d; levels := l |}.
(** [IndexJson], [BatchLevelNodeJson], [BatchMerkleProofJson] (81-176). *)
Definition json_of_bidx (x : bidx) : json := JObj [(txt "index", JNum (Z.of_nat (bi_index x))); (txt "digest", to_hex (bi_hash x))].
Definition bidx_of_json (j : json) : res bidx :=
  m <- as_fields [["index"]; ["digest"]] j ;;
  i <- field ["index"] (uint (2 ^ 64)) m ;;
  h <- field ["digest"] (digest 32) m ;;
  Ok {| bi_index := Z.to_nat i; bi_hash := h |}.
Definition json_of_blevel (n : level_node) : json :=
  JObj [(txt "digest", json_of_hash (ln_hash n)); (txt "side", JNum (side_code (ln_side n)))].
Definition blevel_of_json (j : json) : res level_node :=
  m <- as_fields [["digest"]; ["side"]] j ;;
  h <- field ["digest"] hash_of_json m ;;
  s <- field ["side"] side_of_json m ;;
  Ok {| ln_hash := h; ln_side := s |}.
Definition json_of_batch (p : batch_proof) : json :=
  JObj [(txt "indices", JArr (map json_of_bidx (indices p))); (txt "proofs", JArr (map json_of_blevel (MerkleModel.proofs p)))].
Definition batch_of_json (j : json) : res batch_proof :=
  m <- as_fields [["indices"]; ["proofs"]] j ;;
  i <- field ["indices"] (list_of bidx_of_json) m ;;
  l <- field ["proofs"] (list_of blevel_of_json) m ;;
  Ok {| indices := i; MerkleModel.proofs := l |}.
