(** EIP-12 documents (bindings/ergo-lib-c-core/src/json.rs and
    bindings/ergo-lib-wasm/src/json.rs, which differ only in how they copy vectors), and
    what JavaScript makes of a document: [to_js_eip12] and [*_to_json_eip12] write for a
    dApp, which hands the document back to [from_json].

    As in [JsonModel] a document is a parsed JSON value. *)
From Verif Require Import Base VlqModel GroupModel SigmaModel IrModel SerModel ChainModel WalletModel TxModel JsonModel.
Import JsonModel.
Local Open Scope string_scope.
Local Open Scope list_scope.
Local Open Scope Z_scope.

(** [DisplayFromStr] of a [u64] ([BoxValueJsonEip12], [TokenAmountJsonEip12],
    c-core json.rs 164-175, 197-203): its decimal text. *)
Definition u64_text (v : Z) : json := JStr (dec_text 20 v).

(** [TokenJsonEip12] (177-195). *)
Definition eip12_token (t : bytes * Z) : json :=
  JObj [(txt "tokenId", to_hex (fst t)); (txt "amount", u64_text (snd t))].

Section Eip12.
Context {G : group}.
(** The iteration order of a [HashMap], as in [JsonModel]. *)
Variable ord : members -> members.

(** [ErgoBoxCandidateJsonEip12] (127-162). *)
Definition eip12_members (c : cand G) : res members :=
  t <- json_of_tree (cd_tree c) ;;
  r <- json_of_regs ord (cd_regs c) ;;
  Ok [(txt "value", u64_text (cd_value c)); (txt "ergoTree", t);
      (txt "assets", JArr (map eip12_token (cd_tokens c)));
      (txt "additionalRegisters", r); (txt "creationHeight", JNum (cd_height c))].
Definition eip12_cand (c : cand G) : res json := m <- eip12_members c ;; Ok (JObj m).
(** [ErgoBoxJsonEip12] (80-125). *)
Definition eip12_box (b : ebox G) : res json :=
  m <- eip12_members (b_cand (snd b)) ;;
  Ok (JObj ((txt "boxId", to_hex (fst b)) :: m ++
            [(txt "transactionId", to_hex (b_txid (snd b))); (txt "index", JNum (b_index (snd b)))])).
(** [TransactionJsonEip12] (22-50); inputs and data inputs are written as in [JsonModel]. *)
Definition eip12_tx (t : tx G) : res json :=
  i <- traverse json_of_input (t_inputs t) ;;
  o <- traverse eip12_box (t_outputs t) ;;
  Ok (JObj [(txt "id", to_hex (t_id t)); (txt "inputs", JArr i);
            (txt "dataInputs", JArr (map json_of_data (data_or_empty (t_data t)))); (txt "outputs", JArr o)]).
(** [UnsignedTransactionJsonEip12] (52-78). *)
Definition eip12_utx (u : utx G) : res json :=
  i <- traverse json_of_uinput (u_inputs u) ;;
  o <- traverse eip12_cand (u_cands u) ;;
  Ok (JObj [(txt "inputs", JArr i); (txt "dataInputs", JArr (map json_of_data (data_or_empty (u_data u))));
            (txt "outputs", JArr o)]).
End Eip12.

(** ** JavaScript ([to_js_eip12] calls [JSON.parse], wasm/src/ergo_box.rs 221-227,
    transaction.rs 244-250; the dApp hands back what [JSON.stringify] writes)

    Not code of the repository: the part of ECMAScript the document goes through.
    A number becomes the nearest double: integers up to 2^53 are exact, between 2^53 and
    2^54 only the even ones exist and ties go to a multiple of four; beyond, what is
    written is left open ([far]).  The members of an object are kept in the order of
    creation, except that names which are array indices come first, in ascending order
    (OrdinaryOwnPropertyKeys).  A name given twice, which the library never writes, is
    not merged. *)
Section JavaScript.
Variable far : Z -> Z.
Definition js_number (z : Z) : Z :=
  if Z.abs z <=? 2 ^ 53 then z
  else if Z.abs z <? 2 ^ 54 then if Z.even z then z else if Z.even (z / 2) then z - 1 else z + 1
  else far z.
(** The index a name stands for, if it is a canonical decimal below 2^32 - 1. *)
Definition array_index (k : bytes) : option Z :=
  match k with
  | [] => None
  | c :: k' =>
      if (c =? 48) && negb (Nat.eqb (List.length k') 0) then None
      else match digits_value 0 k with
           | Some v => if v <? 2 ^ 32 - 1 then Some v else None
           | None => None
           end
  end.
Fixpoint insert_index {A} (v : Z) (e : A) (l : list (Z * A)) : list (Z * A) :=
  match l with
  | [] => [(v, e)]
  | (v', e') :: l' => if v <? v' then (v, e) :: l else (v', e') :: insert_index v e l'
  end.
Definition js_keys {A} (m : list (bytes * A)) : list (bytes * A) :=
  map snd (fold_left (fun l e => match array_index (fst e) with Some v => insert_index v e l | None => l end) m []) ++
  filter (fun e => match array_index (fst e) with Some _ => false | None => true end) m.
Fixpoint js_pass (j : json) : json :=
  match j with
  | JNum z => JNum (js_number z)
  | JArr l => JArr (map js_pass l)
  | JObj m => JObj (js_keys (map (fun e => (fst e, js_pass (snd e))) m))
  | JNull | JBool _ | JReal _ | JStr _ => j
  end.
End JavaScript.
