(** Evaluation of expressions: ergotree-interpreter/src/eval.rs and eval/*.rs, with
    the values of ergotree-ir/src/mir/value.rs.  Paths below are relative to
    ergotree-interpreter/src/eval unless they start with mir/.

    Error values carry no text that matters.  Source positions, the text of the
    diagnostics and the cost accumulator (always run without a limit, eval.rs 136)
    are left out; so is the debug print in long_to_byte_array.rs 15.  An error
    ends the evaluation, so the environment is returned only with a value.
    Evaluation of an expression can run forever (see EvalProps.v), so it is
    modelled with a step bound whose exhaustion is a distinguished error. *)
From Verif Require Import Base VlqModel IntBytes GroupModel SigmaModel BigIntModel TypeModel
  MethodModel IrModel SerModel ChainModel HeaderModel TxModel EqModel PrintModel.
Local Open Scope string_scope.
Local Open Scope list_scope.
Local Open Scope Z_scope.

(** The authenticated tree library (ergo_avltree_rust), used through
    [BatchAVLVerifier::new], [perform_one_operation] and [digest]. *)
Inductive avl_op :=
| AvLookup (k : bytes) | AvInsert (k v : bytes) | AvUpdate (k v : bytes) | AvRemove (k : bytes).
Record avl_verifier := AvlVerifier {
  avv_state : Type;
  avv_new : bytes -> bytes -> Z -> option Z -> option avv_state;
  avv_step : avv_state -> avl_op -> option (option bytes * avv_state);
  avv_digest : avv_state -> option bytes;
}.

(** Indexing of a vector by a [usize]. *)
Fixpoint znth {A} (l : list A) (i : Z) : option A :=
  match l with
  | [] => None
  | x :: l' => if i =? 0 then Some x else znth l' (i - 1)
  end.
Fixpoint zset {A} (l : list A) (i : Z) (v : A) : option (list A) :=
  match l with
  | [] => None
  | x :: l' => if i =? 0 then Some (v :: l')
               else match zset l' (i - 1) v with Some r => Some (x :: r) | None => None end
  end.
(** [Iterator::take] and [Iterator::skip]. *)
Fixpoint ztake {A} (n : Z) (l : list A) : list A :=
  match l with [] => [] | x :: l' => if n <=? 0 then [] else x :: ztake (n - 1) l' end.
Fixpoint zskip {A} (n : Z) (l : list A) : list A :=
  match l with [] => [] | x :: l' => if n <=? 0 then l else zskip (n - 1) l' end.
(** [i32 as usize]. *)
Definition as_usize (z : Z) : Z := wrapu 64 z.

(** ** Fixed-width arithmetic *)
Inductive nkind := NByte | NShort | NInt | NLong | NBig.
Definition kind_bits (k : nkind) : Z :=
  match k with NByte => 8 | NShort => 16 | NInt => 32 | NLong => 64 | NBig => 256 end.
(** The value in range, as by the [checked_*] functions of the primitive integers. *)
Definition prim_chk (k : nkind) (z : Z) : option Z :=
  if (- 2 ^ (kind_bits k - 1) <=? z) && (z <? 2 ^ (kind_bits k - 1)) then Some z else None.

Section Arith.
(** Whether num256's [Int256] holds a result (see BigIntModel.v). *)
Variable fits : Z -> bool.

(** [checked_add], [checked_sub], [checked_mul], [checked_div], [checked_rem] (of
    the primitive integers or of [BigInt256]), [max], [min] and the bit operations
    of bin_op.rs 37-103, 155-171. *)
Definition arith (op : bink) (k : nkind) (a b : Z) : option Z :=
  match op with
  | BPlus => match k with NBig => b256_add fits a b | _ => prim_chk k (a + b) end
  | BMinus => match k with NBig => b256_sub fits a b | _ => prim_chk k (a - b) end
  | BMultiply => match k with NBig => b256_mul fits a b | _ => prim_chk k (a * b) end
  | BDivide =>
      match k with
      | NBig => b256_div fits a b
      | _ => if b =? 0 then None else prim_chk k (Z.quot a b)
      end
  | BModulo =>
      match k with
      | NBig => b256_rem a b
      | _ => if b =? 0 then None
             else if (a =? - 2 ^ (kind_bits k - 1)) && (b =? -1) then None
             else Some (Z.rem a b)
      end
  | BMax => Some (Z.max a b)
  | BMin => Some (Z.min a b)
  | BBitAnd => Some (Z.land a b)
  | BBitOr => Some (Z.lor a b)
  | BBitXor => Some (Z.lxor a b)
  | _ => None
  end.
(** [checked_neg] (negation.rs 10-34). *)
Definition arith_neg (k : nkind) (a : Z) : option Z :=
  match k with NBig => b256_neg a | _ => prim_chk k (- a) end.
End Arith.

(** bin_op.rs 105-155. *)
Definition compare_op (op : bink) (a b : Z) : bool :=
  match op with BGe => b <=? a | BGt => b <? a | BLe => a <=? b | _ => a <? b end.

(** [PreHeader] (ergo-chain-types/src/preheader.rs 7-23). *)
Record preheader (G : group) := MkPreHeader {
  ph_version : Z;
  ph_parent_id : bytes;
  ph_timestamp : Z;
  ph_n_bits : Z;
  ph_height : Z;
  ph_miner_pk : G;
  ph_votes : bytes;
}.
Arguments MkPreHeader {G}. Arguments ph_version {G}. Arguments ph_parent_id {G}.
Arguments ph_timestamp {G}. Arguments ph_n_bits {G}. Arguments ph_height {G}.
Arguments ph_miner_pk {G}. Arguments ph_votes {G}.

Section Eval.
Context {G : group}.
Notation expr := (expr G).
Notation lit := (lit G).
Notation const := (const G).
Notation box := (box G).
Notation ebox := (@ebox G).
Notation sbool := (sbool G).

(** The rest of the context (context.rs 25-28): the pre-header and the headers. *)
Definition chain_state : Type := preheader G * list (header G).
Notation ctx := (context G chain_state).

(** ** Values (mir/value.rs 126-200) *)
Inductive value :=
| VUnit
| VBool (b : bool)
| VByte (z : Z)
| VShort (z : Z)
| VInt (z : Z)
| VLong (z : Z)
| VBigInt (z : Z)
| VGroup (p : G)
| VSigma (s : sbool)
| VBox (b : ebox)
| VAvl (a : avl)
| VBytes (l : list Z)
| VColl (t : stype) (items : list value)
| VTup (items : list value)
| VOpt (o : option value)
| VLambda (args : list (Z * stype)) (body : expr)
| VContext
| VHeader (h : header G)
| VPreHeader (h : preheader G)
| VGlobal.

Variable H : bytes -> bytes.       (* blake2b256 *)
Variable sha : bytes -> bytes.     (* sha256 *)
Variable fits : Z -> bool.
Variable avlv : avl_verifier.

(** [From<Literal> for Value] (mir/value.rs 216-244).  A box constant stores the
    identifier computed when it was parsed (chain/ergo_box.rs 211-216). *)
Fixpoint value_of_lit (l : lit) : value :=
  match l with
  | LUnit => VUnit
  | LBool b => VBool b
  | LByte z => VByte z
  | LShort z => VShort z
  | LInt z => VInt z
  | LLong z => VLong z
  | LBigInt z => VBigInt z
  | LSigma s => VSigma s
  | LGroup p => VGroup p
  | LAvl a => VAvl a
  | LBox b => VBox (match box_id H b with Ok i => i | _ => [] end, b)
  | LCollBytes l => VBytes l
  | LColl t items => VColl t (map value_of_lit items)
  | LOpt o => VOpt (match o with Some x => Some (value_of_lit x) | None => None end)
  | LTup items => VTup (map value_of_lit items)
  end.

(** [TryFrom<Value> for Constant] (mir/constant.rs 286-358). *)
Definition consts_of (f : value -> res (stype * lit)) : list value -> res (list (stype * lit)) :=
  fix go l := match l with
              | [] => Ok []
              | x :: l' => c <- f x ;; r <- go l' ;; Ok (c :: r)
              end.
Fixpoint typed_lit (v : value) : res (stype * lit) :=
  match v with
  | VBool b => Ok (SBoolean, LBool b)
  | VByte z => Ok (SByte, LByte z)
  | VShort z => Ok (SShort, LShort z)
  | VInt z => Ok (SInt, LInt z)
  | VLong z => Ok (SLong, LLong z)
  | VBigInt z => Ok (SBigInt, LBigInt z)
  | VUnit => Ok (SUnit, LUnit)
  | VSigma s => Ok (SSigmaProp, LSigma s)
  | VGroup p => Ok (SGroupElement, LGroup p)
  | VBox b => Ok (SBox, LBox (snd b))
  | VBytes l => Ok (cbyte, LCollBytes l)
  | VColl t items =>
      l <- consts_of typed_lit items ;; Ok (SColl t, LColl t (map snd l))
  | VOpt (Some x) => '(t, l) <- typed_lit x ;; Ok (t, LOpt (Some l))
  | VOpt None => Err "None"
  | VTup items =>
      l <- consts_of typed_lit items ;; Ok (STuple (map fst l), LTup (map snd l))
  | VAvl a => Ok (SAvlTree, LAvl a)
  | VContext | VHeader _ | VPreHeader _ | VGlobal | VLambda _ _ => Err "not a constant"
  end.
Definition const_of_value (v : value) : res const :=
  '(t, l) <- typed_lit v ;; Ok (MkConst t l).

(** Derived equality of [Value] (mir/value.rs 125) and of what it holds. *)
Definition ebox_eqb (a b : ebox) : bool := leqb Z.eqb (fst a) (fst b) && box_eqb (snd a) (snd b).
Definition preheader_eqb (a b : preheader G) : bool :=
  (ph_version a =? ph_version b) && leqb Z.eqb (ph_parent_id a) (ph_parent_id b) &&
  (ph_timestamp a =? ph_timestamp b) && (ph_n_bits a =? ph_n_bits b) &&
  (ph_height a =? ph_height b) && geqb (ph_miner_pk a) (ph_miner_pk b) &&
  leqb Z.eqb (ph_votes a) (ph_votes b).
Fixpoint value_eqb (a b : value) {struct a} : bool :=
  match a, b with
  | VUnit, VUnit | VContext, VContext | VGlobal, VGlobal => true
  | VBool x, VBool y => Bool.eqb x y
  | VByte x, VByte y | VShort x, VShort y | VInt x, VInt y | VLong x, VLong y
  | VBigInt x, VBigInt y => x =? y
  | VGroup x, VGroup y => geqb x y
  | VSigma x, VSigma y => sbool_eqb x y
  | VBox x, VBox y => ebox_eqb x y
  | VAvl x, VAvl y => avl_eqb x y
  | VBytes x, VBytes y => leqb Z.eqb x y
  | VColl t x, VColl u y => stype_eqb t u && leqb value_eqb x y
  | VTup x, VTup y => leqb value_eqb x y
  | VOpt (Some x), VOpt (Some y) => value_eqb x y
  | VOpt None, VOpt None => true
  | VLambda x e, VLambda y f => leqb arg_eqb x y && expr_eqb e f
  | VHeader x, VHeader y => header_eqb x y
  | VPreHeader x, VPreHeader y => preheader_eqb x y
  | _, _ => false
  end.

(** ** Extraction of Rust values ([TryExtractFrom], mir/value.rs 356-627) *)
Definition as_u8s (l : list Z) : bytes := map (wrapu 8) l.
Definition vbytes (b : bytes) : value := VBytes (as_i8s b).
Definition get_bool (v : value) : res bool := match v with VBool b => Ok b | _ => Err "expected bool" end.
Definition get_byte (v : value) : res Z := match v with VByte z => Ok z | _ => Err "expected i8" end.
Definition get_int (v : value) : res Z := match v with VInt z => Ok z | _ => Err "expected i32" end.
Definition get_long (v : value) : res Z := match v with VLong z => Ok z | _ => Err "expected i64" end.
Definition get_i8s (v : value) : res (list Z) := match v with VBytes l => Ok l | _ => Err "expected bytes" end.
Definition get_u8s (v : value) : res bytes := l <- get_i8s v ;; Ok (as_u8s l).
Definition get_group (v : value) : res G := match v with VGroup p => Ok p | _ => Err "expected EcPoint" end.
Definition get_sigma (v : value) : res sbool := match v with VSigma s => Ok s | _ => Err "expected SigmaProp" end.
Definition get_box (v : value) : res ebox := match v with VBox b => Ok b | _ => Err "expected ErgoBox" end.
Definition get_avl (v : value) : res avl := match v with VAvl a => Ok a | _ => Err "expected AvlTree" end.
Definition get_header (v : value) : res (header G) := match v with VHeader h => Ok h | _ => Err "expected Header" end.
Definition get_preheader (v : value) : res (preheader G) :=
  match v with VPreHeader h => Ok h | _ => Err "expected PreHeader" end.
Fixpoint get_all {A} (f : value -> res A) (l : list value) : res (list A) :=
  match l with
  | [] => Ok []
  | x :: l' => a <- f x ;; r <- get_all f l' ;; Ok (a :: r)
  end.
(** [Vec<T>] is only extracted from a collection of wrapped items (475-493). *)
Definition get_vec {A} (f : value -> res A) (v : value) : res (list A) :=
  match v with VColl _ l => get_all f l | _ => Err "expected Vec" end.
(** Pairs are read from the first two items of a tuple (606-627). *)
Definition get_pair {A B} (f : value -> res A) (g : value -> res B) (v : value) : res (A * B) :=
  match v with
  | VTup (x :: y :: _) => a <- f x ;; b <- g y ;; Ok (a, b)
  | _ => Err "not enough items in STuple"
  end.

(** Numeric values. *)
Definition num_of (v : value) : option (nkind * Z) :=
  match v with
  | VByte z => Some (NByte, z) | VShort z => Some (NShort, z) | VInt z => Some (NInt, z)
  | VLong z => Some (NLong, z) | VBigInt z => Some (NBig, z)
  | _ => None
  end.
Definition mk_num (k : nkind) (z : Z) : value :=
  match k with NByte => VByte z | NShort => VShort z | NInt => VInt z | NLong => VLong z | NBig => VBigInt z end.
Definition get_num (k : nkind) (v : value) : res Z :=
  match k, v with
  | NByte, VByte z | NShort, VShort z | NInt, VInt z | NLong, VLong z | NBig, VBigInt z => Ok z
  | _, _ => Err "expected a number of the same type"
  end.

(** ** Collections (mir/value.rs 59-124) *)
Definition coll_items (v : value) : option (stype * list value) :=
  match v with
  | VBytes l => Some (SByte, map VByte l)
  | VColl t l => Some (t, l)
  | _ => None
  end.
Definition get_coll (v : value) : res (stype * list value) := of_option "expected Value::Coll" (coll_items v).
Definition from_vec (t : stype) (l : list value) : res value :=
  match t with
  | SByte => bs <- get_all get_byte l ;; Ok (VBytes bs)
  | _ => Ok (VColl t l)
  end.
(** [Vec<Value>] is extracted from a collection of wrapped items. *)
Definition from_vec_vec (t : stype) (l : list value) : res value :=
  match t with
  | SByte => bs <- get_all get_i8s l ;; Ok (VBytes (List.concat bs))
  | _ => ls <- get_all (get_vec (fun v => Ok v)) l ;; Ok (VColl t (List.concat ls))
  end.

(** ** Environment (env.rs 9-47); a [HashMap] is a list with the newest binding of
    each identifier. *)
Definition env := list (Z * value).
Fixpoint env_get (e : env) (i : Z) : option value :=
  match e with
  | [] => None
  | (j, v) :: e' => if j =? i then Some v else env_get e' i
  end.
Definition env_remove (e : env) (i : Z) : env := filter (fun p => negb (fst p =? i)) e.
Definition env_insert (e : env) (i : Z) (v : value) : env := (i, v) :: env_remove e i.
Definition env_is_empty (e : env) : bool := match e with [] => true | _ => false end.

(** Restoring after a call or a block: new identifiers are removed, then the saved
    values are put back (block.rs 47-54, apply.rs 31-38).  [saved] lists the saved
    values, the latest value saved for an identifier first. *)
Definition restore (e : env) (fresh : list Z) (saved : env) : env :=
  fold_right (fun p e => env_insert e (fst p) (snd p)) (fold_left env_remove fresh e) saved.
(** One binding, with the value it hides or the fact that it is new. *)
Definition bind_var (i : Z) (v : value) (s : env * list Z * env) : env * list Z * env :=
  let '(e, fresh, saved) := s in
  match env_get e i with
  | Some old => (env_insert e i v, fresh, env_insert saved i old)
  | None => (env_insert e i v, fresh ++ [i], saved)
  end.

(** ** Operations on values *)

(** upcast.rs 11-86. *)
Definition upcast (t : stype) (v : value) : res value :=
  match t, v with
  | SBigInt, (VByte z | VShort z | VInt z | VLong z | VBigInt z) => Ok (VBigInt z)
  | SLong, (VByte z | VShort z | VInt z | VLong z) => Ok (VLong z)
  | SInt, (VByte z | VShort z | VInt z) => Ok (VInt z)
  | SShort, (VByte z | VShort z) => Ok (VShort z)
  | SByte, VByte z => Ok (VByte z)
  | _, _ => Err "Upcast"
  end.
(** downcast.rs 12-121; [try_from] between primitive integers checks the range. *)
Definition narrow (k : nkind) (z : Z) : res value := z <- of_option "overflow" (prim_chk k z) ;; Ok (mk_num k z).
Definition downcast (t : stype) (v : value) : res value :=
  match t, v with
  | SBigInt, (VByte z | VShort z | VInt z | VLong z) => Ok (VBigInt z)
  | SLong, (VByte z | VShort z | VInt z | VLong z) => Ok (VLong z)
  | SInt, (VByte z | VShort z | VInt z) => Ok (VInt z)
  | SInt, VLong z => narrow NInt z
  | SShort, VShort z => Ok (VShort z)
  | SShort, (VInt z | VLong z) => narrow NShort z
  | SByte, VByte z => Ok (VByte z)
  | SByte, (VShort z | VInt z | VLong z) => narrow NByte z
  | _, _ => Err "Downcast"
  end.

(** byte_array_to_long.rs 11-29: every byte is sign extended before the shift. *)
Definition byte_array_to_long (l : list Z) : res Z :=
  match l with
  | a :: b :: c :: d :: e :: f :: g :: h :: _ =>
      let sh z n := wraps 64 (Z.shiftl z n) in
      Ok (Z.lor (sh a 56) (Z.lor (sh b 48) (Z.lor (sh c 40) (Z.lor (sh d 32)
         (Z.lor (sh e 24) (Z.lor (sh f 16) (Z.lor (sh g 8) h)))))))
  | _ => Err "array must contain at least 8 elements"
  end.
(** long_to_byte_array.rs 10-21. *)
Fixpoint long_bytes_loop (n : nat) (v : Z) (acc : list Z) : list Z :=
  match n with
  | O => acc
  | S m => long_bytes_loop m (Z.shiftr v 8) (wraps 8 (Z.land v 255) :: acc)
  end.
Definition long_to_byte_array (v : Z) : list Z := long_bytes_loop 8 v [].

(** xor.rs 11-14 and sglobal.rs 9-12: the bytes of the first operand, xored with
    those of the second as far as it goes. *)
Fixpoint helper_xor (x y : list Z) : list Z :=
  match x, y with
  | a :: x', b :: y' => Z.lxor a b :: helper_xor x' y'
  | _, _ => x
  end.

(** [SigmaProp::prop_bytes] (mir/sigma_prop_bytes.rs, sigma_protocol/sigma_boolean.rs):
    the serialized script of the proposition. *)
Definition prop_bytes (s : sbool) : res bytes :=
  t <- tree_of_expr (EConst (MkConst SSigmaProp (LSigma s))) ;; ser_tree t.

(** bit_inversion.rs 9-24. *)
Definition bit_inversion (v : value) : res value :=
  '(k, z) <- of_option "numeric" (num_of v) ;; Ok (mk_num k (Z.lnot z)).
Definition negation (v : value) : res value :=
  '(k, z) <- of_option "numeric" (num_of v) ;;
  z <- of_option "overflow" (arith_neg k z) ;; Ok (mk_num k z).

(** Values of a register as an optional value (extract_reg_as.rs 26-31, sbox.rs
    31-40): the type of the register is not looked at. *)
Definition reg_value (b : box) (id : Z) : res value :=
  c <- get_register b id ;;
  Ok (VOpt (match c with Some c => Some (value_of_lit (c_val c)) | None => None end)).

(** Operations with one operand. *)
Definition op1 (k : opk) (p : payload) (v : value) : res value :=
  match k, p with
  | OBitInversion, _ => bit_inversion v
  | ONegation, _ => negation v
  (* bool_to_sigma.rs 12-18 *)
  | OBoolToSigmaProp, _ => b <- get_bool v ;; Ok (VSigma (Triv b))
  (* byte_array_to_bigint.rs 14-27 *)
  | OByteArrayToBigInt, _ =>
      b <- get_u8s v ;;
      match b with
      | [] => Err "empty"
      | _ => z <- of_option "BigInt256" (b256_of_bytes b) ;; Ok (VBigInt z)
      end
  | OByteArrayToLong, _ => b <- get_i8s v ;; z <- byte_array_to_long b ;; Ok (VLong z)
  (* calc_blake2b256.rs 13-28, calc_sha256.rs 13-32 *)
  | OCalcBlake2b256, _ => b <- get_u8s v ;; Ok (vbytes (H b))
  | OCalcSha256, _ => b <- get_u8s v ;; Ok (vbytes (sha b))
  (* decode_point.rs 13-24: bytes left unread are ignored *)
  | ODecodePoint, _ => b <- get_u8s v ;; '(p, _) <- ec_read b ;; Ok (VGroup p)
  (* coll_size.rs 9-21 *)
  | OSizeOf, _ => '(_, l) <- get_coll v ;; Ok (VInt (wraps 32 (Zlen l)))
  (* create_provedlog.rs 10-24 *)
  | OCreateProveDlog, _ => p <- get_group v ;; Ok (VSigma (SLeaf (Dlog p)))
  (* extract_amount.rs 9-20; BoxValue::as_i64 *)
  | OExtractAmount, _ => b <- get_box v ;; Ok (VLong (wraps 64 (cd_value (b_cand (snd b)))))
  (* extract_bytes.rs, extract_bytes_with_no_ref.rs, extract_id.rs,
     extract_script_bytes.rs, extract_creation_info.rs *)
  | OExtractBytes, _ => b <- get_box v ;; s <- ser_box (snd b) ;; Ok (vbytes s)
  | OExtractBytesWithNoRef, _ => b <- get_box v ;; s <- bytes_without_ref (snd b) ;; Ok (VBytes s)
  | OExtractId, _ => b <- get_box v ;; Ok (vbytes (fst b))
  | OExtractScriptBytes, _ => b <- get_box v ;; s <- script_bytes (snd b) ;; Ok (VBytes s)
  | OExtractCreationInfo, _ =>
      b <- get_box v ;; let '(h, s) := creation_info (snd b) in Ok (VTup [VInt h; VBytes s])
  (* logical_not.rs 10-16 *)
  | OLogicalNot, _ => b <- get_bool v ;; Ok (VBool (negb b))
  | OLongToByteArray, _ => z <- get_long v ;; Ok (VBytes (long_to_byte_array z))
  (* option_get.rs 9-22, option_is_defined.rs 9-20 *)
  | OOptionGet, _ =>
      match v with
      | VOpt (Some x) => Ok x
      | VOpt None => Err "calling Option.get on None"
      | _ => Err "not an option"
      end
  | OOptionIsDefined, _ =>
      match v with VOpt (Some _) => Ok (VBool true) | VOpt None => Ok (VBool false) | _ => Err "not an option" end
  (* sigma_prop_bytes.rs 9-20 *)
  | OSigmaPropBytes, _ => s <- get_sigma v ;; b <- prop_bytes s ;; Ok (vbytes b)
  (* and.rs, or.rs, xor_of.rs 10-16 *)
  | OAnd, _ => l <- get_vec get_bool v ;; Ok (VBool (forallb (fun b => b) l))
  | OOr, _ => l <- get_vec get_bool v ;; Ok (VBool (existsb (fun b => b) l))
  | OXorOf, _ => l <- get_vec get_bool v ;; Ok (VBool (fold_left xorb l false))
  (* extract_reg_as.rs 14-33 *)
  | OExtractRegisterAs, PI8Type r _ =>
      b <- get_box v ;; id <- reg_id_of_i8 r ;; reg_value (snd b) id
  | OUpcast, PType t => upcast t v
  | ODowncast, PType t => downcast t v
  (* select_field.rs 9-28 *)
  | OSelectField, PIndex i =>
      match v with VTup l => of_option "out of bounds" (znth l (i - 1)) | _ => Err "not a tuple" end
  | _, _ => Err "not a node with one operand"
  end.
Definition is_op1 (k : opk) : bool := Nat.eqb (op_arity k) 1.

(** coll_append.rs 37-57. *)
Definition append (a b : value) : res value :=
  '(t, x) <- get_coll a ;; '(u, y) <- get_coll b ;;
  if stype_eqb t u then from_vec t (x ++ y) else Err "Append: element types".
(** coll_slice.rs 11-35; [get] of a range is [None] when it is not within the
    vector. *)
Definition slice (v : value) (from until : Z) : res value :=
  '(t, l) <- get_coll v ;;
  let n := Zlen l in
  let lo := as_usize (Z.max from 0) in
  let hi := as_usize (Z.min until (wraps 32 n)) in
  if (lo <=? hi) && (hi <=? n) then from_vec t (ztake (hi - lo) (zskip lo l)) else from_vec t [].
(** coll_by_index.rs 10-41. *)
Definition by_index (l : list value) (i : Z) (d : option value) : res value :=
  match znth l (as_usize i), d with
  | Some v, _ => Ok v
  | None, Some v => Ok v
  | None, None => Err "ByIndex: out of bounds"
  end.
(** atleast.rs 16-52. *)
Definition atleast (bound input : value) : res value :=
  '(_, l) <- get_coll input ;;
  k <- get_int bound ;;
  ss <- get_all get_sigma l ;;
  if (k <? 0) || (255 <? k) then Err "bound"
  else if wraps 32 (Zlen ss) <? k then Err "bound > input size"
  else ss <- bounded ss ;; s <- cthreshold_reduce k ss ;; Ok (VSigma s).
(** exponentiate.rs 11-31 with [bigint256_to_scalar]. *)
Definition exponentiate_v (a b : value) : res value :=
  match a, b with
  | VGroup p, VBigInt e => if (0 <=? e) && (e <? gord G) then Ok (VGroup (exponentiate p e)) else Err "Exponentiate"
  | _, _ => Err "Exponentiate"
  end.
(** subst_const.rs 17-80. *)
Fixpoint subst_all (t : tree G) (n : Z) (l : list (Z * const)) : res (tree G) :=
  match l with
  | [] => Ok t
  | (i, c) :: l' =>
      if i <? n then t <- with_constant t (Z.to_nat i) c ;; subst_all t n l'
      else Err "positions out of bounds"
  end.
Definition subst_constants (script positions values : value) : res value :=
  ps <- get_vec get_int positions ;;
  let ps := map as_usize ps in
  cs <- match values with VColl _ l => get_all const_of_value l | _ => Err "expected Coll" end ;;
  if negb (Zlen cs =? Zlen ps) then Err "lengths differ"
  else match script with
       | VBytes b =>
           t <- tree_of_bytes (as_u8s b) ;;
           ks <- get_constants t ;;
           t <- subst_all t (Zlen ks) (combine ps cs) ;;
           s <- ser_tree t ;; Ok (vbytes s)
       | _ => Err "expected bytes"
       end.

(** Operations with two and with three operands, all evaluated first. *)
Definition op2 (k : opk) (a b : value) : res value :=
  match k with
  | OAtleast => atleast a b
  | OAppend => append a b
  (* option_get_or_else.rs 9-21 *)
  | OOptionGetOrElse =>
      match a with VOpt (Some x) => Ok x | VOpt None => Ok b | _ => Err "not an option" end
  | OXor => match a, b with VBytes x, VBytes y => Ok (VBytes (helper_xor x y)) | _, _ => Err "Xor" end
  | OExponentiate => exponentiate_v a b
  (* multiply_group.rs 9-22 *)
  | OMultiplyGroup => match a, b with VGroup x, VGroup y => Ok (VGroup (gop x y)) | _, _ => Err "MultiplyGroup" end
  | _ => Err "not a node with two operands"
  end.
Definition is_op2 (k : opk) : bool :=
  match k with OAtleast | OAppend | OOptionGetOrElse | OXor | OExponentiate | OMultiplyGroup => true | _ => false end.
Definition op3 (k : opk) (a b c : value) : res value :=
  match k with
  | OSlice =>
      _ <- get_coll a ;; f <- get_int b ;; u <- get_int c ;; slice a f u
  | OSubstConstants => subst_constants a b c
  | _ => Err "not a node with three operands"
  end.
Definition is_op3 (k : opk) : bool := match k with OSlice | OSubstConstants => true | _ => false end.

(** ** Methods *)

(** scoll.rs 14-37; the position is cast to [i32]. *)
Fixpoint position (f : value -> bool) (l : list value) : option Z :=
  match l with
  | [] => None
  | x :: l' => if f x then Some 0 else match position f l' with Some i => Some (i + 1) | None => None end
  end.
Definition arg (args : list value) (n : nat) : res value := of_option "missing arg" (nth_error args n).
Definition index_of (obj : value) (args : list value) : res value :=
  '(_, l) <- get_coll obj ;;
  x <- arg args 0 ;; d <- arg args 1 ;;
  d <- get_int d ;;
  Ok (VInt (wraps 32 (match position (fun it => value_eqb it x) l with Some i => i | None => as_usize d end))).
(** scoll.rs 125-154. *)
Definition zip_coll (obj : value) (args : list value) : res value :=
  '(t, x) <- get_coll obj ;;
  b <- arg args 0 ;;
  '(u, y) <- get_coll b ;;
  from_vec (STuple [t; u]) (map (fun p => VTup [fst p; snd p]) (combine x y)).
(** scoll.rs 156-181: [i32::try_from] of every index. *)
Fixpoint indices_from (i : Z) (l : list value) : res (list value) :=
  match l with
  | [] => Ok []
  | _ :: l' => if i <? 2 ^ 31 then r <- indices_from (i + 1) l' ;; Ok (VInt i :: r) else Err "overflow"
  end.
Definition indices (obj : value) : res value :=
  '(_, l) <- get_coll obj ;; r <- indices_from 0 l ;; from_vec SInt r.
(** scoll.rs 183-222; the sum of the two indices wraps. *)
Definition patch (obj : value) (args : list value) : res value :=
  '(t, l) <- get_coll obj ;;
  f <- arg args 0 ;; p <- arg args 1 ;; r <- arg args 2 ;;
  f <- get_int f ;; r <- get_int r ;;
  '(_, p) <- get_coll p ;;
  let f := as_usize f in
  let r := as_usize r in
  from_vec t (ztake f l ++ p ++ zskip (wrapu 64 (f + r)) l).
(** scoll.rs 224-255. *)
Definition updated (obj : value) (args : list value) : res value :=
  '(t, l) <- get_coll obj ;;
  i <- arg args 0 ;; v <- arg args 1 ;;
  i <- get_int i ;;
  match zset l (as_usize i) v with
  | Some r => from_vec t r
  | None => Err "updated: out of bounds"
  end.
(** scoll.rs 257-331. *)
Fixpoint update_all (l : list value) (n : Z) (us : list (Z * value)) : res (list value) :=
  match us with
  | [] => Ok l
  | (i, v) :: us' =>
      if n <=? i then Err "updateMany: out of bounds"
      else match zset l i v with
           | Some r => update_all r n us'
           | None => Err "updateMany: out of bounds"
           end
  end.
Definition update_many (obj : value) (args : list value) : res value :=
  '(t, l) <- get_coll obj ;;
  is <- arg args 0 ;; us <- arg args 1 ;;
  '(u, us) <- get_coll us ;;
  is <- get_vec get_int is ;;
  let is := map as_usize is in
  if negb (Zlen is =? Zlen us) then Err "lengths differ"
  else if negb (stype_eqb t u) then Err "types differ"
  else r <- update_all l (Zlen l) (combine is us) ;; from_vec t r.

(** AVL trees (savltree.rs).  [AvlTreeFlags] (mir/avl_tree_data.rs 11-53). *)
Definition flag (a : avl) (n : Z) : bool := Z.testbit (av_flags a) n.
Definition parse_flags (b : Z) : Z := Z.land b 7.
Definition get_key : value -> res bytes := get_u8s.
Definition avl_start (a : avl) (proof : bytes) : res (avv_state avlv) :=
  of_option "proof" (avv_new avlv (av_digest a) proof (av_key_len a) (av_val_len a)).
(** [perform_one_operation] on each, in order, with the results. *)
Fixpoint avl_run (s : avv_state avlv) (ops : list avl_op) : res (list (option bytes) * avv_state avlv) :=
  match ops with
  | [] => Ok ([], s)
  | o :: ops' =>
      '(r, s) <- of_option "incorrect" (avv_step avlv s o) ;;
      '(rs, s) <- avl_run s ops' ;;
      Ok (r :: rs, s)
  end.
Definition with_digest (a : avl) (d : bytes) : avl := Avl d (av_flags a) (av_key_len a) (av_val_len a).
(** 195-256, 258-316, 365-426; the new digest is parsed from its bytes. *)
Definition avl_modify (a : avl) (allowed : bool) (ops : res (list avl_op)) (args : list value) : res value :=
  if negb allowed then Err "not allowed"
  else ops <- ops ;;
       p <- arg args 1 ;; p <- get_u8s p ;;
       s <- avl_start a p ;;
       '(_, s) <- avl_run s ops ;;
       d <- of_option "Cannot update digest" (avv_digest avlv s) ;;
       '(d, _) <- read_exact 33 d ;;
       Ok (VOpt (Some (VAvl (with_digest a d)))).
Definition avl_entries (mk : bytes -> bytes -> avl_op) (args : list value) : res (list avl_op) :=
  l <- arg args 0 ;; l <- get_vec (get_pair get_u8s get_u8s) l ;;
  Ok (map (fun p => mk (fst p) (snd p)) l).
Definition avl_keys (mk : bytes -> avl_op) (args : list value) : res (list avl_op) :=
  l <- arg args 0 ;; l <- get_vec get_u8s l ;; Ok (map mk l).
Definition opt_bytes (o : option bytes) : value :=
  VOpt (match o with Some b => Some (vbytes b) | None => None end).
(** 89-135, 137-193, 318-363 and tree_lookup.rs 25-55. *)
Definition avl_lookup (a : avl) (keys : list bytes) (proof : bytes) : res (list (option bytes)) :=
  s <- avl_start a proof ;;
  '(rs, _) <- avl_run s (map AvLookup keys) ;; Ok rs.
Definition avl_lookup1 (a : avl) (key proof : bytes) : res (option bytes) :=
  s <- avl_start a proof ;;
  '(r, _) <- of_option "incorrect" (avv_step avlv s (AvLookup key)) ;; Ok r.
Definition digest33 (b : bytes) : res bytes := if Zlen b =? 33 then Ok b else Err "invalid digest length".
Definition avl_method (mid : Z) (obj : value) (args : list value) : res value :=
  a <- get_avl obj ;;
  if mid =? 1 then Ok (vbytes (av_digest a))
  else if mid =? 2 then Ok (VByte (wraps 8 (av_flags a)))
  else if mid =? 3 then Ok (VInt (wraps 32 (av_key_len a)))
  else if mid =? 4 then
    Ok (VOpt (match av_val_len a with Some n => Some (VInt (wraps 32 n)) | None => None end))
  else if mid =? 5 then Ok (VBool (flag a 0))
  else if mid =? 6 then Ok (VBool (flag a 1))
  else if mid =? 7 then Ok (VBool (flag a 2))
  else if mid =? 8 then
    f <- arg args 0 ;; f <- get_byte f ;;
    Ok (VAvl (Avl (av_digest a) (parse_flags (wrapu 8 f)) (av_key_len a) (av_val_len a)))
  else if mid =? 9 then
    k <- arg args 0 ;; k <- get_u8s k ;; p <- arg args 1 ;; p <- get_u8s p ;;
    r <- avl_lookup1 a k p ;; Ok (VBool (match r with Some _ => true | None => false end))
  else if mid =? 10 then
    k <- arg args 0 ;; k <- get_u8s k ;; p <- arg args 1 ;; p <- get_u8s p ;;
    r <- avl_lookup1 a k p ;; Ok (opt_bytes r)
  else if mid =? 11 then
    ks <- arg args 0 ;; ks <- get_vec get_u8s ks ;; p <- arg args 1 ;; p <- get_u8s p ;;
    rs <- avl_lookup a ks p ;; Ok (VColl (SOption cbyte) (map opt_bytes rs))
  else if mid =? 12 then avl_modify a (flag a 0) (avl_entries AvInsert args) args
  else if mid =? 13 then avl_modify a (flag a 1) (avl_entries AvUpdate args) args
  else if mid =? 14 then avl_modify a (flag a 2) (avl_keys AvRemove args) args
  else if mid =? 15 then
    d <- arg args 0 ;; d <- get_u8s d ;; d <- digest33 d ;; Ok (VAvl (with_digest a d))
  else Err "unknown method id in SAvlTree".

(** scontext.rs 10-88. *)
Fixpoint box_position (b : ebox) (l : list ebox) : option Z :=
  match l with
  | [] => None
  | x :: l' => if ebox_eqb x b then Some 0
               else match box_position b l' with Some i => Some (i + 1) | None => None end
  end.
Definition boxes_value (l : list ebox) : value := VColl SBox (map VBox l).
Definition context_method (c : ctx) (mid : Z) (obj : value) : res value :=
  match obj with
  | VContext =>
      if mid =? 1 then Ok (boxes_value (match c_data c with Some l => l | None => [] end))
      else if mid =? 2 then Ok (VColl SHeader (map VHeader (snd (c_state c))))
      else if mid =? 3 then Ok (VPreHeader (fst (c_state c)))
      else if mid =? 8 then
        i <- of_option "box not found" (box_position (c_self c) (c_inputs c)) ;; Ok (VInt (wraps 32 i))
      else if mid =? 9 then
        match snd (c_state c) with
        | h :: _ => Ok (VAvl (Avl (h_state_root h) 7 32 None))
        | [] => Panic
        end
      else Err "unknown method id in SContext"
  | _ => Err "expected object of Value::Context"
  end.

(** sbox.rs 12-46. *)
Definition box_method (mid : Z) (obj : value) (args : list value) : res value :=
  if mid =? 1 then b <- get_box obj ;; Ok (VLong (wraps 64 (cd_value (b_cand (snd b)))))
  else if mid =? 7 then
    r <- arg args 0 ;; r <- get_byte r ;; id <- reg_id_of_i8 r ;;
    b <- get_box obj ;; reg_value (snd b) id
  else if mid =? 8 then b <- get_box obj ;; Ok (value_of_lit (c_val (tokens_const (cd_tokens (b_cand (snd b))))))
  else Err "unknown method id in SBox".

(** sheader.rs 10-93; [EcPoint::default] is the identity. *)
Definition header_method (mid : Z) (obj : value) : res value :=
  h <- get_header obj ;;
  if mid =? 1 then Ok (vbytes (h_id h))
  else if mid =? 2 then Ok (VByte (wraps 8 (h_version h)))
  else if mid =? 3 then Ok (vbytes (h_parent_id h))
  else if mid =? 4 then Ok (vbytes (h_ad_proofs_root h))
  else if mid =? 5 then Ok (vbytes (h_state_root h))
  else if mid =? 6 then Ok (vbytes (h_transaction_root h))
  else if mid =? 7 then Ok (VLong (wraps 64 (h_timestamp h)))
  else if mid =? 8 then Ok (VLong (wraps 64 (h_n_bits h)))
  else if mid =? 9 then Ok (VInt (wraps 32 (h_height h)))
  else if mid =? 10 then Ok (vbytes (h_extension_root h))
  else if mid =? 11 then Ok (VGroup (miner_pk (h_solution h)))
  else if mid =? 12 then
    Ok (VGroup (match pow_onetime_pk (h_solution h) with Some p => p | None => gid end))
  else if mid =? 13 then Ok (vbytes (nonce (h_solution h)))
  else if mid =? 14 then
    d <- of_option "BigInt256" (b256_of_bigint (match pow_distance (h_solution h) with Some d => d | None => 0 end)) ;;
    Ok (VBigInt d)
  else if mid =? 15 then Ok (vbytes (h_votes h))
  else Err "method not found in SHeader".
(** spreheader.rs 6-39. *)
Definition preheader_method (mid : Z) (obj : value) : res value :=
  h <- get_preheader obj ;;
  if mid =? 1 then Ok (VByte (wraps 8 (ph_version h)))
  else if mid =? 2 then Ok (vbytes (ph_parent_id h))
  else if mid =? 3 then Ok (VLong (wraps 64 (ph_timestamp h)))
  else if mid =? 4 then Ok (VLong (wraps 64 (ph_n_bits h)))
  else if mid =? 5 then Ok (VInt (wraps 32 (ph_height h)))
  else if mid =? 6 then Ok (VGroup (ph_miner_pk h))
  else if mid =? 7 then Ok (vbytes (ph_votes h))
  else Err "method not found in SPreHeader".
(** sgroup_elem.rs 9-30. *)
Definition group_method (mid : Z) (obj : value) : res value :=
  p <- get_group obj ;;
  if mid =? 2 then b <- ec_write p ;; Ok (vbytes b)
  else if mid =? 5 then Ok (VGroup (ginv p))
  else Err "unknown method id in SGroupElement".
(** sglobal.rs 14-53; the first argument is the right operand. *)
Definition global_method (mid : Z) (obj : value) (args : list value) : res value :=
  match obj with
  | VGlobal =>
      if mid =? 1 then Ok (VGroup ggen)
      else if mid =? 2 then
        r <- arg args 0 ;; l <- arg args 1 ;;
        match l, r with VBytes x, VBytes y => Ok (VBytes (helper_xor x y)) | _, _ => Err "Xor" end
      else Err "method not found in SGlobal"
  | _ => Err "expected obj to be Value::Global"
  end.

(** [smethod_eval_fn] (eval.rs 219-364) without the methods that take a lambda. *)
Definition method_value (c : ctx) (m : smethod) (obj : value) (args : list value) : res value :=
  let mid := sm_id m in
  if sm_code m =? 100 then avl_method mid obj args
  else if sm_code m =? 101 then context_method c mid obj
  else if sm_code m =? 99 then box_method mid obj args
  else if sm_code m =? 12 then
    if mid =? 26 then index_of obj args
    else if mid =? 29 then zip_coll obj args
    else if mid =? 14 then indices obj
    else if mid =? 19 then patch obj args
    else if mid =? 20 then updated obj args
    else if mid =? 21 then update_many obj args
    else Err "unknown method id in SCollection"
  else if sm_code m =? 7 then group_method mid obj
  else if sm_code m =? 104 then header_method mid obj
  else if sm_code m =? 105 then preheader_method mid obj
  else if sm_code m =? 106 then global_method mid obj args
  else Err "unknown type id".

(** ** Evaluation *)

Variable c : ctx.

Section Step.
Variable rec : expr -> env -> res (value * env).

Fixpoint eval_list (l : list expr) (e : env) : res (list value * env) :=
  match l with
  | [] => Ok ([], e)
  | x :: l' => '(v, e) <- rec x e ;; '(vs, e) <- eval_list l' e ;; Ok (v :: vs, e)
  end.

(** A lambda applied by a collection or option operation: only its first argument
    is bound (coll_map.rs 15-36 and its copies). *)
Definition call1 (f v : value) (e : env) : res (value * env) :=
  match f with
  | VLambda ((i, _) :: _) body =>
      '(r, e') <- rec body (env_insert e i v) ;;
      Ok (r, match env_get e i with Some old => env_insert e' i old | None => env_remove e' i end)
  | VLambda [] _ => Err "empty arguments list"
  | _ => Err "expected a lambda"
  end.

(** The loops of coll_map.rs, coll_filter.rs, coll_exists.rs, coll_forall.rs and
    coll_fold.rs. *)
Fixpoint map_loop (f : value) (l : list value) (e : env) : res (list value * env) :=
  match l with
  | [] => Ok ([], e)
  | x :: l' => '(v, e) <- call1 f x e ;; '(vs, e) <- map_loop f l' e ;; Ok (v :: vs, e)
  end.
Fixpoint filter_loop (f : value) (l : list value) (e : env) : res (list value * env) :=
  match l with
  | [] => Ok ([], e)
  | x :: l' =>
      '(v, e) <- call1 f x e ;; b <- get_bool v ;;
      '(vs, e) <- filter_loop f l' e ;; Ok (if b then x :: vs else vs, e)
  end.
Fixpoint exists_loop (f : value) (l : list value) (e : env) : res (bool * env) :=
  match l with
  | [] => Ok (false, e)
  | x :: l' => '(v, e) <- call1 f x e ;; b <- get_bool v ;; if b then Ok (true, e) else exists_loop f l' e
  end.
Fixpoint forall_loop (f : value) (l : list value) (e : env) : res (bool * env) :=
  match l with
  | [] => Ok (true, e)
  | x :: l' => '(v, e) <- call1 f x e ;; b <- get_bool v ;; if b then forall_loop f l' e else Ok (false, e)
  end.
Fixpoint fold_loop (f acc : value) (l : list value) (e : env) : res (value * env) :=
  match l with
  | [] => Ok (acc, e)
  | x :: l' => '(v, e) <- call1 f (VTup [acc; x]) e ;; fold_loop f v l' e
  end.
(** The input of Exists, ForAll, Filter and Map: its element type must be the one
    computed when the node was built. *)
Definition typed_items (t : stype) (v : value) : res (list value) :=
  '(u, l) <- get_coll v ;; if stype_eqb u t then Ok l else Err "unexpected element type".
Definition elem_type (t : stype) : res stype :=
  match pe t with SColl u => Ok u | _ => Err "not a collection" end.
Definition eval_lambda_op (k : opk) (a f : expr) (e : env) : res (value * env) :=
  '(av, e) <- rec a e ;;
  '(fv, e) <- rec f e ;;
  match k with
  | OExists => t <- elem_type (tpe a) ;; l <- typed_items t av ;; '(b, e) <- exists_loop fv l e ;; Ok (VBool b, e)
  | OForAll => t <- elem_type (tpe a) ;; l <- typed_items t av ;; '(b, e) <- forall_loop fv l e ;; Ok (VBool b, e)
  | OFilter =>
      t <- elem_type (tpe a) ;; l <- typed_items t av ;;
      '(vs, e) <- filter_loop fv l e ;; r <- from_vec t vs ;; Ok (r, e)
  | OMap =>
      match tpe f with
      | SFunc (t :: _) u =>
          l <- typed_items t av ;; '(vs, e) <- map_loop fv l e ;; r <- from_vec u vs ;; Ok (r, e)
      | _ => Err "mapper has no arguments"
      end
  | _ => Err "not a lambda operation"
  end.
Definition is_lambda_op (k : opk) : bool :=
  match k with OExists | OForAll | OFilter | OMap => true | _ => false end.

(** coll_fold.rs 11-60. *)
Definition eval_fold (a z f : expr) (e : env) : res (value * env) :=
  '(av, e) <- rec a e ;; '(zv, e) <- rec z e ;; '(fv, e) <- rec f e ;;
  '(_, l) <- get_coll av ;; fold_loop fv zv l e.

(** scoll.rs 39-123: flatMap, with the bodies it allows. *)
Definition flat_map_body (b : expr) : bool :=
  match b with
  | EMethod _ _ args => match args with [] => true | _ => false end
  | EOp OExtractScriptBytes _ _ _ | EOp OExtractId _ _ _ | EOp OSigmaPropBytes _ _ _
  | EOp OExtractBytes _ _ _ | EOp OExtractBytesWithNoRef _ _ _ => true
  | _ => false
  end.
Definition flat_map (obj : value) (args : list value) (e : env) : res (value * env) :=
  f <- arg args 0 ;;
  match f with
  | VLambda fargs body =>
      if 1 <? Zlen fargs then Err "flatmap: expected 1 arg"
      else if negb (flat_map_body body) then Err "unsupported lambda in flatMap"
      else match fargs with
           | [] => Err "flatmap: lambda args are empty"
           | (_, t) :: _ =>
               l <- typed_items t obj ;;
               '(vs, e) <- map_loop f l e ;;
               r <- from_vec_vec (tpe body) vs ;; Ok (r, e)
           end
  | _ => Err "expected a lambda"
  end.
(** soption.rs 8-99. *)
Definition option_map_m (obj : value) (args : list value) (e : env) : res (value * env) :=
  f <- arg args 0 ;;
  match f, obj with
  | VLambda _ _, VOpt (Some x) => '(v, e) <- call1 f x e ;; Ok (VOpt (Some v), e)
  | VLambda _ _, VOpt None => Ok (VOpt None, e)
  | _, _ => Err "expected a lambda and an option"
  end.
Definition option_filter_m (obj : value) (args : list value) (e : env) : res (value * env) :=
  f <- arg args 0 ;;
  match f, obj with
  | VLambda _ _, VOpt (Some x) =>
      '(v, e) <- call1 f x e ;; b <- get_bool v ;; Ok (VOpt (if b then Some x else None), e)
  | VLambda _ _, VOpt None => Ok (VOpt None, e)
  | _, _ => Err "expected a lambda and an option"
  end.

(** method_call.rs 10-17, property_call.rs 10-15. *)
Definition eval_method (m : smethod) (obj : value) (args : list value) (e : env) : res (value * env) :=
  if (sm_code m =? 12) && (sm_id m =? 15) then flat_map obj args e
  else if (sm_code m =? 36) && (sm_id m =? 7) then option_map_m obj args e
  else if (sm_code m =? 36) && (sm_id m =? 8) then option_filter_m obj args e
  else v <- method_value c m obj args ;; Ok (v, e).

(** bin_op.rs 173-320. *)
Definition eval_bin (k : bink) (l r : expr) (e : env) : res (value * env) :=
  '(lv, e) <- rec l e ;;
  match k with
  | BAnd =>
      a <- get_bool lv ;;
      if a then '(rv, e) <- rec r e ;; b <- get_bool rv ;; Ok (VBool b, e) else Ok (VBool false, e)
  | BOr =>
      a <- get_bool lv ;;
      if a then Ok (VBool true, e) else '(rv, e) <- rec r e ;; b <- get_bool rv ;; Ok (VBool b, e)
  | BXor =>
      a <- get_bool lv ;; '(rv, e) <- rec r e ;; b <- get_bool rv ;; Ok (VBool (xorb a b), e)
  | BEq => '(rv, e) <- rec r e ;; Ok (VBool (value_eqb lv rv), e)
  | BNEq => '(rv, e) <- rec r e ;; Ok (VBool (negb (value_eqb lv rv)), e)
  | BGe | BGt | BLe | BLt =>
      '(rv, e) <- rec r e ;;
      '(n, a) <- of_option "numeric" (num_of lv) ;;
      b <- get_num n rv ;; Ok (VBool (compare_op k a b), e)
  | _ =>
      '(n, a) <- of_option "numeric" (num_of lv) ;;
      '(rv, e) <- rec r e ;;
      b <- get_num n rv ;;
      z <- of_option "ArithmeticException" (arith fits k n a b) ;;
      Ok (mk_num n z, e)
  end.

(** block.rs 13-58: the definitions of a block; at top level (empty environment)
    nothing is restored. *)
Fixpoint block_top (items : list expr) (e : env) : res env :=
  match items with
  | [] => Ok e
  | EValDef i rhs :: items' => '(v, e) <- rec rhs e ;; block_top items' (env_insert e i v)
  | _ :: _ => Err "expected ValDef"
  end.
Fixpoint block_nested (items : list expr) (s : env * list Z * env) : res (env * list Z * env) :=
  match items with
  | [] => Ok s
  | EValDef i rhs :: items' =>
      let '(e, fresh, saved) := s in
      '(v, e) <- rec rhs e ;; block_nested items' (bind_var i v (e, fresh, saved))
  | _ :: _ => Err "expected ValDef"
  end.
Definition eval_block (items : list expr) (r : expr) (e : env) : res (value * env) :=
  if env_is_empty e then e <- block_top items e ;; rec r e
  else '(e, fresh, saved) <- block_nested items (e, [], []) ;;
       '(v, e) <- rec r e ;; Ok (v, restore e fresh saved).
(** apply.rs 11-48. *)
Definition eval_apply (f : expr) (args : list expr) (e : env) : res (value * env) :=
  '(fv, e) <- rec f e ;;
  '(vs, e) <- eval_list args e ;;
  match fv with
  | VLambda params body =>
      let '(e, fresh, saved) :=
        fold_left (fun s p => bind_var (fst p) (snd p) s) (combine (map fst params) vs) (e, [], []) in
      '(v, e) <- rec body e ;; Ok (v, restore e fresh saved)
  | _ => Err "expected a lambda"
  end.

(** deserialize_context.rs 13-38, deserialize_register.rs 16-70: the bytes are
    parsed and the expression evaluated in place.  The message for a register of
    the wrong type pretty prints the expression. *)
Definition script_const (k : const) : res bytes :=
  if stype_eqb (c_tpe k) cbyte then
    match c_val k with LCollBytes l => Ok (as_u8s l) | _ => Err "expected bytes" end
  else Err "expected Coll[Byte]".
Definition eval_deser_context (t : stype) (id : Z) (e : env) : res (value * env) :=
  match ext_get (c_ext c) id with
  | Some k =>
      b <- script_const k ;;
      x <- from_bytes parse_expr b ;;
      if stype_eqb (tpe x) t then rec x e else Err "unexpected type"
  | None => Err "no value in context extension"
  end.
Definition eval_default (t : stype) (d : option expr) (e : env) : res (value * env) :=
  match d with
  | Some x => if stype_eqb (tpe x) t then rec x e else Err "unexpected type of default"
  | None => Err "register is empty"
  end.
Definition eval_deser_register (r : Z) (t : stype) (d : option expr) (e : env) : res (value * env) :=
  id <- reg_id_of_u8 r ;;
  match get_register (snd (c_self c)) id with
  | Ok (Some k) =>
      b <- script_const k ;;
      x <- from_bytes parse_expr b ;;
      if stype_eqb (tpe x) t then rec x e else _ <- pretty_print x ;; Err "unexpected type"
  | Ok None | Err _ => eval_default t d e
  | Panic => Panic
  end.

(** Nodes without operands (global_vars.rs 10-23, get_var.rs 10-22). *)
Definition op0 (k : opk) (p : payload) : res value :=
  match k, p with
  | OHeight, _ => Ok (VInt (wraps 32 (c_height c)))
  | OSelfBox, _ => Ok (VBox (c_self c))
  | OOutputs, _ => Ok (boxes_value (c_outputs c))
  | OInputs, _ => Ok (boxes_value (c_inputs c))
  | OMinerPubKey, _ => b <- ec_write (ph_miner_pk (fst (c_state c))) ;; Ok (vbytes b)
  | OGroupGenerator, _ => Ok (VGroup ggen)
  | OGlobal, _ => Ok VGlobal
  | OContext, _ => Ok VContext
  | OGetVar, PU8Type id t =>
      match ext_get (c_ext c) id with
      | None => Ok (VOpt None)
      | Some k => if stype_eqb (c_tpe k) t then Ok (VOpt (Some (value_of_lit (c_val k)))) else Err "GetVar: type"
      end
  | _, _ => Err "not a node without operands"
  end.

(** create_avl_tree.rs 13-35, tree_lookup.rs 16-57, create_prove_dh_tuple.rs 12-20:
    every operand is converted before the next one is evaluated. *)
Definition eval_as {A} (f : value -> res A) (x : expr) (e : env) : res (A * env) :=
  '(v, e) <- rec x e ;; a <- f v ;; Ok (a, e).
Definition eval_create_avl (fl dg kl : expr) (vl : option expr) (e : env) : res (value * env) :=
  '(f, e) <- eval_as get_byte fl e ;;
  '(d, e) <- eval_as get_i8s dg e ;;
  '(k, e) <- eval_as get_int kl e ;;
  '(o, e) <- match vl with
             | Some x => '(n, e) <- eval_as get_int x e ;; Ok (Some (wrapu 32 n), e)
             | None => Ok (None, e)
             end ;;
  d <- digest33 (as_u8s d) ;;
  Ok (VAvl (Avl d (parse_flags (wrapu 8 f)) (wrapu 32 k) o), e).
Definition eval_tree_lookup (t k p : expr) (e : env) : res (value * env) :=
  '(a, e) <- eval_as get_avl t e ;;
  '(k, e) <- eval_as get_u8s k e ;;
  '(p, e) <- eval_as get_u8s p e ;;
  r <- avl_lookup1 a k p ;; Ok (opt_bytes r, e).
Definition eval_dh_tuple (g h u v : expr) (e : env) : res (value * env) :=
  '(g, e) <- eval_as get_group g e ;;
  '(h, e) <- eval_as get_group h e ;;
  '(u, e) <- eval_as get_group u e ;;
  '(v, e) <- eval_as get_group v e ;;
  Ok (VSigma (SLeaf (Dht g h u v)), e).
Definition eval_by_index (a i : expr) (d : option expr) (e : env) : res (value * env) :=
  '(av, e) <- rec a e ;; '(iv, e) <- rec i e ;;
  '(_, l) <- get_coll av ;;
  '(dv, e) <- match d with
              | Some x => '(v, e) <- rec x e ;; Ok (Some v, e)
              | None => Ok (None, e)
              end ;;
  n <- get_int iv ;; v <- by_index l n dv ;; Ok (v, e).
(** if_op.rs 10-19. *)
Definition eval_if (b t f : expr) (e : env) : res (value * env) :=
  '(bv, e) <- rec b e ;; b <- get_bool bv ;; if b then rec t e else rec f e.

Definition eval_op (k : opk) (p : payload) (args : list expr) (d : option expr) (e : env) : res (value * env) :=
  match k, p, args, d with
  | ODeserializeContext, PTypeU8 t id, [], _ => eval_deser_context t id e
  | ODeserializeRegister, PU8Type r t, [], d => eval_deser_register r t d e
  | OIf, _, [b; t; f], _ => eval_if b t f e
  | OFold, _, [a; z; f], _ => eval_fold a z f e
  | OByIndex, _, [a; i], d => eval_by_index a i d e
  | OTreeLookup, _, [t; k; p], _ => eval_tree_lookup t k p e
  | OCreateAvlTree, _, [f; g; kl], d => eval_create_avl f g kl d e
  | OCreateProveDhTuple, _, [g; h; u; v], _ => eval_dh_tuple g h u v e
  | k, p, [], _ => v <- op0 k p ;; Ok (v, e)
  | k, p, [a], _ => '(v, e) <- rec a e ;; r <- op1 k p v ;; Ok (r, e)
  | k, _, [a; b], _ =>
      if is_lambda_op k then eval_lambda_op k a b e
      else '(v, e) <- rec a e ;; '(w, e) <- rec b e ;; r <- op2 k v w ;; Ok (r, e)
  | k, _, [a; b; x], _ =>
      '(v, e) <- rec a e ;; '(w, e) <- rec b e ;; '(y, e) <- rec x e ;; r <- op3 k v w y ;; Ok (r, e)
  | _, _, _, _ => Err "no such node"
  end.

(** collection.rs 14-37, tuple.rs 9-14, sigma_and.rs and sigma_or.rs 12-22. *)
Definition seq_value (q : seqk) (vs : list value) : res value :=
  match q with
  | QTuple => Ok (VTup vs)
  | QSigmaAnd => ss <- get_all get_sigma vs ;; s <- cand_normalized ss ;; Ok (VSigma s)
  | QSigmaOr => ss <- get_all get_sigma vs ;; s <- cor_normalized ss ;; Ok (VSigma s)
  | QColl t => from_vec t vs
  end.

(** [Expr::eval] (expr.rs 13-90). *)
Definition eval_step (x : expr) (e : env) : res (value * env) :=
  match x with
  | EConst k => Ok (value_of_lit (c_val k), e)
  | EPlaceholder _ _ => Err "ConstPlaceholder is not supported"
  | EOp k p args d => eval_op k p args d e
  | EBin k l r => eval_bin k l r e
  | EBools bs => Ok (VColl SBoolean (map VBool bs), e)
  | ESeq q items => '(vs, e) <- eval_list items e ;; v <- seq_value q vs ;; Ok (v, e)
  (* func_value.rs 10-17 *)
  | EFunc args body => Ok (VLambda args body, e)
  | EValDef _ _ => Err "ValDef should be evaluated in BlockValue"
  (* val_use.rs 9-15 *)
  | EValUse i _ => v <- of_option "no value in env" (env_get e i) ;; Ok (v, e)
  | EBlock items r => eval_block items r e
  | EApply f args => eval_apply f args e
  | EMethod m obj args =>
      '(ov, e) <- rec obj e ;; '(vs, e) <- eval_list args e ;; eval_method m ov vs e
  | EProp m obj => '(ov, e) <- rec obj e ;; eval_method m ov [] e
  end.
End Step.

Definition fuel_err : string := "out of fuel".
Fixpoint eval (fuel : nat) (x : expr) (e : env) : res (value * env) :=
  match fuel with
  | O => Err fuel_err
  | S n => eval_step (eval n) x e
  end.

(** [reduce_to_crypto] (eval.rs 129-187).  A script that reduces to false is pretty
    printed; a script that fails is pretty printed and evaluated again with source
    positions, and an error without a position, which is what a result of the
    wrong type is, panics (error.rs 167-178).  The re-evaluated expression differs
    from the first only in source positions and in collections of boolean
    constants, which evaluate alike; it is not evaluated again here. *)
Definition reduce_to_crypto (fuel : nat) (x : expr) : res sbool :=
  match eval fuel x [] with
  | Ok (VBool b, _) => if b then Ok (Triv true) else _ <- pretty_print x ;; Ok (Triv false)
  | Ok (VSigma s, _) =>
      match s with
      | Triv false => _ <- pretty_print x ;; Ok (Triv false)
      | _ => Ok s
      end
  | Ok _ => Panic
  | Err err => _ <- pretty_print x ;; Err err
  | Panic => Panic
  end.
End Eval.
Arguments value G : clear implicits.
Arguments env G : clear implicits.
Arguments chain_state G : clear implicits.
