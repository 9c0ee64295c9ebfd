(** The intermediate representation: values, constants, expressions, scripts
    (ErgoTree), register values and boxes, with the type of every expression.
    ergotree-ir/src/mir/*.rs, ergotree-ir/src/ergo_tree.rs,
    ergotree-ir/src/ergo_tree/tree_header.rs, ergotree-ir/src/chain/ergo_box.rs. *)
From Verif Require Import Base VlqModel GroupModel SigmaModel TypeModel MethodModel.
Local Open Scope string_scope.
Local Open Scope list_scope.
Local Open Scope Z_scope.

(** [AvlTreeData] (mir/avl_tree_data.rs 59-68). *)
Record avl := Avl {
  av_digest : bytes;
  av_flags : Z;
  av_key_len : Z;
  av_val_len : option Z;
}.

(** [ErgoTreeHeader] (ergo_tree/tree_header.rs 25-31). *)
Record theader := THeader {
  th_version : Z;
  th_seg : bool;
  th_size : bool;
}.

(** The operations whose encoding is: op code, children in order, a fixed payload
    and, for three of them, an optional child.  One constructor per struct in
    ergotree-ir/src/mir. *)
Inductive opk :=
| OHeight | OInputs | OOutputs | OSelfBox | OMinerPubKey | OGroupGenerator
| OGlobal | OContext
| OBitInversion | ONegation | OBoolToSigmaProp | OByteArrayToBigInt | OByteArrayToLong
| OCalcBlake2b256 | OCalcSha256 | ODecodePoint | OSizeOf | OCreateProveDlog
| OExtractAmount | OExtractBytes | OExtractBytesWithNoRef | OExtractId
| OExtractScriptBytes | OExtractCreationInfo | OLogicalNot | OLongToByteArray
| OOptionGet | OOptionIsDefined | OSigmaPropBytes
| OAnd | OOr | OXorOf
| OAtleast | OAppend | OExists | OForAll | OFilter | OMap | OOptionGetOrElse | OXor
| OExponentiate | OMultiplyGroup
| OFold | OIf | OSlice | OSubstConstants | OTreeLookup
| OCreateProveDhTuple
| OCreateAvlTree | OByIndex | ODeserializeRegister
| ODeserializeContext | OGetVar | OExtractRegisterAs | OUpcast | ODowncast | OSelectField.

Definition all_ops : list opk :=
  [ OHeight; OInputs; OOutputs; OSelfBox; OMinerPubKey; OGroupGenerator; OGlobal; OContext;
    OBitInversion; ONegation; OBoolToSigmaProp; OByteArrayToBigInt; OByteArrayToLong;
    OCalcBlake2b256; OCalcSha256; ODecodePoint; OSizeOf; OCreateProveDlog; OExtractAmount;
    OExtractBytes; OExtractBytesWithNoRef; OExtractId; OExtractScriptBytes;
    OExtractCreationInfo; OLogicalNot; OLongToByteArray; OOptionGet; OOptionIsDefined;
    OSigmaPropBytes; OAnd; OOr; OXorOf; OAtleast; OAppend; OExists; OForAll; OFilter; OMap;
    OOptionGetOrElse; OXor; OExponentiate; OMultiplyGroup; OFold; OIf; OSlice;
    OSubstConstants; OTreeLookup; OCreateProveDhTuple; OCreateAvlTree; OByIndex;
    ODeserializeRegister; ODeserializeContext; OGetVar; OExtractRegisterAs; OUpcast;
    ODowncast; OSelectField ].

(** The fixed payload after the children. *)
Inductive payload :=
| PNone
| PType (t : stype)               (* Upcast, Downcast *)
| PI8Type (r : Z) (t : stype)     (* ExtractRegisterAs *)
| PU8Type (r : Z) (t : stype)     (* GetVar, DeserializeRegister *)
| PTypeU8 (t : stype) (r : Z)     (* DeserializeContext *)
| PIndex (i : Z).                 (* SelectField, one based *)
Inductive paykind := KNone | KType | KI8Type | KU8Type | KTypeU8 | KIndex.

(** Op codes, 112 + shift (serialization/op_code.rs 15-175). *)
Definition op_code (k : opk) : Z :=
  112 + match k with
  | OSubstConstants => 4 | OLongToByteArray => 10 | OByteArrayToBigInt => 11
  | OByteArrayToLong => 12 | ODowncast => 13 | OUpcast => 14 | OGroupGenerator => 18
  | OSelectField => 28 | OIf => 37 | OAnd => 38 | OOr => 39 | OAtleast => 40
  | OXor => 43 | OExponentiate => 47 | OMultiplyGroup => 48 | OHeight => 51
  | OInputs => 52 | OOutputs => 53 | OSelfBox => 55 | OMinerPubKey => 60 | OMap => 61
  | OExists => 62 | OForAll => 63 | OFold => 64 | OSizeOf => 65 | OByIndex => 66
  | OAppend => 67 | OSlice => 68 | OFilter => 69 | OCreateAvlTree => 70
  | OTreeLookup => 71 | OExtractAmount => 81 | OExtractScriptBytes => 82
  | OExtractBytes => 83 | OExtractBytesWithNoRef => 84 | OExtractId => 85
  | OExtractRegisterAs => 86 | OExtractCreationInfo => 87 | OCalcBlake2b256 => 91
  | OCalcSha256 => 92 | OCreateProveDlog => 93 | OCreateProveDhTuple => 94
  | OSigmaPropBytes => 96 | OBoolToSigmaProp => 97 | ODeserializeContext => 100
  | ODeserializeRegister => 101 | OGlobal => 109 | OGetVar => 115 | OOptionGet => 116
  | OOptionGetOrElse => 117 | OOptionIsDefined => 118 | ODecodePoint => 126
  | OLogicalNot => 127 | ONegation => 128 | OBitInversion => 129 | OContext => 142
  | OXorOf => 143
  end.

Definition op_of_code (c : Z) : option opk := find (fun k => op_code k =? c) all_ops.

(** Number of mandatory children. *)
Definition op_arity (k : opk) : nat :=
  match k with
  | OHeight | OInputs | OOutputs | OSelfBox | OMinerPubKey | OGroupGenerator
  | OGlobal | OContext | ODeserializeRegister | ODeserializeContext | OGetVar => 0
  | OAtleast | OAppend | OExists | OForAll | OFilter | OMap | OOptionGetOrElse | OXor
  | OExponentiate | OMultiplyGroup | OByIndex => 2
  | OFold | OIf | OSlice | OSubstConstants | OTreeLookup | OCreateAvlTree => 3
  | OCreateProveDhTuple => 4
  | _ => 1
  end%nat.

Definition op_pay (k : opk) : paykind :=
  match k with
  | OUpcast | ODowncast => KType
  | OExtractRegisterAs => KI8Type
  | OGetVar | ODeserializeRegister => KU8Type
  | ODeserializeContext => KTypeU8
  | OSelectField => KIndex
  | _ => KNone
  end.

Definition pay_kind (p : payload) : paykind :=
  match p with
  | PNone => KNone | PType _ => KType | PI8Type _ _ => KI8Type | PU8Type _ _ => KU8Type
  | PTypeU8 _ _ => KTypeU8 | PIndex _ => KIndex
  end.

(** Operations with a trailing [Option<Box<Expr>>]. *)
Definition op_has_opt (k : opk) : bool :=
  match k with OCreateAvlTree | OByIndex | ODeserializeRegister => true | _ => false end.

(** [BinOpKind] (mir/bin_op.rs 20-170) and its op codes. *)
Inductive bink :=
| BPlus | BMinus | BMultiply | BDivide | BMax | BMin | BModulo
| BEq | BNEq | BGe | BGt | BLe | BLt
| BAnd | BOr | BXor
| BBitOr | BBitAnd | BBitXor.
Definition all_binks : list bink :=
  [ BPlus; BMinus; BMultiply; BDivide; BMax; BMin; BModulo; BEq; BNEq; BGe; BGt; BLe; BLt;
    BAnd; BOr; BXor; BBitOr; BBitAnd; BBitXor ].
Definition bin_code (k : bink) : Z :=
  112 + match k with
  | BLt => 31 | BLe => 32 | BGt => 33 | BGe => 34 | BEq => 35 | BNEq => 36
  | BMinus => 41 | BPlus => 42 | BMultiply => 44 | BDivide => 45 | BModulo => 46
  | BMin => 49 | BMax => 50 | BOr => 124 | BAnd => 125 | BBitOr => 130 | BBitAnd => 131
  | BXor => 132 | BBitXor => 133
  end.
Definition bin_of_code (c : Z) : option bink := find (fun k => bin_code k =? c) all_binks.
(** [BinOp::tpe] (mir/bin_op.rs 221-228). *)
Definition bin_is_bool (k : bink) : bool :=
  match k with
  | BEq | BNEq | BGe | BGt | BLe | BLt | BAnd | BOr | BXor => true
  | _ => false
  end.

(** Sequences of children with a count: [Tuple], [SigmaAnd], [SigmaOr] and
    [Collection::Exprs] (with its element type). *)
Inductive seqk := QTuple | QSigmaAnd | QSigmaOr | QColl (t : stype).

(** Op codes of the remaining nodes. *)
Definition code_val_use := 114.
Definition code_placeholder := 115.
Definition code_coll := 131.
Definition code_bools := 133.
Definition code_tuple := 134.
Definition code_val_def := 214.
Definition code_block := 216.
Definition code_func := 217.
Definition code_apply := 218.
Definition code_prop := 219.
Definition code_method := 220.
Definition code_sigma_and := 234.
Definition code_sigma_or := 235.
Definition last_constant_code := 112.

Section Ir.
Context {G : group}.

(** [Literal] (mir/constant.rs 54-83; [Coll[Byte]] is the native kind of
    mir/value.rs 31), [Constant] (mir/constant.rs 45-50), [Expr] (mir/expr.rs
    88-227), [ErgoTree] (ergo_tree.rs 29-34, 113-125, without the error stored in
    an unparsed tree), [RegisterValue] (chain/ergo_box/register/value.rs 11-33,
    without the error message and without the constant cached in an evaluated
    tuple, which is a function of the tuple), [ErgoBoxCandidate] and [ErgoBox]
    (chain/ergo_box.rs 60-78, 229-240, without the cached identifier; absent
    tokens are the empty list).  Source positions are left out. *)
Inductive lit :=
| LUnit
| LBool (b : bool)
| LByte (z : Z)
| LShort (z : Z)
| LInt (z : Z)
| LLong (z : Z)
| LBigInt (z : Z)
| LSigma (s : sbool G)
| LGroup (p : G)
| LAvl (a : avl)
| LBox (b : box)
| LCollBytes (l : list Z)
| LColl (t : stype) (items : list lit)
| LOpt (o : option lit)
| LTup (items : list lit)
with const := MkConst (t : stype) (v : lit)
with expr :=
| EConst (c : const)
| EPlaceholder (id : Z) (t : stype)
| EOp (k : opk) (p : payload) (args : list expr) (d : option expr)
| EBin (k : bink) (l r : expr)
| EBools (bs : list bool)
| ESeq (q : seqk) (items : list expr)
| EFunc (args : list (Z * stype)) (body : expr)
| EValDef (id : Z) (rhs : expr)
| EValUse (id : Z) (t : stype)
| EBlock (items : list expr) (result : expr)
| EApply (f : expr) (args : list expr)
| EMethod (m : smethod) (obj : expr) (args : list expr)
| EProp (m : smethod) (obj : expr)
with tree :=
| Unparsed (bs : bytes)
| Parsed (h : theader) (cs : list const) (root : expr)
with regval :=
| RParsed (c : const)
| RTuple (items : list expr)
| RInvalid (bs : bytes)
with cand :=
| MkCand (value : Z) (t : tree) (tokens : list (bytes * Z)) (regs : list regval) (height : Z)
with box :=
| MkBox (c : cand) (txid : bytes) (index : Z).

Definition c_tpe (c : const) : stype := let 'MkConst t _ := c in t.
Definition c_val (c : const) : lit := let 'MkConst _ v := c in v.

(** [SType::SFunc] evaluates to its range: [Expr::post_eval_tpe]
    (mir/expr.rs 303-308). *)
Definition pe (t : stype) : stype := match t with SFunc _ r => r | _ => t end.

Definition need (b : bool) (t : stype) : res stype := if b then Ok t else Err "InvalidArgument".
Definition is_coll (t : stype) : bool := match t with SColl _ => true | _ => false end.

(** The checks made when a node is built by the parser, and the node's type.
    One line per struct of ergotree-ir/src/mir: [try_build] or [new] when the
    parser calls it, [tpe] otherwise. *)
Definition op_ty (k : opk) (p : payload) (ts : list stype) (d : option stype) : res stype :=
  match k, p, ts, d with
  (* mir/global_vars.rs 41-51, mir/expr.rs 239-240 *)
  | OHeight, PNone, [], None => Ok SInt
  | OInputs, PNone, [], None => Ok (SColl SBox)
  | OOutputs, PNone, [], None => Ok (SColl SBox)
  | OSelfBox, PNone, [], None => Ok SBox
  | OMinerPubKey, PNone, [], None => Ok cbyte
  | OGroupGenerator, PNone, [], None => Ok SGroupElement
  | OGlobal, PNone, [], None => Ok SGlobal
  | OContext, PNone, [], None => Ok SContext
  (* mir/bit_inversion.rs, mir/negation.rs *)
  | OBitInversion, PNone, [a], None => need (is_numeric (pe a)) (pe a)
  | ONegation, PNone, [a], None => need (is_numeric (pe a)) (pe a)
  (* mir/bool_to_sigma.rs *)
  | OBoolToSigmaProp, PNone, [a], None => need (stype_eqb (pe a) SBoolean) SSigmaProp
  (* mir/byte_array_to_bigint.rs, byte_array_to_long.rs, calc_blake2b256.rs,
     calc_sha256.rs, decode_point.rs *)
  | OByteArrayToBigInt, PNone, [a], None => need (stype_eqb (pe a) cbyte) SBigInt
  | OByteArrayToLong, PNone, [a], None => need (stype_eqb (pe a) cbyte) SLong
  | OCalcBlake2b256, PNone, [a], None => need (stype_eqb (pe a) cbyte) cbyte
  | OCalcSha256, PNone, [a], None => need (stype_eqb (pe a) cbyte) cbyte
  | ODecodePoint, PNone, [a], None => need (stype_eqb (pe a) cbyte) SGroupElement
  (* mir/coll_size.rs *)
  | OSizeOf, PNone, [a], None => need (is_coll (pe a)) SInt
  (* mir/create_provedlog.rs *)
  | OCreateProveDlog, PNone, [a], None => need (stype_eqb (pe a) SGroupElement) SSigmaProp
  (* mir/extract_*.rs *)
  | OExtractAmount, PNone, [a], None => need (stype_eqb (pe a) SBox) SLong
  | OExtractBytes, PNone, [a], None => need (stype_eqb (pe a) SBox) cbyte
  | OExtractBytesWithNoRef, PNone, [a], None => need (stype_eqb (pe a) SBox) cbyte
  | OExtractId, PNone, [a], None => need (stype_eqb (pe a) SBox) cbyte
  | OExtractScriptBytes, PNone, [a], None => need (stype_eqb (pe a) SBox) cbyte
  | OExtractCreationInfo, PNone, [a], None => need (stype_eqb (pe a) SBox) (STuple [SInt; cbyte])
  (* mir/logical_not.rs, long_to_byte_array.rs *)
  | OLogicalNot, PNone, [a], None => need (stype_eqb (pe a) SBoolean) SBoolean
  | OLongToByteArray, PNone, [a], None => need (stype_eqb (pe a) SLong) cbyte
  (* mir/option_get.rs, option_is_defined.rs *)
  | OOptionGet, PNone, [a], None =>
      match pe a with SOption t => Ok t | _ => Err "InvalidArgument" end
  | OOptionIsDefined, PNone, [a], None =>
      match pe a with SOption _ => Ok SBoolean | _ => Err "InvalidArgument" end
  (* mir/sigma_prop_bytes.rs *)
  | OSigmaPropBytes, PNone, [a], None => need (stype_eqb (pe a) SSigmaProp) cbyte
  (* mir/and.rs, or.rs, xor_of.rs: not checked by the parser *)
  | OAnd, PNone, [_], None => Ok SBoolean
  | OOr, PNone, [_], None => Ok SBoolean
  | OXorOf, PNone, [_], None => Ok SBoolean
  (* mir/atleast.rs *)
  | OAtleast, PNone, [b; i], None =>
      need (stype_eqb (pe i) (SColl SSigmaProp) && stype_eqb (pe b) SInt) SSigmaProp
  (* mir/coll_append.rs *)
  | OAppend, PNone, [a; b], None =>
      match pe a, pe b with
      | SColl x, SColl y => need (stype_eqb x y) a
      | _, _ => Err "InvalidArgument"
      end
  (* mir/coll_exists.rs, coll_forall.rs, coll_filter.rs *)
  | OExists, PNone, [a; f], None =>
      match pe a with
      | SColl t => need (stype_eqb f (SFunc [t] SBoolean)) SBoolean
      | _ => Err "InvalidArgument"
      end
  | OForAll, PNone, [a; f], None =>
      match pe a with
      | SColl t => need (stype_eqb f (SFunc [t] SBoolean)) SBoolean
      | _ => Err "InvalidArgument"
      end
  | OFilter, PNone, [a; f], None =>
      match pe a with
      | SColl t => need (stype_eqb f (SFunc [t] SBoolean)) (SColl t)
      | _ => Err "InvalidArgument"
      end
  (* mir/coll_map.rs *)
  | OMap, PNone, [a; f], None =>
      match pe a, f with
      | SColl t, SFunc d r => need (leqb stype_eqb d [t]) (SColl r)
      | _, _ => Err "InvalidArgument"
      end
  (* mir/option_get_or_else.rs *)
  | OOptionGetOrElse, PNone, [a; b], None =>
      match pe a with
      | SOption t => need (stype_eqb (pe b) t) t
      | _ => Err "InvalidArgument"
      end
  (* mir/xor.rs *)
  | OXor, PNone, [a; b], None =>
      need (stype_eqb (pe a) cbyte && stype_eqb (pe b) cbyte) cbyte
  (* mir/exponentiate.rs, multiply_group.rs: not checked by the parser *)
  | OExponentiate, PNone, [a; _], None => Ok a
  | OMultiplyGroup, PNone, [a; _], None => Ok a
  (* mir/coll_fold.rs, if_op.rs: not checked by the parser *)
  | OFold, PNone, [_; z; _], None => Ok z
  | OIf, PNone, [_; t; _], None => Ok t
  (* mir/coll_slice.rs *)
  | OSlice, PNone, [a; f; u], None =>
      need (is_coll (pe a) && stype_eqb (pe f) SInt && stype_eqb (pe u) SInt) a
  (* mir/subst_const.rs *)
  | OSubstConstants, PNone, [s; ps; vs], None =>
      need (stype_eqb (pe s) cbyte && stype_eqb (pe ps) (SColl SInt) && is_coll (pe vs)) cbyte
  (* mir/tree_lookup.rs: not checked by the parser *)
  | OTreeLookup, PNone, [_; _; _], None => Ok (SOption cbyte)
  (* mir/create_prove_dh_tuple.rs: not checked by the parser *)
  | OCreateProveDhTuple, PNone, [_; _; _; _], None => Ok SSigmaProp
  (* mir/create_avl_tree.rs *)
  | OCreateAvlTree, PNone, [f; g; kl], _ =>
      need (stype_eqb (pe f) SByte && stype_eqb (pe g) cbyte && stype_eqb (pe kl) SInt &&
            match d with Some v => stype_eqb (pe v) SInt | None => true end) SAvlTree
  (* mir/coll_by_index.rs *)
  | OByIndex, PNone, [a; i], _ =>
      match pe a with
      | SColl t =>
          need (stype_eqb (pe i) SInt &&
                match d with Some v => stype_eqb (pe v) t | None => true end) t
      | _ => Err "InvalidArgument"
      end
  (* mir/deserialize_register.rs, deserialize_context.rs, get_var.rs *)
  | ODeserializeRegister, PU8Type _ t, [], _ => Ok t
  | ODeserializeContext, PTypeU8 t _, [], None => Ok t
  | OGetVar, PU8Type _ t, [], None => Ok (SOption t)
  (* mir/extract_reg_as.rs *)
  | OExtractRegisterAs, PI8Type _ t, [a], None => need (stype_eqb (pe a) SBox) (SOption t)
  (* mir/upcast.rs, downcast.rs: not checked by the parser *)
  | OUpcast, PType t, [_], None => Ok t
  | ODowncast, PType t, [_], None => Ok t
  (* mir/select_field.rs *)
  | OSelectField, PIndex i, [a], None =>
      match a with
      | STuple l => of_option "InvalidArgument" (nth_error l (Z.to_nat (i - 1)))
      | _ => Err "InvalidArgument"
      end
  | _, _, _, _ => Err "InvalidArgument"
  end.

(** Types of the counted sequences.  [SigmaAnd::new] and [SigmaOr::new]
    (mir/sigma_and.rs 27-46) check the item types; the length is checked by
    [seq_len_ok]. *)
Definition seq_ty (q : seqk) (ts : list stype) : res stype :=
  match q with
  | QTuple => Ok (STuple ts)
  | QSigmaAnd | QSigmaOr =>
      need (forallb (fun t => stype_eqb (pe t) SSigmaProp) ts) SSigmaProp
  | QColl t => Ok (SColl t)
  end.

(** [Apply::new] (mir/apply.rs 27-49). *)
Definition apply_ty (f : stype) (args : list stype) : res stype :=
  match f with
  | SFunc d r => need (leqb stype_eqb d args) r
  | _ => Err "InvalidArgument"
  end.

(** A type is always stored with the node; the default only covers terms that no
    constructor of the code can build. *)
Definition ty_or_any (r : res stype) : stype := match r with Ok t => t | _ => SAny end.

(** [Expr::tpe] (mir/expr.rs 231-300). *)
Fixpoint tpe (e : expr) : stype :=
  match e with
  | EConst c => c_tpe c
  | EPlaceholder _ t => t
  | EOp k p args d =>
      ty_or_any (op_ty k p (map tpe args) (match d with Some x => Some (tpe x) | None => None end))
  | EBin k l _ => if bin_is_bool k then SBoolean else tpe l
  | EBools _ => SColl SBoolean
  | ESeq q items => ty_or_any (seq_ty q (map tpe items))
  | EFunc args body => SFunc (map snd args) (tpe body)
  | EValDef _ rhs => tpe rhs
  | EValUse _ t => t
  | EBlock _ r => tpe r
  | EApply f args => ty_or_any (apply_ty (tpe f) (map tpe args))
  | EMethod m _ _ => sm_range m
  | EProp m _ => sm_range m
  end.

(** [tuple_to_constant] (chain/ergo_box/register/value.rs 128-137): the value of a
    tuple expression made of constants and such tuples. *)
Definition opt_list {A B} (f : A -> option B) : list A -> option (list B) :=
  fix go l :=
    match l with
    | [] => Some []
    | x :: l' =>
        match f x, go l' with Some y, Some l'' => Some (y :: l'') | _, _ => None end
    end.
Fixpoint const_value (e : expr) : option lit :=
  match e with
  | EConst c => Some (c_val c)
  | ESeq QTuple items =>
      match opt_list const_value items with Some l => Some (LTup l) | None => None end
  | _ => None
  end.
Definition tuple_to_constant (items : list expr) : option const :=
  match opt_list const_value items with
  | Some l => Some (MkConst (STuple (map tpe items)) (LTup l))
  | None => None
  end.

End Ir.
Arguments lit G : clear implicits.
Arguments const G : clear implicits.
Arguments expr G : clear implicits.
Arguments tree G : clear implicits.
Arguments regval G : clear implicits.
Arguments cand G : clear implicits.
Arguments box G : clear implicits.

(** ** Tree header (ergo_tree/tree_header.rs) *)
(** [ErgoTreeHeader::new] (53-62) with [parse_version] (134-141). *)
Definition th_new (b : Z) : res theader :=
  let version := Z.land b 7 in
  if version <=? 1 then
    Ok (THeader version (negb (Z.land b 16 =? 0)) (negb (Z.land b 8 =? 0)))
  else Err "InvalidVersion".
(** [serialized] (65-74). *)
Definition th_serialized (h : theader) : Z :=
  let b := th_version h in
  let b := if th_seg h then Z.lor b 16 else b in
  if th_size h then Z.lor b 8 else b.
(** [v0] (77-83) and [v1] (86-92). *)
Definition th_v0 (seg : bool) : theader := THeader 0 seg false.
Definition th_v1 (seg : bool) : theader := THeader 1 seg true.
