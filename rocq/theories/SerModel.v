(** Binary encoding of values, constants, expressions, scripts, registers and
    boxes: ergotree-ir/src/serialization/{data,constant,constant_placeholder,
    constant_store,expr,bin_op,serializable,sigma_byte_reader,val_def_type_store}.rs,
    the [SigmaSerializable] instances of ergotree-ir/src/mir, ergo_tree.rs and
    chain/ergo_box.rs. *)
From Verif Require Import Base VlqModel IntBytes GroupModel SigmaModel TypeModel MethodModel BigIntModel IrModel.
Local Open Scope string_scope.
Local Open Scope list_scope.
Local Open Scope Z_scope.

(** ** Bounds *)
(** [BoxValue::try_from(u64)] (chain/ergo_box/box_value.rs 28-60, 122-131). *)
Definition box_value_min : Z := 10800.
Definition box_value_of (v : Z) : res Z :=
  if (box_value_min <=? v) && (v <=? i64_max) then Ok v else Err "BoxValueOutOfBounds".
(** [TokenAmount::try_from(u64)] (chain/token.rs 136-146). *)
Definition token_amount_of (v : Z) : res Z :=
  if (1 <=? v) && (v <=? i64_max) then Ok v else Err "TokenAmountOutOfBounds".
(** [ErgoBox::MAX_TOKENS_COUNT] (chain/ergo_box.rs 84),
    [NonMandatoryRegisterId::NUM_REGS], [ErgoTree::MAX_CONSTANTS_COUNT]
    (ergo_tree.rs 204). *)
Definition max_tokens : Z := 122.
Definition max_regs : Z := 6.
Definition max_constants : Z := 4096.

Section Ser.
Context {G : group}.
Notation lit := (lit G).
Notation const := (const G).
Notation expr := (expr G).
Notation tree := (tree G).
Notation regval := (regval G).
Notation cand := (cand G).
Notation box := (box G).

(** ** Writers *)

(** Writing an expression may move its constants to the writer's constant store
    (serialization/sigma_byte_writer.rs); [None] is a writer without a store.
    Literals, scripts and boxes are only ever written through a writer without a
    store: a writer that has one writes a placeholder instead of each constant. *)
Definition wst := option (list const).
Definition W := wst -> res (bytes * wst).
Definition wret (bs : bytes) : W := fun s => Ok (bs, s).
Definition wput (r : res bytes) : W := fun s => b <- r ;; Ok (b, s).
Definition wcat (a b : W) : W := fun s =>
  '(x, s) <- a s ;; '(y, s) <- b s ;; Ok (x ++ y, s).
Definition wall {A} (w : A -> W) : list A -> W :=
  fix go l :=
    match l with
    | [] => wret []
    | x :: l' => wcat (w x) (go l')
    end.
Definition wrun (w : W) : res bytes := '(b, _) <- w None ;; Ok b.

(** [ConstantStore::put] (serialization/constant_store.rs 27-34) and the encoding
    of the placeholder it returns (serialization/expr.rs 220-227). *)
Definition put_const (c : const) (own : res bytes) : W := fun s =>
  match s with
  | Some cs =>
      if Zlen cs + 1 <=? 2 ^ 32 - 1 then
        b <- put_u32 (Zlen cs) ;; Ok (code_placeholder :: b, Some (cs ++ [c]))
      else Panic
  | None => b <- own ;; Ok (b, None)
  end.

Definition ser_payload (p : payload) : res bytes :=
  match p with
  | PNone => Ok []
  | PType t => ser_type t
  | PI8Type r t => a <- put_i8 r ;; b <- ser_type t ;; Ok (a ++ b)
  | PU8Type r t => a <- put_u8 r ;; b <- ser_type t ;; Ok (a ++ b)
  | PTypeU8 t r => a <- ser_type t ;; b <- put_u8 r ;; Ok (a ++ b)
  | PIndex i => put_u8 i
  end.

(** [FuncArg] (mir/func_value.rs 29-40); a list is written with a [u32] count
    (serialization/serializable.rs 160-174). *)
Definition ser_arg (a : Z * stype) : res bytes :=
  x <- put_u32 (fst a) ;; y <- ser_type (snd a) ;; Ok (x ++ y).
Definition ser_args (l : list (Z * stype)) : res bytes :=
  n <- put_u32 (wrapu 32 (Zlen l)) ;; b <- write_list ser_arg l ;; Ok (n ++ b).

(** [AvlTreeData] (mir/avl_tree_data.rs 70-77). *)
Definition ser_avl (a : avl) : res bytes :=
  k <- put_u32 (av_key_len a) ;;
  v <- match av_val_len a with
       | Some n => b <- put_u32 n ;; Ok (1 :: b)
       | None => Ok [0]
       end ;;
  Ok (av_digest a ++ [av_flags a] ++ k ++ v).

(** [try_extract_into::<bool>()] (mir/constant.rs 623-631) on a list. *)
Definition lit_bool (l : lit) : option bool := match l with LBool b => Some b | _ => None end.

(** Op code and count of a sequence (mir/tuple.rs 44-48, mir/sigma_and.rs 58-61,
    mir/collection.rs 80-96). *)
Definition seq_prefix (q : seqk) (n : Z) : res bytes :=
  match q with
  | QTuple => b <- put_u8 (wrapu 8 n) ;; Ok (code_tuple :: b)
  | QSigmaAnd => b <- put_u32 (wrapu 32 n) ;; Ok (code_sigma_and :: b)
  | QSigmaOr => b <- put_u32 (wrapu 32 n) ;; Ok (code_sigma_or :: b)
  | QColl t => b <- put_u16 (wrapu 16 n) ;; c <- ser_type t ;; Ok (code_coll :: b ++ c)
  end.

(** Tokens of a box body (chain/ergo_box.rs 310-333): the identifier, or its
    position among the transaction's token identifiers. *)
Fixpoint index_of (ids : list bytes) (id : bytes) : option Z :=
  match ids with
  | [] => None
  | x :: ids' =>
      if leqb Z.eqb x id then Some 0
      else match index_of ids' id with Some i => Some (i + 1) | None => None end
  end.
Definition ser_token (ids : option (list bytes)) (t : bytes * Z) : res bytes :=
  i <- match ids with
       | Some l => match index_of l (fst t) with
                   | Some i => if i <? 2 ^ 32 then put_u32 i else Panic
                   | None => Panic
                   end
       | None => Ok (fst t)
       end ;;
  a <- put_u64 (snd t) ;; Ok (i ++ a).

(** [bin_op_sigma_serialize] (serialization/bin_op.rs 15-40): two Boolean
    constants are written as a bit pair. *)
Definition bool_consts (l r : expr) : option (lit * lit) :=
  match l, r with
  | EConst (MkConst SBoolean a), EConst (MkConst SBoolean b) => Some (a, b)
  | _, _ => None
  end.

Fixpoint ser_lit (v : lit) : res bytes :=
  (* [DataSerializer::sigma_serialize] (serialization/data.rs 28-83) *)
  match v with
  | LUnit => Ok []
  | LBool b => put_u8 (if b then 1 else 0)
  | LByte z => put_i8 z
  | LShort z => put_i16 z
  | LInt z => put_i32 z
  | LLong z => put_i64 z
  | LBigInt z =>
      let bs := to_signed_bytes_be z in
      n <- put_u16 (wrapu 16 (Zlen bs)) ;; Ok (n ++ bs)
  | LGroup p => ec_write p
  | LSigma s => sb_write s
  | LAvl a => ser_avl a
  | LBox b => ser_box b
  | LCollBytes l =>
      n <- put_usize_as_u16_unwrapped (Zlen l) ;; Ok (n ++ map (wrapu 8) l)
  | LColl SBoolean items =>
      n <- put_usize_as_u16_unwrapped (Zlen items) ;;
      bools <- of_option "TryExtractFrom" (opt_list lit_bool items) ;;
      b <- put_bits bools ;; Ok (n ++ b)
  | LColl _ items =>
      n <- put_usize_as_u16_unwrapped (Zlen items) ;;
      b <- write_list ser_lit items ;; Ok (n ++ b)
  | LOpt _ => Err "Option serialization is not supported"
  | LTup items => write_list ser_lit items
  end
with ser_const (c : const) : res bytes :=
  (* serialization/constant.rs 23-26 *)
  match c with MkConst t v => a <- ser_type t ;; b <- ser_lit v ;; Ok (a ++ b) end
with ser_expr (e : expr) : W :=
  (* serialization/expr.rs 218-300 and the instances in ergotree-ir/src/mir *)
  match e with
  | EConst c => put_const c (ser_const c)
  | EPlaceholder id _ => wcat (wret [code_placeholder]) (wput (put_u32 id))
  | EOp k p args d =>
      wcat (wret [op_code k]) (wcat (wall ser_expr args) (wcat (wput (ser_payload p))
        (if op_has_opt k then
           match d with
           | Some x => wcat (wret [1]) (ser_expr x)
           | None => wret [0]
           end
         else wret [])))
  | EBin k l r =>
      wcat (wret [bin_code k])
        match bool_consts l r with
        | Some (a, b) =>
            wput (match lit_bool a, lit_bool b with
                  | Some x, Some y => bs <- put_bits [x; y] ;; Ok (code_bools :: bs)
                  | _, _ => Err "TryExtractFrom"
                  end)
        | None => wcat (ser_expr l) (ser_expr r)
        end
  | EBools bs =>
      wput (n <- put_u16 (wrapu 16 (Zlen bs)) ;; b <- put_bits bs ;;
            Ok (code_bools :: n ++ b))
  | ESeq q items => wcat (wput (seq_prefix q (Zlen items))) (wall ser_expr items)
  | EFunc args body => wcat (wret [code_func]) (wcat (wput (ser_args args)) (ser_expr body))
  | EValDef id rhs => wcat (wret [code_val_def]) (wcat (wput (put_u32 id)) (ser_expr rhs))
  | EValUse id _ => wcat (wret [code_val_use]) (wput (put_u32 id))
  | EBlock items r =>
      wcat (wret [code_block]) (wcat (wput (put_u32 (wrapu 32 (Zlen items))))
        (wcat (wall ser_expr items) (ser_expr r)))
  | EApply f args =>
      wcat (wret [code_apply]) (wcat (ser_expr f)
        (wcat (wput (put_u32 (wrapu 32 (Zlen args)))) (wall ser_expr args)))
  | EMethod m obj args =>
      (* serialization/method_call.rs 14-20 *)
      wcat (wret [code_method; sm_code m; sm_id m]) (wcat (ser_expr obj)
        (wcat (wput (put_u32 (wrapu 32 (Zlen args)))) (wall ser_expr args)))
  | EProp m obj =>
      (* serialization/property_call.rs 14-19 *)
      wcat (wret [code_prop; sm_code m; sm_id m]) (ser_expr obj)
  end
with ser_tree (t : tree) : res bytes :=
  (* ergo_tree.rs 315-344 *)
  match t with
  | Unparsed bs => Ok bs
  | Parsed h cs root =>
      c <- (if th_seg h then
              n <- put_usize_as_u32_unwrapped (Zlen cs) ;;
              b <- write_list ser_const cs ;; Ok (n ++ b)
            else Ok []) ;;
      r <- wrun (ser_expr root) ;;
      n <- (if th_size h then put_usize_as_u32_unwrapped (Zlen (c ++ r)) else Ok []) ;;
      Ok (th_serialized h :: n ++ c ++ r)
  end
with ser_reg (r : regval) : res bytes :=
  (* chain/ergo_box/register.rs 118-127 *)
  match r with
  | RParsed c => ser_const c
  | RTuple items =>
      a <- seq_prefix QTuple (Zlen items) ;;
      b <- wrun (wall ser_expr items) ;; Ok (a ++ b)
  | RInvalid _ => Err "unparseable register value"
  end
with ser_cand (ids : option (list bytes)) (c : cand) : res bytes :=
  (* [serialize_box_with_indexed_digests] (chain/ergo_box.rs 297-335) *)
  match c with
  | MkCand value t tokens regs height =>
      tb <- ser_tree t ;;
      v <- put_u64 value ;;
      h <- put_u32 height ;;
      n <- (if Zlen tokens <=? 255 then put_u8 (Zlen tokens) else Panic) ;;
      tk <- write_list (ser_token ids) tokens ;;
      m <- put_u8 (wrapu 8 (Zlen regs)) ;;
      rg <- write_list ser_reg regs ;;
      Ok (v ++ tb ++ h ++ n ++ tk ++ m ++ rg)
  end
with ser_box (b : box) : res bytes :=
  (* chain/ergo_box.rs 196-210 *)
  match b with
  | MkBox c txid index =>
      x <- ser_cand None c ;; i <- put_u16 index ;; Ok (x ++ txid ++ i)
  end.

(** [sigma_serialize_bytes] of an expression (serialization/serializable.rs
    145-150). *)
Definition ser_expr_bytes (e : expr) : res bytes := wrun (ser_expr e).

(** ** Readers *)

(** The state of a [SigmaByteReader] besides the input (sigma_byte_reader.rs
    9-14): the constant store, the substitution flag and the types of the
    variables defined so far, latest first (val_def_type_store.rs). *)
Record rst := RSt {
  rs_store : list const;
  rs_subst : bool;
  rs_types : list (Z * stype);
}.
Definition P A := rst -> bytes -> res (A * rst * bytes).
Definition pret {A} (a : A) : P A := fun st bs => Ok (a, st, bs).
Definition pbind {A B} (p : P A) (k : A -> P B) : P B := fun st bs =>
  match p st bs with
  | Ok (a, st', bs') => k a st' bs'
  | Err e => Err e
  | Panic => Panic
  end.
Definition lift {A} (r : reader A) : P A := fun st bs => '(a, bs') <- r bs ;; Ok (a, st, bs').
Definition of_res {A} (r : res A) : P A := fun st bs => a <- r ;; Ok (a, st, bs).
Definition pstate : P rst := fun st bs => Ok (st, st, bs).
Definition pset (st' : rst) : P unit := fun _ bs => Ok (tt, st', bs).

Fixpoint pread_n {A} (n : nat) (p : P A) : P (list A) :=
  match n with
  | O => pret []
  | S n' => pbind p (fun x => pbind (pread_n n' p) (fun l => pret (x :: l)))
  end.
Definition peach {A B} (p : A -> P B) : list A -> P (list B) :=
  fix go l :=
    match l with
    | [] => pret []
    | x :: l' => pbind (p x) (fun y => pbind (go l') (fun l'' => pret (y :: l'')))
    end.

Fixpoint ty_lookup (l : list (Z * stype)) (id : Z) : option stype :=
  match l with
  | [] => None
  | (i, t) :: l' => if i =? id then Some t else ty_lookup l' id
  end.
Definition insert_type (id : Z) (t : stype) (st : rst) : rst :=
  RSt (rs_store st) (rs_subst st) ((id, t) :: rs_types st).
Definition insert_args (l : list (Z * stype)) (st : rst) : rst :=
  fold_left (fun st a => insert_type (fst a) (snd a) st) l st.
Definition set_store (cs : list const) (st : rst) : rst :=
  RSt cs (rs_subst st) (rs_types st).
Definition fresh : rst := RSt [] false [].

(** [SigmaBoolean::sigma_parse]; nesting is bounded by the input length. *)
Definition sb_parse : reader (sbool G) := fun bs => sb_read (S (List.length bs)) bs.

(** mir/avl_tree_data.rs 78-89; [AvlTreeFlags::parse] (32-37) keeps three bits. *)
Definition parse_avl : reader avl := fun bs =>
  '(d, bs) <- read_exact 33 bs ;;
  '(f, bs) <- get_u8 bs ;;
  '(k, bs) <- get_u32 bs ;;
  '(t, bs) <- get_u8 bs ;;
  '(v, bs) <- (if t =? 0 then Ok (None, bs) else '(n, bs) <- get_u32 bs ;; Ok (Some n, bs)) ;;
  Ok (Avl d (Z.land f 7) k v, bs).

Definition parse_bigint : reader lit := fun bs =>
  '(n, bs) <- get_u16 bs ;;
  if 32 <? n then Err "serialized BigInt size exceeds 32"
  else '(b, bs) <- read_exact (Z.to_nat n) bs ;;
       z <- of_option "ValueOutOfBounds" (b256_of_bytes b) ;; Ok (LBigInt z, bs).

Definition parse_coll_bytes : reader lit := fun bs =>
  '(n, bs) <- get_u16 bs ;;
  '(b, bs) <- read_exact (Z.to_nat n) bs ;; Ok (LCollBytes (map (wraps 8) b), bs).

Definition parse_coll_bools : reader lit := fun bs =>
  '(n, bs) <- get_u16 bs ;;
  '(b, bs) <- get_bits (Z.to_nat n) bs ;; Ok (LColl SBoolean (map LBool b), bs).

(** Reader of a fixed-format value. *)
Definition rmap_reader {A B} (f : A -> B) (r : reader A) : reader B := fun bs =>
  '(a, bs) <- r bs ;; Ok (f a, bs).

(** [items.try_into()] to [BoundedVec<_, 2, 255>]. *)
Definition pbounded {A} (l : list A) : P (list A) := of_res (bounded l).

(** [DataSerializer::sigma_parse] (serialization/data.rs 85-165). *)
Fixpoint parse_lit (pbox : P box) (t : stype) {struct t} : P lit :=
  match t with
  | SBoolean => lift (rmap_reader (fun b => LBool (negb (b =? 0))) get_u8)
  | SByte => lift (rmap_reader LByte get_i8)
  | SShort => lift (rmap_reader LShort get_i16)
  | SInt => lift (rmap_reader LInt get_i32)
  | SLong => lift (rmap_reader LLong get_i64)
  | SBigInt => lift parse_bigint
  | SUnit => pret LUnit
  | SGroupElement => lift (rmap_reader LGroup ec_read)
  | SSigmaProp => lift (rmap_reader LSigma sb_parse)
  | SColl SByte => lift parse_coll_bytes
  | SColl SBoolean => lift parse_coll_bools
  | SColl e =>
      pbind (lift get_u16) (fun n =>
      pbind (pread_n (Z.to_nat n) (parse_lit pbox e)) (fun l => pret (LColl e l)))
  | STuple ts =>
      pbind (peach (parse_lit pbox) ts) (fun l => pbind (pbounded l) (fun l => pret (LTup l)))
  | SBox => pbind pbox (fun b => pret (LBox b))
  | SAvlTree => lift (rmap_reader LAvl parse_avl)
  | _ => of_res (Err "NotSupported")
  end.

(** *** Parsers parameterised by the expression parser [rec]. *)
Section Rec.
Variable rec : P expr.

(** [Constant::sigma_parse] (serialization/constant.rs 28-32).  An expression
    whose first byte is a type code is the constant with that type, so the
    expression parser is used once the first byte has been checked. *)
Definition const_of : P const := fun st bs =>
  match bs with
  | [] => Err "UnexpectedEof"
  | c :: _ =>
      if is_type_code c then
        match rec st bs with
        | Ok (EConst k, st', bs') => Ok (k, st', bs')
        | Ok _ => Err "unreachable"
        | Err e => Err e
        | Panic => Panic
        end
      else Err "InvalidTypeCode"
  end.

(** [ErgoTree::sigma_parse_constants] (ergo_tree.rs 156-173). *)
Definition parse_constants : P (list const) :=
  pbind (lift get_u32) (fun n =>
  if max_constants <? n then of_res (Err "too many constants")
  else pread_n (Z.to_nat n) const_of).

(** The body of a script after the header: [sigma_parse_sized] (ergo_tree.rs
    138-154) and the unsized branch of [sigma_parse] (369-380). *)
Definition parse_body (h : theader) : P tree :=
  pbind (if th_seg h then parse_constants else pret []) (fun cs =>
  pbind pstate (fun st =>
  pbind (pset (set_store cs st)) (fun _ =>
  pbind rec (fun root => pret (Parsed h cs root))))).

(** [ErgoTreeHeader::sigma_parse] (tree_header.rs 39-45). *)
Definition parse_header : reader theader := fun bs =>
  '(b, bs) <- get_u8 bs ;; h <- th_new b ;; Ok (h, bs).

(** [ErgoTree::sigma_parse] (ergo_tree.rs 346-382).  The body of a script with the
    size flag is read by a new reader; bytes it leaves unread are dropped. *)
Definition parse_tree : P tree :=
  pbind (lift parse_header) (fun h =>
  if th_size h then
    pbind (lift get_u32) (fun n =>
    pbind (lift (read_exact (Z.to_nat n))) (fun buf =>
    match parse_body h fresh buf with
    | Ok (t, _, _) => pret t
    | Err _ =>
        pbind (of_res (put_u32 n)) (fun nb => pret (Unparsed (th_serialized h :: nb ++ buf)))
    | Panic => of_res Panic
    end))
  else parse_body h).

(** Registers (chain/ergo_box/register.rs 131-157). *)
Definition reg_of (e : expr) : res regval :=
  match e with
  | EConst c => Ok (RParsed c)
  | ESeq QTuple items =>
      match tuple_to_constant items with
      | Some _ => Ok (RTuple items)
      | None => Err "UnexpectedRegisterValue"
      end
  | _ => Err "UnexpectedRegisterValue"
  end.
Definition parse_reg : P regval := pbind rec (fun e => of_res (reg_of e)).
Definition parse_regs : P (list regval) :=
  pbind (lift get_u8) (fun n =>
  pbind (pread_n (Z.to_nat n) parse_reg) (fun l =>
  if Zlen l <=? max_regs then pret l else of_res (Err "InvalidSize"))).

(** Tokens (chain/ergo_box.rs 349-374). *)
Definition parse_token (ids : option (list bytes)) : reader (bytes * Z) := fun bs =>
  '(id, bs) <- match ids with
               | None => read_exact 32 bs
               | Some l => '(i, bs) <- get_u32 bs ;;
                           x <- of_option "failed to find token id in tx digests"
                                  (nth_error l (Z.to_nat i)) ;; Ok (x, bs)
               end ;;
  '(a, bs) <- get_u64 bs ;;
  a <- token_amount_of a ;; Ok ((id, a), bs).
Definition parse_tokens (ids : option (list bytes)) : reader (list (bytes * Z)) := fun bs =>
  '(n, bs) <- get_u8 bs ;;
  '(l, bs) <- read_n (Z.to_nat n) (parse_token ids) bs ;;
  if Zlen l <=? max_tokens then Ok (l, bs) else Err "BoundedVecOutOfBounds".

(** [parse_box_with_indexed_digests] (chain/ergo_box.rs 338-383). *)
Definition parse_value : reader Z := fun bs =>
  '(v, bs) <- get_u64 bs ;; v <- box_value_of v ;; Ok (v, bs).
Definition parse_cand (ids : option (list bytes)) : P cand :=
  pbind (lift parse_value) (fun v =>
  pbind parse_tree (fun t =>
  pbind (lift get_u32) (fun h =>
  pbind (lift (parse_tokens ids)) (fun tk =>
  pbind parse_regs (fun rg => pret (MkCand v t tk rg h)))))).

(** [ErgoBox::sigma_parse] (chain/ergo_box.rs 211-216): the identifier is computed
    from the box's own encoding, so the box must be serializable again. *)
Definition parse_box : P box :=
  pbind (parse_cand None) (fun c =>
  pbind (lift (read_exact 32)) (fun txid =>
  pbind (lift get_u16) (fun i =>
  pbind (of_res (ser_box (MkBox c txid i))) (fun _ => pret (MkBox c txid i))))).

(** Children and payloads of the expression nodes. *)
Definition parse_payload (k : paykind) : reader payload := fun bs =>
  match k with
  | KNone => Ok (PNone, bs)
  | KType => '(t, bs) <- parse_type bs ;; Ok (PType t, bs)
  | KI8Type => '(r, bs) <- get_i8 bs ;; '(t, bs) <- parse_type bs ;; Ok (PI8Type r t, bs)
  | KU8Type => '(r, bs) <- get_u8 bs ;; '(t, bs) <- parse_type bs ;; Ok (PU8Type r t, bs)
  | KTypeU8 => '(t, bs) <- parse_type bs ;; '(r, bs) <- get_u8 bs ;; Ok (PTypeU8 t r, bs)
  | KIndex => '(i, bs) <- get_u8 bs ;;
              if i =? 0 then Err "invalid tuple field index" else Ok (PIndex i, bs)
  end.

Definition popt : P (option expr) :=
  pbind (lift get_u8) (fun t =>
  if t =? 0 then pret None else pbind rec (fun e => pret (Some e))).

Definition pvec : P (list expr) :=
  pbind (lift get_u32) (fun n => pread_n (Z.to_nat n) rec).

Definition parse_arg : reader (Z * stype) := fun bs =>
  '(i, bs) <- get_u32 bs ;; '(t, bs) <- parse_type bs ;; Ok ((i, t), bs).
Definition parse_args : reader (list (Z * stype)) := fun bs =>
  '(n, bs) <- get_u32 bs ;; read_n (Z.to_nat n) parse_arg bs.

Definition otpe (o : option expr) : option stype :=
  match o with Some x => Some (tpe x) | None => None end.

(** [bin_op_sigma_parse] (serialization/bin_op.rs 42-66). *)
Definition parse_bin (k : bink) : P expr := fun st bs =>
  match bs with
  | [] => Err "UnexpectedEof"
  | c :: bs' =>
      if c =? code_bools then
        pbind (lift (get_bits 2)) (fun l =>
        match l with
        | [x; y] => pret (EBin k (EConst (MkConst SBoolean (LBool x)))
                                 (EConst (MkConst SBoolean (LBool y))))
        | _ => of_res Panic
        end) st bs'
      else pbind rec (fun l => pbind rec (fun r => pret (EBin k l r))) st bs
  end.

(** [Constant::parse_with_type_code] (serialization/constant.rs 13-20). *)
Definition parse_const_tag (tag : Z) : P expr :=
  pbind (lift (parse_with_type_code tag)) (fun t =>
  pbind (parse_lit parse_box t) (fun v => pret (EConst (MkConst t v)))).

(** serialization/expr.rs 97-108 with constant_placeholder.rs 14-24. *)
Definition parse_placeholder : P expr :=
  pbind (lift get_u32) (fun id =>
  pbind pstate (fun st =>
  match nth_error (rs_store st) (Z.to_nat id) with
  | Some c => pret (if rs_subst st then EConst c else EPlaceholder id (c_tpe c))
  | None => of_res (Err "ConstantForPlaceholderNotFound")
  end)).

Definition parse_op (k : opk) : P expr :=
  pbind (pread_n (op_arity k) rec) (fun args =>
  pbind (lift (parse_payload (op_pay k))) (fun p =>
  pbind (if op_has_opt k then popt else pret None) (fun d =>
  pbind (of_res (op_ty k p (map tpe args) (otpe d))) (fun _ =>
  pret (EOp k p args d))))).

Definition parse_bools : P expr :=
  pbind (lift get_u16) (fun n =>
  pbind (lift (get_bits (Z.to_nat n))) (fun l => pret (EBools l))).

Definition parse_tuple : P expr :=
  pbind (lift get_u8) (fun n =>
  pbind (pread_n (Z.to_nat n) rec) (fun l =>
  pbind (pbounded l) (fun l => pret (ESeq QTuple l)))).

(** [SigmaAnd::new] (mir/sigma_and.rs 27-46) checks the item types, then the
    length. *)
Definition parse_sigma_seq (q : seqk) : P expr :=
  pbind pvec (fun l =>
  pbind (of_res (seq_ty q (map tpe l))) (fun _ =>
  pbind (pbounded l) (fun l => pret (ESeq q l)))).

Definition parse_coll : P expr :=
  pbind (lift get_u16) (fun n =>
  pbind (lift parse_type) (fun t =>
  pbind (pread_n (Z.to_nat n) rec) (fun l => pret (ESeq (QColl t) l)))).

Definition parse_func : P expr :=
  pbind (lift parse_args) (fun args =>
  pbind pstate (fun st =>
  pbind (pset (insert_args args st)) (fun _ =>
  pbind rec (fun body => pret (EFunc args body))))).

Definition parse_val_def : P expr :=
  pbind (lift get_u32) (fun id =>
  pbind rec (fun rhs =>
  pbind pstate (fun st =>
  pbind (pset (insert_type id (tpe rhs) st)) (fun _ => pret (EValDef id rhs))))).

Definition parse_val_use : P expr :=
  pbind (lift get_u32) (fun id =>
  pbind pstate (fun st =>
  match ty_lookup (rs_types st) id with
  | Some t => pret (EValUse id t)
  | None => of_res (Err "ValDefIdNotFound")
  end)).

Definition parse_block : P expr :=
  pbind pvec (fun items => pbind rec (fun r => pret (EBlock items r))).

Definition parse_apply : P expr :=
  pbind rec (fun f => pbind pvec (fun args =>
  pbind (of_res (apply_ty (tpe f) (map tpe args))) (fun _ => pret (EApply f args)))).

(** [TypeCode::sigma_parse] then the method id (serialization/method_call.rs
    22-30, property_call.rs 21-28). *)
Definition parse_type_code : reader Z := fun bs =>
  '(c, bs) <- get_u8 bs ;; if is_type_code c then Ok (c, bs) else Err "InvalidTypeCode".
Definition parse_method : P expr :=
  pbind (lift parse_type_code) (fun c =>
  pbind (lift get_u8) (fun mid =>
  pbind rec (fun obj =>
  pbind pvec (fun args =>
  pbind (of_res (m <- from_ids c mid ;; specialize_for m (tpe obj) (map tpe args))) (fun m =>
  if method_types_match m (tpe obj) (map tpe args) then pret (EMethod m obj args)
  else of_res (Err "InvalidArgument")))))).
Definition parse_prop : P expr :=
  pbind (lift parse_type_code) (fun c =>
  pbind (lift get_u8) (fun mid =>
  pbind rec (fun obj =>
  pbind (of_res (m <- from_ids c mid ;; specialize_for m (tpe obj) [])) (fun m =>
  if method_types_match m (tpe obj) [] then pret (EProp m obj)
  else of_res (Err "InvalidArgument"))))).

(** [Expr::parse_with_tag] (serialization/expr.rs 87-205). *)
Definition parse_tag (tag : Z) : P expr :=
  if tag <=? last_constant_code then parse_const_tag tag
  else if tag =? code_placeholder then parse_placeholder
  else if tag =? code_val_use then parse_val_use
  else if tag =? code_val_def then parse_val_def
  else if tag =? code_func then parse_func
  else if tag =? code_block then parse_block
  else if tag =? code_apply then parse_apply
  else if tag =? code_method then parse_method
  else if tag =? code_prop then parse_prop
  else if tag =? code_tuple then parse_tuple
  else if tag =? code_coll then parse_coll
  else if tag =? code_bools then parse_bools
  else if tag =? code_sigma_and then parse_sigma_seq QSigmaAnd
  else if tag =? code_sigma_or then parse_sigma_seq QSigmaOr
  else match bin_of_code tag with
       | Some k => parse_bin k
       | None =>
           match op_of_code tag with
           | Some k => parse_op k
           | None => of_res (Err "NotImplementedOpCode")
           end
       end.

(** [Expr::sigma_parse] (serialization/expr.rs 302-305). *)
Definition step : P expr := pbind (lift get_u8) parse_tag.

End Rec.

(** The recursion is bounded by the number of bytes left: every node consumes its
    tag before its children are read. *)
Fixpoint parse_expr_f (fuel : nat) : P expr :=
  match fuel with
  | O => of_res (Err "fuel")
  | S n => step (parse_expr_f n)
  end.
Definition parse_expr : P expr := fun st bs => parse_expr_f (S (List.length bs)) st bs.
Definition parse_const : P const := const_of parse_expr.
Definition parse_script : P tree := parse_tree parse_expr.

(** [sigma_parse_bytes] (serialization/serializable.rs 152-157): trailing bytes
    are ignored. *)
Definition from_bytes {A} (p : P A) (bs : bytes) : res A :=
  '(a, _, _) <- p fresh bs ;; Ok a.

(** ** Scripts (ergo_tree.rs) *)

(** [ErgoTree::sigma_parse_bytes] (384-427). *)
Definition tree_of_bytes (bs : bytes) : res tree :=
  match parse_header bs with
  | Ok (h, r) =>
      if th_size h then
        '(n, r) <- get_u32 r ;;
        '(buf, r) <- read_exact (Z.to_nat n) r ;;
        t <- match parse_body parse_expr h fresh buf with
             | Ok (t, _, _) => Ok t
             | Err _ => Ok (Unparsed bs)
             | Panic => Panic
             end ;;
        Ok (match r with [] => t | _ => Unparsed bs end)
      else
        match parse_body parse_expr h fresh r with
        | Ok (t, _, r) => Ok (match r with [] => t | _ => Unparsed bs end)
        | Err _ => Ok (Unparsed bs)
        | Panic => Panic
        end
  | Err _ => Ok (Unparsed bs)
  | Panic => Panic
  end.

(** [ErgoTree::new] (176-201). *)
Definition tree_new (h : theader) (e : expr) : res tree :=
  if th_seg h then
    '(data, s) <- ser_expr e (Some []) ;;
    let cs := match s with Some cs => cs | None => [] end in
    '(root, _, _) <- parse_expr (RSt cs false []) data ;;
    Ok (Parsed h cs root)
  else Ok (Parsed h [] e).

(** [ErgoTree::proposition] (207-228). *)
Definition proposition (t : tree) : res expr :=
  match t with
  | Unparsed _ => Err "Unparsed"
  | Parsed h cs root =>
      if th_seg h then
        '(data, _) <- ser_expr root (Some []) ;;
        '(e, _, _) <- parse_expr (RSt cs true []) data ;; Ok e
      else Ok root
  end.

(** [constants_len], [get_constant], [get_constants] (250-266). *)
Definition get_constants (t : tree) : res (list const) :=
  match t with Unparsed _ => Err "Unparsed" | Parsed _ cs _ => Ok cs end.

(** [with_constant] (39-61, 271-278). *)
Fixpoint list_set {A} (l : list A) (i : nat) (x : A) : list A :=
  match l, i with
  | [], _ => []
  | _ :: l', O => x :: l'
  | y :: l', S i' => y :: list_set l' i' x
  end.
Definition with_constant (t : tree) (i : nat) (c : const) : res tree :=
  match t with
  | Unparsed _ => Err "Unparsed"
  | Parsed h cs root =>
      match nth_error cs i with
      | Some old =>
          if stype_eqb (c_tpe c) (c_tpe old) then Ok (Parsed h (list_set cs i c) root)
          else Err "TypeMismatch"
      | None => Err "OutOfBounds"
      end
  end.

(** [template_bytes] (63-65, 282-284). *)
Definition template_bytes (t : tree) : res bytes :=
  match t with Unparsed _ => Err "Unparsed" | Parsed _ _ root => ser_expr_bytes root end.

(** [TryFrom<Expr> for ErgoTree] (298-312). *)
Definition tree_of_expr (e : expr) : res tree :=
  match e with
  | EConst (MkConst SSigmaProp _) => tree_new (th_v0 false) e
  | _ => tree_new (th_v0 true) e
  end.

End Ser.
