(** The text that the pretty printer writes and the source positions that it puts
    into the script: ergotree-ir/src/pretty_printer.rs,
    ergotree-ir/src/pretty_printer/print.rs and ergotree-ir/src/source_span.rs;
    and how an evaluation error is given a position and shown:
    ergotree-interpreter/src/eval/error.rs and eval.rs 182-186.

    [PrintModel] keeps only the indentation and the panics of the same code. *)
From Verif Require Import Base VlqModel GroupModel SigmaModel TypeModel MethodModel IrModel PrintModel WalletModel JsonModel.
Local Open Scope string_scope.
Local Open Scope list_scope.
Local Open Scope Z_scope.

(** [PosTrackingWriter] (pretty_printer.rs 26-30): the text so far, the position
    and the indentation. *)
Record writer := Writer { w_buf : bytes; w_pos : Z; w_ind : Z }.
(** [PosTrackingWriter::new] (pretty_printer.rs 62-68). *)
Definition new_writer : writer := Writer [] 0 0.
(** [write_str] (pretty_printer.rs 32-38).  The position is a 64 bit number that
    cannot overflow before memory is exhausted. *)
Definition put (t : bytes) (w : writer) : writer := Writer (w_buf w ++ t) (w_pos w + Zlen t) (w_ind w).
(** [inc_ident], [dec_ident] (pretty_printer.rs 45-51). *)
Definition inc (w : writer) : writer := Writer (w_buf w) (w_pos w) (inc_ident (w_ind w)).
Definition dec (w : writer) : writer := Writer (w_buf w) (w_pos w) (dec_ident (w_ind w)).
(** [print_indent] (pretty_printer.rs 20-22): that many blanks. *)
Definition put_indent (w : writer) : res writer :=
  _ <- print_indent (w_ind w) ;; Ok (put (repeat 32 (Z.to_nat (w_ind w))) w).

(** The positions in the rebuilt script: for each node what [Expr::span]
    (source_span.rs 134-203) returns, [None] standing for [SourceSpan::empty], and
    the positions in its printed operands, in the order of printing. *)
Inductive marks := Marks (at_ : option (Z * Z)) (kids : list marks).
Definition m_at (m : marks) : option (Z * Z) := let 'Marks a _ := m in a.
Definition m_kids (m : marks) : list marks := let 'Marks _ k := m in k.

Definition printer := writer -> res (writer * marks).
Definition no_print : printer := fun w => Ok (w, Marks None []).

(** What the [print] of a node does, step by step: write a text, print an
    operand, write the indentation, change it, and remember the current position
    as the start of the node ([let offset = w.current_pos()]). *)
Inductive piece := Put (t : bytes) | Arg (n : nat) | Indent | Inc | Dec | Start.

Fixpoint run (l : list piece) (ps : list printer) (st : option Z) (w : writer) : res (writer * option Z * list marks) :=
  match l with
  | [] => Ok (w, st, [])
  | Put t :: l' => run l' ps st (put t w)
  | Indent :: l' => w1 <- put_indent w ;; run l' ps st w1
  | Inc :: l' => run l' ps st (inc w)
  | Dec :: l' => run l' ps st (dec w)
  | Start :: l' => run l' ps (Some (w_pos w)) w
  | Arg n :: l' =>
      '(w1, m) <- nth n ps no_print w ;;
      '(w2, st2, ks) <- run l' ps st w1 ;;
      Ok (w2, st2, m :: ks)
  end.

Definition nl : bytes := [10].
Definition line (s : string) : bytes := txt s ++ nl.

(** [Display] of [SType] (types/stype.rs 130-156), [STuple] (types/stuple.rs 37-48)
    and [SFunc] (types/sfunc.rs 18-30). *)
Definition commas (l : list bytes) : bytes :=
  match l with [] => [] | t :: l' => t ++ concat (map (fun u => txt ", " ++ u) l') end.
Fixpoint type_text (t : stype) : bytes :=
  match t with
  | STypeVar n => n
  | SAny => txt "Any" | SUnit => txt "Unit" | SBoolean => txt "Boolean" | SByte => txt "Byte"
  | SShort => txt "Short" | SInt => txt "Int" | SLong => txt "Long" | SBigInt => txt "BigInt"
  | SGroupElement => txt "GroupElement" | SSigmaProp => txt "SigmaProp" | SBox => txt "Box"
  | SAvlTree => txt "AvlTree"
  | SOption t => txt "Option[" ++ type_text t ++ txt "]"
  | SColl t => txt "Coll[" ++ type_text t ++ txt "]"
  | STuple l => txt "(" ++ commas (map type_text l) ++ txt ")"
  | SFunc d r => txt "(" ++ commas (map type_text d) ++ txt ") => " ++ type_text r
  | SContext => txt "Context" | SHeader => txt "Header" | SPreHeader => txt "PreHeader" | SGlobal => txt "Global"
  end.

(** [Display] of [BinOpKind] (mir/bin_op.rs 50-62, 95-106, 130-138, 162-170, 197-206). *)
Definition bin_text (k : bink) : bytes :=
  txt match k with
  | BPlus => "+" | BMinus => "-" | BMultiply => "*" | BDivide => "/" | BMax => "max" | BMin => "min"
  | BModulo => "%" | BEq => "==" | BNEq => "!=" | BGe => ">=" | BGt => ">" | BLe => "<=" | BLt => "<"
  | BAnd => "&&" | BOr => "||" | BXor => "^" | BBitOr => "|" | BBitAnd => "&" | BBitXor => "^"
  end.

Definition var_text (id : Z) : bytes := txt "v" ++ dec_text 10 id.
Definition bool_text (b : bool) : bytes := txt (if b then "true" else "false").

(** The numbers in a payload: a variable, a register, a field. *)
Definition pay_num (p : payload) : Z :=
  match p with PNone | PType _ => 0 | PI8Type r _ | PU8Type r _ | PTypeU8 _ r => r | PIndex i => i end.

(** A function written before its operand, in parentheses. *)
Definition call (s : string) : list piece := [Put (txt s ++ txt "("); Arg 0; Put (txt ")")].
Definition comma : piece := Put (txt ", ").
Definition close : piece := Put (txt ")").

(** [Print] of the nodes with a fixed number of operands (print.rs; the lines are
    those of each impl).  [And] and [Or] store the position at which they start
    (601-631), which [Expr::span] (source_span.rs 159-160) does not return. *)
Definition op_pieces (k : opk) (p : payload) : list piece :=
  match k with
  (* GlobalVars 278-283, mir/global_vars.rs 54-65 *)
  | OHeight => [Put (txt "HEIGHT")] | OInputs => [Put (txt "INPUTS")] | OOutputs => [Put (txt "OUTPUTS")]
  | OSelfBox => [Put (txt "SELF")] | OMinerPubKey => [Put (txt "MINER_PUBKEY")]
  | OGroupGenerator => [Put (txt "GROUP_GENERATOR")]
  (* 117-124 *)
  | OContext => [Put (txt "CONTEXT")] | OGlobal => [Put (txt "GLOBAL")]
  (* Append 239-256 *)
  | OAppend => [Start; Arg 0; Put (txt ".append("); Arg 1; close]
  (* ByIndex 285-300; the default is not printed *)
  | OByIndex => [Arg 0; Start; Put (txt "("); Arg 1; close]
  (* Map 302-317, Exists 319-334 *)
  | OMap => [Arg 0; Start; Put (txt ".map("); Arg 1; close]
  | OExists => [Arg 0; Start; Put (txt ".exists("); Arg 1; close]
  (* Fold 336-355 *)
  | OFold => [Arg 0; Start; Put (txt ".fold("); Arg 1; Put (txt ")("); Arg 2; Indent; close; Dec]
  (* Filter 384-401 *)
  | OFilter => [Arg 0; Start; Put (txt ".filter("); Arg 1; Indent; close; Dec]
  (* If 403-419 *)
  | OIf => [Put (txt "if ("); Arg 0; Put (txt ") "); Arg 1; Put (txt " else "); Arg 2]
  (* OptionIsDefined 421-436 *)
  | OOptionIsDefined => [Start; Arg 0; Put (txt ".isDefined()")]
  (* ExtractRegisterAs 438-457; register/id.rs 57-64, 67, 94 *)
  | OExtractRegisterAs => [Start; Arg 0; Put (txt ".getReg"); Put (txt "(R" ++ dec_text 3 (pay_num p) ++ txt ")")]
  (* SelectField 459-472 *)
  | OSelectField => [Start; Arg 0; Put (txt "._" ++ dec_text 3 (pay_num p))]
  (* ExtractCreationInfo 474-483 *)
  | OExtractCreationInfo => [Arg 0; Put (txt ".creationInfo")]
  (* OptionGet 527-540, SizeOf 542-551 *)
  | OOptionGet => [Start; Arg 0; Put (txt ".get")]
  | OSizeOf => [Arg 0; Put (txt ".size")]
  (* And 601-615, Or 617-631 *)
  | OAnd => [Put (txt "&&"); Arg 0]
  | OOr => [Put (txt "||"); Arg 0]
  (* CreateProveDlog 633-643, GetVar 645-650, BoolToSigmaProp 652-662 *)
  | OCreateProveDlog => call "proveDlog"
  | OGetVar => [Put (txt "getVar(" ++ dec_text 3 (pay_num p) ++ txt ")")]
  | OBoolToSigmaProp => call "sigmaProp"
  (* Upcast 664-672: the type is not printed *)
  | OUpcast => call "upcast"
  (* 674-739 *)
  | OExtractScriptBytes => [Arg 0; Put (txt ".propBytes")]
  | OExtractAmount => [Arg 0; Put (txt ".value")]
  | OLogicalNot => [Put (txt "!"); Arg 0]
  | OCalcBlake2b256 => call "blake2b256"
  | ONegation => [Put (txt "-"); Arg 0]
  | OExtractId => [Arg 0; Put (txt ".id")]
  (* 783-840 *)
  | OExtractBytes => [Arg 0; Put (txt ".bytes")]
  | OByteArrayToLong => call "byteArrayToLong"
  | OByteArrayToBigInt => call "byteArrayToBigInt"
  | OLongToByteArray => call "longToByteArray"
  | OCalcSha256 => call "sha256"
  (* Xor 842-853, Atleast 855-868 *)
  | OXor => [Arg 0; Put (txt "^"); Arg 1]
  | OAtleast => [Put (txt ".atLeast("); Arg 0; comma; Arg 1; close]
  (* SubstConstants 870-891 *)
  | OSubstConstants => [Start; Put (txt ".substConstants("); Arg 0; comma; Arg 1; comma; Arg 2; close]
  (* BitInversion 893-902 *)
  | OBitInversion => [Put (txt "~"); Arg 0]
  (* OptionGetOrElse 904-919, ExtractBytesWithNoRef 921-930 *)
  | OOptionGetOrElse => [Start; Arg 0; Put (txt ".getOrElse("); Arg 1; close]
  | OExtractBytesWithNoRef => [Arg 0; Put (txt ".bytesWithNoRef")]
  (* Slice 932-952, ForAll 954-969 *)
  | OSlice => [Start; Arg 0; Put (txt ".slice("); Arg 1; comma; Arg 2; close]
  | OForAll => [Start; Arg 0; Put (txt ".forall("); Arg 1; close]
  (* Downcast 971-982: the type is not printed *)
  | ODowncast => call "downcast"
  (* CreateProveDhTuple 984-1003, SigmaPropBytes 1005-1015, DecodePoint 1017-1027 *)
  | OCreateProveDhTuple => [Put (txt "proveDHTuple("); Arg 0; comma; Arg 1; comma; Arg 2; comma; Arg 3; close]
  | OSigmaPropBytes => call "sigmaPropBytes"
  | ODecodePoint => call "decodePoint"
  (* DeserializeRegister 1029-1034 (not its default), DeserializeContext 1036-1041,
     MultiplyGroup 1043-1056, Exponentiate 1058-1071, XorOf 1073-1083 *)
  | ODeserializeRegister => [Put (txt "deserializeRegister(" ++ dec_text 3 (pay_num p) ++ txt ")")]
  | ODeserializeContext => [Put (txt "deserializeContext(" ++ dec_text 3 (pay_num p) ++ txt ")")]
  | OMultiplyGroup => [Put (txt "multiplyGroup("); Arg 0; comma; Arg 1; close]
  | OExponentiate => [Put (txt "exponentiate("); Arg 0; comma; Arg 1; close]
  | OXorOf => call "xorOf"
  (* TreeLookup 1085-1106 *)
  | OTreeLookup => [Start; Put (txt "treeLookup("); Arg 0; comma; Arg 1; comma; Arg 2; close]
  (* CreateAvlTree 1108-1123: the digest and the key length, not the flags and the
     value length *)
  | OCreateAvlTree => [Put (txt "avlTree("); Arg 0; comma; Arg 1; close]
  end.

Definition for_each (f : nat -> list piece) (n : nat) : list piece := concat (map f (seq 0 n)).
(** [SigmaAnd] (565-581), [SigmaOr] (583-599). *)
Definition lines (s : string) (n : nat) : list piece :=
  Put (line s) :: for_each (fun i => [Inc; Indent; Arg i; comma; Put nl; Dec]) n ++ [Indent; close].

Section Text.
Context {G : group}.
Notation expr := (expr G).
(** The text of a value ([Debug] of [Literal], mir/constant.rs 97-119) and the name
    of a method ([SMethod::name]) are parameters. *)
Variable lit_text : lit G -> bytes.
Variable name : smethod -> bytes.

Definition pieces (e : expr) : list piece :=
  match e with
  (* Constant 225-230, placeholder 109, ValUse 232-237 *)
  | EConst (MkConst _ v) => [Put (lit_text v)]
  | EPlaceholder _ _ => []
  | EValUse id _ => [Put (var_text id)]
  (* ValDef 208-223 *)
  | EValDef id _ => [Start; Put (txt "val " ++ var_text id ++ txt " = "); Arg 0]
  (* BlockValue 178-206 *)
  | EBlock items _ => Start :: Put (line "{") :: Inc ::
      for_each (fun i => [Indent; Arg i; Put nl]) (length items) ++
      [Indent; Arg (length items); Put nl; Dec; Indent; Put (line "}")]
  (* FuncValue 357-382, FuncArg mir/func_value.rs 42-46 *)
  | EFunc args _ => [Inc; Put (line "{"); Inc; Indent;
      Put (txt "(" ++ commas (map (fun a => var_text (fst a) ++ txt ": " ++ type_text (snd a)) args) ++ line ") => ");
      Inc; Indent; Arg 0; Dec; Put nl; Indent; Put (line "}"); Dec]
  (* Apply 741-754: no commas *)
  | EApply _ args => Arg 0 :: Put (txt "(") :: for_each (fun i => [Arg (S i)]) (length args) ++ [close]
  (* MethodCall 502-525, PropertyCall 485-500 *)
  | EMethod m _ args => Start :: Arg 0 :: Put (txt "." ++ name m) :: Put (txt "(") ::
      for_each (fun i => [Arg (S i)]) (length args) ++ [close]
  | EProp m _ => [Start; Arg 0; Put (txt "." ++ name m)]
  (* BinOp 258-276: no parentheses *)
  | EBin k _ _ => [Start; Arg 0; Put (txt " " ++ bin_text k ++ txt " "); Arg 1]
  (* Collection 756-781: the type is already that of the collection *)
  | EBools bs => Put (txt "Coll[" ++ type_text (SColl SBoolean) ++ txt "](") ::
      map (fun b => Put (bool_text b ++ txt ", ")) bs ++ [close]
  | ESeq (QColl t) items => Put (txt "Coll[" ++ type_text (SColl t) ++ txt "](") ::
      for_each (fun i => [comma; Arg i]) (length items) ++ [close]
  (* Tuple 553-563 *)
  | ESeq QTuple items => Put (txt "(") :: for_each (fun i => [comma; Arg i]) (length items) ++ [close]
  | ESeq QSigmaAnd items => lines "allOf(" (length items)
  | ESeq QSigmaOr items => lines "anyOf(" (length items)
  | EOp k p _ _ => op_pieces k p
  end.

(** One node: its steps, the rebuilding of the node with the checks of its
    constructor ([rebuild], see [PrintModel]) and its position
    ([let length = w.current_pos() - offset]). *)
Definition emit (e : expr) (ps : list printer) : printer := fun w =>
  '(w1, st, ks) <- run (pieces e) ps None w ;;
  _ <- rebuild e ;;
  Ok (w1, Marks (match st with Some o => Some (o, w_pos w1 - o) | None => None end) ks).

(** [Expr::print] (print.rs 99-176). *)
Fixpoint print_text (e : expr) : printer :=
  match e with
  | EConst _ | EPlaceholder _ _ | EValUse _ _ | EBools _ => emit e []
  | EValDef _ x | EFunc _ x | EProp _ x => emit e [print_text x]
  | EBlock items r => emit e (map print_text items ++ [print_text r])
  | EApply f args | EMethod _ f args => emit e (print_text f :: map print_text args)
  | EBin _ l r => emit e [print_text l; print_text r]
  | ESeq _ items => emit e (map print_text items)
  | EOp k _ args _ =>
      match k, args with
      | OCreateAvlTree, _ :: args' => emit e (map print_text args')
      | _, _ => emit e (map print_text args)
      end
  end.

(** [Expr::pretty_print] (print.rs 83-89): the positions and the text. *)
Definition pretty (e : expr) : res (marks * bytes) :=
  '(w, m) <- print_text e new_writer ;; Ok (m, w_buf w).

(** [ErgoTree::pretty_print] (ergo_tree.rs 236-240): the stored root, in which
    placeholders stand for the constants of the header. *)
Definition pretty_tree (t : tree G) : res (marks * bytes) :=
  match t with Parsed _ _ root => pretty root | Unparsed _ => Err "unparsed tree" end.
End Text.

(** ** Evaluation errors *)

(** [EvalError] (eval/error.rs 20-78): the variants that matter here.  The
    environment is left out. *)
Inductive eval_error :=
| EPlain (msg : bytes)
| ESpanned (e : eval_error) (at_ : option (Z * Z))
| EWithSource (e : eval_error) (at_ : option (Z * Z)) (source : bytes).

(** [enrich_err] (eval/error.rs 185-194), called when [Expr::eval] returns
    (eval/expr.rs 88). *)
Definition enrich (e : eval_error) (at_ : option (Z * Z)) : eval_error :=
  match e with ESpanned _ _ => e | _ => ESpanned e at_ end.
(** An error leaves the calls of [Expr::eval] that are under way, innermost
    first. *)
Definition unwind (e : eval_error) (calls : list (option (Z * Z))) : eval_error := fold_left enrich calls e.
(** [wrap_spanned_with_src] (eval/error.rs 166-178), called with the text of the
    script (eval.rs 185-186). *)
Definition with_source (e : eval_error) (source : bytes) : res eval_error :=
  match e with ESpanned e at_ => Ok (EWithSource e at_ source) | _ => Panic end.
Definition report (e : eval_error) (calls : list (option (Z * Z))) (source : bytes) : res eval_error :=
  with_source (unwind e calls) source.

(** [Display] and [Debug] of the error that is returned (eval/error.rs 103-154).
    Both install a process-wide error hook and unwrap the result; the library
    (miette 5, [set_hook]) refuses to install one when there is one already.  The
    state says whether there is; the rendering is a parameter. *)
Section Show.
Variable render : eval_error -> bytes.
Definition set_hook (installed : bool) : res bool := if installed then Err "hook already installed" else Ok true.
Definition unwrap {A} (r : res A) : res A := match r with Ok a => Ok a | _ => Panic end.
Definition show (e : eval_error) (installed : bool) : res (bytes * bool) :=
  match e with
  | EWithSource _ _ _ => h <- unwrap (set_hook installed) ;; Ok (render e, h)
  | _ => Ok (render e, installed)
  end.
(** Several errors, one after the other. *)
Fixpoint show_all (l : list eval_error) (installed : bool) : res (list bytes * bool) :=
  match l with
  | [] => Ok ([], installed)
  | e :: l' => '(t, h) <- show e installed ;; '(ts, h) <- show_all l' h ;; Ok (t :: ts, h)
  end.
End Show.
