(** The ErgoScript compiler: ergoscript-compiler/src/lexer.rs, lexer/token_kind.rs,
    parser.rs and parser/, ast.rs, hir.rs, hir/rewrite.rs, binder.rs, type_infer.rs,
    mir/lower.rs, compiler.rs, error.rs and ergotree-ir/src/type_check.rs.

    Not modelled: the wording of the errors, the names of the expected tokens, and the
    limit of 2^32 bytes on a source (lexer.rs 32-33). *)
From Verif Require Import Base VlqModel GroupModel SigmaModel TypeModel MethodModel IrModel SerModel ChainModel JsonModel.
Import SigmaModel.
Local Open Scope string_scope.
Local Open Scope list_scope.
Local Open Scope Z_scope.

(** ** Tokens (lexer/token_kind.rs 6-61) *)
Inductive tkind :=
| KSpace | KDef | KVal | KIdent | KInt | KLong | KPlus | KMinus | KStar | KSlash | KAnd
| KEquals | KLParen | KRParen | KLBrace | KRBrace | KComment | KError.
(** [Token] (lexer.rs 43-47): the kind, the offset of its first byte, its text. *)
Record token := Tok { tok_kind : tkind; tok_pos : Z; tok_text : bytes }.
Definition tok_end (t : token) : Z := tok_pos t + Zlen (tok_text t).
Definition span := (Z * Z)%type.
Definition tok_span (t : token) : span := (tok_pos t, tok_end t).
(** [is_trivia] (64-66). *)
Definition is_trivia (t : token) : bool := match tok_kind t with KSpace | KComment => true | _ => false end.

Definition is_space (c : Z) : bool := (c =? 32) || (c =? 10).
Definition is_alpha (c : Z) : bool := ((65 <=? c) && (c <=? 90)) || ((97 <=? c) && (c <=? 122)).
Definition is_digit (c : Z) : bool := (48 <=? c) && (c <=? 57).
Definition is_alnum (c : Z) : bool := is_alpha c || is_digit c.
Fixpoint run (f : Z -> bool) (s : bytes) : nat :=
  match s with c :: s' => if f c then S (run f s') else O | [] => O end.
(** The longest match of the patterns of token_kind.rs 8-60 at the start of a text that
    is not empty, by the generated lexer of the [logos] crate: its kind and length.  A
    text no pattern matches gives an error token; how many bytes [logos] puts into one
    is not modelled, it is one byte here. *)
Definition lex1 (s : bytes) : tkind * nat :=
  match s with
  | [] => (KError, O)
  | c :: s' =>
      if is_space c then (KSpace, S (run is_space s'))
      else if is_alpha c then
        let n := S (run is_alnum s') in
        (if bytes_eqb (firstn n s) (txt "def") then KDef
         else if bytes_eqb (firstn n s) (txt "val") then KVal else KIdent, n)
      else if is_digit c then
        let n := S (run is_digit s') in
        match skipn n s with
        | d :: _ => if d =? 76 then (KLong, S n) else (KInt, n)
        | [] => (KInt, n)
        end
      else if c =? 43 then (KPlus, 1%nat)
      else if c =? 45 then (KMinus, 1%nat)
      else if c =? 42 then (KStar, 1%nat)
      else if c =? 47 then
        match s' with
        | d :: s'' => if d =? 47 then (KComment, S (S (run (fun x => negb (x =? 10)) s''))) else (KSlash, 1%nat)
        | [] => (KSlash, 1%nat)
        end
      else if c =? 38 then
        match s' with
        | d :: _ => if d =? 38 then (KAnd, 2%nat) else (KError, 1%nat)
        | [] => (KError, 1%nat)
        end
      else if c =? 61 then (KEquals, 1%nat)
      else if c =? 40 then (KLParen, 1%nat)
      else if c =? 41 then (KRParen, 1%nat)
      else if c =? 123 then (KLBrace, 1%nat)
      else if c =? 125 then (KRBrace, 1%nat)
      else (KError, 1%nat)
  end.
(** [Lexer::next] (lexer.rs 26-39), to the end; every token has a byte. *)
Fixpoint lex_f (fuel : nat) (pos : Z) (s : bytes) : list token :=
  match fuel, s with
  | S f, _ :: _ =>
      let '(k, n) := lex1 s in Tok k pos (firstn n s) :: lex_f f (pos + Z.of_nat n) (skipn n s)
  | _, _ => []
  end.
Definition lex (s : bytes) : list token := lex_f (List.length s) 0 s.

(** ** Syntax trees *)

(** A token and the trivia after it, which [Source::eat_trivia] (source.rs 35-39) skips
    and [Sink::eat_trivia] (sink.rs 80-88) puts behind the token. *)
Definition cleaf := (token * list token)%type.
Fixpoint trivia (l : list token) : list token * list token :=
  match l with
  | t :: l' => if is_trivia t then let '(a, b) := trivia l' in (t :: a, b) else ([], l)
  | [] => ([], [])
  end.
Fixpoint leaves_f (fuel : nat) (l : list token) : list cleaf :=
  match fuel, l with
  | S f, t :: l' => let '(a, b) := trivia l' in (t, a) :: leaves_f f b
  | _, _ => []
  end.
(** The trivia at the start, then the others with the trivia behind them. *)
Definition leaves (l : list token) : list token * list cleaf :=
  let '(a, b) := trivia l in (a, leaves_f (List.length b) b).

(** The kinds of inner nodes (syntax.rs 8-32, those that are built). *)
Inductive skind := NRoot | NInfix | NParen | NPrefix | NVarDef | NError | NIdent | NIntNumber | NLongNumber.
Inductive node := NTok (l : cleaf) | NNode (k : skind) (c : list node).
Fixpoint node_tokens (n : node) : list token :=
  match n with
  | NTok l => fst l :: snd l
  | NNode _ c => flat_map node_tokens c
  end.
(** [text_range]. *)
Definition tokens_span (l : list token) : span :=
  match l with
  | [] => (0, 0)
  | t :: _ => (tok_pos t, tok_end (last l t))
  end.
Definition node_span (n : node) : span := tokens_span (node_tokens n).

(** ** Parser (parser.rs, parser/grammar.rs, grammar/stmt.rs, grammar/expr.rs)

    The events, markers and forward parents (event.rs, marker.rs) by which the parser
    describes the tree and the sink (sink.rs) that builds it are left out: the functions
    below return the nodes that end up in the node open when they are called. *)
Definition kind_eqb (a b : tkind) : bool :=
  match a, b with
  | KSpace, KSpace | KDef, KDef | KVal, KVal | KIdent, KIdent | KInt, KInt | KLong, KLong | KPlus, KPlus
  | KMinus, KMinus | KStar, KStar | KSlash, KSlash | KAnd, KAnd | KEquals, KEquals | KLParen, KLParen
  | KRParen, KRParen | KLBrace, KLBrace | KRBrace, KRBrace | KComment, KComment | KError, KError => true
  | _, _ => false
  end.
(** The nodes, the positions of the errors and the rest of the input. *)
Definition pout := (list node * list span * list cleaf)%type.
(** [binding_power] (expr.rs 134-141). *)
Definition binding_power (k : tkind) : option (Z * Z) :=
  match k with
  | KPlus | KMinus => Some (1, 2)
  | KStar | KSlash => Some (3, 4)
  | _ => None
  end.

Section Parser.
(** The range of the last token of the input ([last_token_range], source.rs 45-47). *)
Variable last_span : span.

(** [Parser::error] (parser.rs 61-84). *)
Definition p_error (ts : list cleaf) : pout :=
  match ts with
  | [] => ([], [last_span], [])
  | l :: ts' => ([NNode NError [NTok l]], [tok_span (fst l)], ts')
  end.
(** [Parser::expect] (53-59). *)
Definition expect (k : tkind) (ts : list cleaf) : pout :=
  match ts with
  | l :: ts' => if kind_eqb (tok_kind (fst l)) k then ([NTok l], [], ts') else p_error ts
  | [] => p_error ts
  end.
(** [expr_binding_power] (expr.rs 64-109) with [lhs] (111-131), [int_number],
    [long_number], [ident], [prefix_expr], [paren_expr] (155-208); [climb] is its loop.
    The first component tells whether an expression was found. *)
Fixpoint expr_bp (fuel : nat) (min : Z) (ts : list cleaf) : bool * pout :=
  match fuel with
  | O => (false, ([], [last_span], ts))
  | S f =>
      match ts with
      | [] => (false, p_error ts)
      | l :: r =>
          match tok_kind (fst l) with
          | KInt => climb f min (NNode NIntNumber [NTok l]) [] r
          | KLong => climb f min (NNode NLongNumber [NTok l]) [] r
          | KIdent => climb f min (NNode NIdent [NTok l]) [] r
          | KMinus =>
              let '(_, (c, e, r)) := expr_bp f 5 r in
              climb f min (NNode NPrefix (NTok l :: c)) e r
          | KLParen =>
              let '(_, (c, e, r)) := expr_bp f 0 r in
              let '(c', e', r) := expect KRParen r in
              climb f min (NNode NParen (NTok l :: c ++ c')) (e ++ e') r
          | _ => (false, p_error ts)
          end
      end
  end
with climb (fuel : nat) (min : Z) (lhs : node) (errs : list span) (ts : list cleaf) : bool * pout :=
  match fuel with
  | O => (true, ([lhs], errs ++ [last_span], ts))
  | S f =>
      match ts with
      | [] => (true, ([lhs], errs, ts))
      | l :: r =>
          match binding_power (tok_kind (fst l)) with
          | None => (true, ([lhs], errs, ts))
          | Some (lb, rb) =>
              if lb <? min then (true, ([lhs], errs, ts))
              else
                let '(found, (c, e, r)) := expr_bp f rb r in
                let n := NNode NInfix (lhs :: NTok l :: c) in
                if found then climb f min n (errs ++ e) r else (true, ([n], errs ++ e, r))
          end
      end
  end.
(** [stmt::stmt] and [variable_def] (stmt.rs 3-22). *)
Definition stmt (ts : list cleaf) : pout :=
  match ts with
  | l :: r =>
      if kind_eqb (tok_kind (fst l)) KVal then
        let '(c1, e1, r) := expect KIdent r in
        let '(c2, e2, r) := expect KEquals r in
        let '(_, (c3, e3, r)) := expr_bp (S (List.length r)) 0 r in
        ([NNode NVarDef (NTok l :: c1 ++ c2 ++ c3)], e1 ++ e2 ++ e3, r)
      else snd (expr_bp (S (List.length ts)) 0 ts)
  | [] => snd (expr_bp (S (List.length ts)) 0 ts)
  end.
(** [grammar::root] (grammar.rs 10-18); every statement takes a token. *)
Fixpoint stmts (fuel : nat) (ts : list cleaf) : list node * list span :=
  match fuel, ts with
  | S f, _ :: _ =>
      let '(c, e, r) := stmt ts in
      let '(c', e') := stmts f r in (c ++ c', e ++ e')
  | _, _ => ([], [])
  end.
End Parser.

Definition last_range (l : list token) : span := match l with [] => (0, 0) | t :: _ => tok_span (last l t) end.
(** [parse] (parse.rs 16-24): the tree and the positions of the errors. *)
Definition parse (s : bytes) : node * list span :=
  let ts := lex s in
  let '(lead, ls) := leaves ts in
  let '(c, e) := stmts (last_range ts) (List.length ls) ls in
  (NNode NRoot (map (fun t => NTok (t, [])) lead ++ c), e).

(** ** Results *)

(** A compilation fails with the positions of its errors; type checking and the making
    of the script have none. *)
Inductive cres (A : Type) := COk (a : A) | CErr (at_ : list span) | CPanic.
Arguments COk {A} a.
Arguments CErr {A} at_.
Arguments CPanic {A}.
Definition cbind {A B} (r : cres A) (k : A -> cres B) : cres B :=
  match r with COk a => k a | CErr e => CErr e | CPanic => CPanic end.
Local Notation "x <~ e ;; k" := (cbind e (fun x => k)) (at level 61, e at next level, right associativity).

(** ** High-level representation (hir.rs 33-192) *)
Inductive hop := HPlus | HMinus | HMultiply | HDivide.
Inductive hlit := HInt (z : Z) | HLong (z : Z).
Inductive hexpr :=
| HIdent (name : bytes) (sp : span) (t : option stype)
| HBin (op : hop) (l r : hexpr) (sp : span) (t : option stype)
| HHeight (sp : span) (t : option stype)
| HLit (v : hlit) (sp : span) (t : option stype).
Definition h_tpe (e : hexpr) : option stype :=
  match e with HIdent _ _ t | HBin _ _ _ _ t | HHeight _ t | HLit _ _ t => t end.
Definition h_span (e : hexpr) : span :=
  match e with HIdent _ s _ | HBin _ _ _ s _ | HHeight s _ | HLit _ s _ => s end.

(** [BinaryExpr::op] (ast.rs 119-139) and hir.rs 118-130. *)
Fixpoint find_op (c : list node) : option tkind :=
  match c with
  | [] => None
  | NTok l :: c' =>
      match tok_kind (fst l) with
      | KPlus | KMinus | KStar | KSlash | KAnd => Some (tok_kind (fst l))
      | _ => find_op c'
      end
  | NNode _ _ :: c' => find_op c'
  end.
Definition hop_of (k : tkind) : option hop :=
  match k with
  | KPlus => Some HPlus | KMinus => Some HMinus | KStar => Some HMultiply | KSlash => Some HDivide
  | _ => None
  end.
(** [Literal::parse] (ast.rs 156-173). *)
Definition literal_of (s : bytes) : option hlit :=
  match rev s with
  | c :: r => if c =? 76 then option_map HLong (unsigned_of_text (2 ^ 63) (rev r))
              else option_map HInt (unsigned_of_text (2 ^ 31) s)
  | [] => None
  end.
Definition lit_type (v : hlit) : stype := match v with HInt _ => SInt | HLong _ => SLong end.
(** The nodes [Expr::cast] (ast.rs 71-83) accepts, lowered by [Expr::lower] and
    [Binary::lower] (hir.rs 62-143). *)
Fixpoint somes {A} (l : list (option A)) : list A :=
  match l with [] => [] | Some x :: l' => x :: somes l' | None :: l' => somes l' end.
Definition first_token (c : list node) : option token := hd_error (flat_map node_tokens c).
(** [Ident::name] (ast.rs 47-53). *)
Fixpoint ident_name (c : list node) : option bytes :=
  match c with
  | [] => None
  | NTok l :: c' => if kind_eqb (tok_kind (fst l)) KIdent then Some (tok_text (fst l)) else ident_name c'
  | NNode _ _ :: c' => ident_name c'
  end.
Definition lower_literal (c : list node) (sp : span) : cres hexpr :=
  match first_token c with
  | None => CPanic
  | Some t =>
      match literal_of (tok_text t) with
      | Some v => COk (HLit v sp (Some (lit_type v)))
      | None => CErr [sp]
      end
  end.
Fixpoint hir_expr (n : node) : option (cres hexpr) :=
  match n with
  | NTok _ => None
  | NNode k c =>
      let sp := node_span n in
      match k with
      | NIdent => Some (match ident_name c with Some s => COk (HIdent s sp None) | None => CErr [sp] end)
      | NIntNumber | NLongNumber => Some (lower_literal c sp)
      | NInfix => Some
          match find_op c with
          | None => CErr [sp]
          | Some k =>
              match hop_of k with
              | None => CErr [sp]
              | Some op =>
                  match somes (map hir_expr c) with
                  | a :: b :: _ => l <~ a ;; r <~ b ;; COk (HBin op l r sp None)
                  | _ => CErr [sp]
                  end
              end
          end
      | _ => None
      end
  end.
(** [hir::lower] (hir.rs 18-30). *)
Definition hir_root (n : node) : cres hexpr :=
  match n with
  | NNode NRoot c =>
      match somes (map hir_expr c) with
      | [a] => a
      | _ => CErr [node_span n]
      end
  | _ => CPanic
  end.

(** ** Binding and typing *)

(** [hir::rewrite] (hir/rewrite.rs 10-29): the function is applied to the expression and
    to the operands directly below it. *)
Definition orelse {A} (o : option A) (a : A) : A := match o with Some x => x | None => a end.
Definition rewrite (f : hexpr -> cres (option hexpr)) (e : hexpr) : cres hexpr :=
  o <~ f e ;;
  match orelse o e with
  | HBin op l r sp t =>
      l' <~ f l ;; r' <~ f r ;;
      COk (match l', r' with
           | None, None => HBin op l r sp t
           | _, _ => HBin op (orelse l' l) (orelse r' r) sp t
           end)
  | e' => o <~ f e' ;; COk (orelse o e')
  end.

Section Compile.
Context {G : group}.
Notation expr := (expr G). Notation const := (const G). Notation tree := (tree G).

(** [ScriptEnv] (script_env.rs 8-26).  There is no way to put a value into one. *)
Definition script_env := list (bytes * const).
Fixpoint senv_get (e : script_env) (k : bytes) : option const :=
  match e with [] => None | (k', c) :: e' => if bytes_eqb k' k then Some c else senv_get e' k end.
(** [Binder::bind] (binder.rs 35-61). *)
Definition bind_ident (env : script_env) (e : hexpr) : cres (option hexpr) :=
  match e with
  | HIdent name sp _ =>
      match senv_get env name with
      | Some _ => CPanic
      | None => COk (if bytes_eqb name (txt "HEIGHT") then Some (HHeight sp (Some SInt)) else None)
      end
  | _ => COk None
  end.
Definition binder (env : script_env) (e : hexpr) : cres hexpr := rewrite (bind_ident env) e.
(** [assign_type] (type_infer.rs 25-49), by the depth of the expression; [todo!()] for
    the operators other than +. *)
Fixpoint assign_f (fuel : nat) (e : hexpr) : cres hexpr :=
  match fuel with
  | O => CErr []
  | S f =>
      rewrite (fun e =>
        match e with
        | HBin HPlus l r sp _ =>
            l' <~ assign_f f l ;; r' <~ assign_f f r ;; COk (Some (HBin HPlus l' r' sp (h_tpe l')))
        | HBin _ _ _ _ _ => CPanic
        | _ => COk None
        end) e
  end.
Fixpoint h_depth (e : hexpr) : nat :=
  match e with HBin _ l r _ _ => S (Nat.max (h_depth l) (h_depth r)) | _ => O end.
Definition assign_type (e : hexpr) : cres hexpr := assign_f (S (h_depth e)) e.

(** [mir::lower::lower] (mir/lower.rs 29-87). *)
Definition bink_of (op : hop) : bink :=
  match op with HPlus => BPlus | HMinus => BMinus | HMultiply => BMultiply | HDivide => BDivide end.
Definition lit_const (v : hlit) : const :=
  match v with HInt z => MkConst SInt (LInt z) | HLong z => MkConst SLong (LLong z) end.
Fixpoint mir_lower (e : hexpr) : cres expr :=
  m <~ match e with
       | HHeight _ _ => COk (EOp OHeight PNone [] None)
       | HIdent _ sp _ => CErr [sp]
       | HBin op l r _ _ => l' <~ mir_lower l ;; r' <~ mir_lower r ;; COk (EBin (bink_of op) l' r')
       | HLit v _ _ => COk (EConst (lit_const v))
       end ;;
  match h_tpe e with
  | Some t => if stype_eqb (tpe m) t then COk m else CErr [h_span e]
  | None => CErr [h_span e]
  end.
(** [type_check] (ergotree-ir/src/type_check.rs 26-45). *)
Definition type_check (e : expr) : cres expr :=
  match e with
  | EBin _ l r => if stype_eqb (tpe l) (tpe r) then COk e else CErr []
  | _ => COk e
  end.

(** [compile_hir], [compile_expr] and [compile] (compiler.rs 59-87). *)
Definition compile_hir (s : bytes) : cres hexpr :=
  match parse s with
  | (root, []) => hir_root root
  | (_, errs) => CErr errs
  end.
Definition compile_expr (s : bytes) (env : script_env) : cres expr :=
  h <~ compile_hir s ;; b <~ binder env h ;; t <~ assign_type b ;; m <~ mir_lower t ;; type_check m.
Definition compile (s : bytes) (env : script_env) : cres tree :=
  e <~ compile_expr s env ;;
  match tree_of_expr e with Ok t => COk t | Err _ => CErr [] | Panic => CPanic end.
End Compile.

(** [pretty_error_desc] (error.rs 4-23) of an error at [sp], with overflow checks: the
    offsets are decremented first.  The rest, which finds the line, is not modelled. *)
Definition pretty_error_desc (sp : span) : res unit :=
  if (fst sp =? 0) || (snd sp =? 0) then Panic else Ok tt.
(** [CompileError::pretty_desc] (compiler.rs 43-55). *)
Fixpoint pretty_desc (at_ : list span) : res unit :=
  match at_ with [] => Ok tt | sp :: l => _ <- pretty_error_desc sp ;; pretty_desc l end.

(** ** The work of [assign_type]

    The same functions, counting the calls of the closure of [assign_type]. *)
Definition rewrite_n (f : hexpr -> cres (option hexpr * N)) (e : hexpr) : cres (hexpr * N) :=
  o <~ f e ;;
  match orelse (fst o) e with
  | HBin op l r sp t =>
      l' <~ f l ;; r' <~ f r ;;
      COk (match fst l', fst r' with
           | None, None => HBin op l r sp t
           | _, _ => HBin op (orelse (fst l') l) (orelse (fst r') r) sp t
           end, (snd o + snd l' + snd r')%N)
  | e' => o' <~ f e' ;; COk (orelse (fst o') e', (snd o + snd o')%N)
  end.
Fixpoint assign_n (fuel : nat) (e : hexpr) : cres (hexpr * N) :=
  match fuel with
  | O => CErr []
  | S f =>
      rewrite_n (fun e =>
        match e with
        | HBin HPlus l r sp _ =>
            l' <~ assign_n f l ;; r' <~ assign_n f r ;;
            COk (Some (HBin HPlus (fst l') (fst r') sp (h_tpe (fst l'))), (1 + snd l' + snd r')%N)
        | HBin _ _ _ _ _ => CPanic
        | _ => COk (None, 1%N)
        end) e
  end.
