(** What it means for a value, an expression, a script or a box to be well formed:
    the conditions under which its encoding is promised to be decodable.

    The judgements have the form [ok_x st x st']: [x] is well formed for a reader
    whose constant store and variable types are [st], and leaves them as [st'].
    They are stated without the parser; the only exception is the rule for scripts
    kept as unparsed bytes, which by definition are the ones whose body is not
    readable. *)
From Verif Require Import Base VlqModel IntBytes GroupModel SigmaModel TypeModel TypeProofs MethodModel BigIntModel IrModel SerModel.
Local Open Scope string_scope.
Local Open Scope list_scope.
Local Open Scope Z_scope.

Section Spec.
Context {G : group}.
Notation rst := (@rst G).

(** A type that can be written: lengths in bounds, no function type. *)
Definition ty_ok (t : stype) : Prop := wf_type t /\ fun_free t.

Definition avl_ok (a : avl) : Prop :=
  List.length (av_digest a) = 33%nat /\ 0 <= av_flags a <= 7 /\ u32 (av_key_len a) /\
  match av_val_len a with Some n => u32 n | None => True end.

Definition header_ok (h : theader) : Prop := th_version h = 0 \/ th_version h = 1.

Definition payload_ok (p : payload) : Prop :=
  match p with
  | PNone => True
  | PType t => ty_ok t
  | PI8Type r t => i8 r /\ ty_ok t
  | PU8Type r t | PTypeU8 t r => u8 r /\ ty_ok t
  | PIndex i => 1 <= i <= 255
  end.

Definition arg_ok (a : Z * stype) : Prop := u32 (fst a) /\ ty_ok (snd a).

Definition token_ok (t : bytes * Z) : Prop :=
  List.length (fst t) = 32%nat /\ 1 <= snd t <= 2 ^ 63 - 1.

(** Lengths of the counted sequences. *)
Definition seq_ok (q : seqk) (n : Z) : Prop :=
  match q with
  | QTuple | QSigmaAnd | QSigmaOr => 2 <= n <= 255
  | QColl t => n < 2 ^ 16 /\ ty_ok t
  end.

Definition is_bools (e : expr G) : Prop := match e with EBools _ => True | _ => False end.
Definition is_bool_const (e : expr G) : Prop :=
  match e with EConst (MkConst SBoolean _) => True | _ => False end.

Definition bool_const (b : bool) : expr G := EConst (MkConst SBoolean (LBool b)).

(** The mode [seg] is [true] for an expression whose constants are about to be
    moved to a constant store: then nothing is asked of the constants and there are
    no placeholders. *)
Inductive ok_lit : rst -> stype -> lit G -> rst -> Prop :=
| ok_unit : forall st, ok_lit st SUnit LUnit st
| ok_bool : forall st b, ok_lit st SBoolean (LBool b) st
| ok_byte : forall st z, i8 z -> ok_lit st SByte (LByte z) st
| ok_short : forall st z, i16 z -> ok_lit st SShort (LShort z) st
| ok_int : forall st z, i32 z -> ok_lit st SInt (LInt z) st
| ok_long : forall st z, i64 z -> ok_lit st SLong (LLong z) st
| ok_bigint : forall st z, - 2 ^ 255 <= z < 2 ^ 255 -> ok_lit st SBigInt (LBigInt z) st
| ok_group : forall st p, ok_lit st SGroupElement (LGroup p) st
| ok_sigma : forall st s, sb_wf s -> ok_lit st SSigmaProp (LSigma s) st
| ok_avl : forall st a, avl_ok a -> ok_lit st SAvlTree (LAvl a) st
| ok_lbox : forall st b st', ok_box st b st' -> ok_lit st SBox (LBox b) st'
| ok_bytes_coll : forall st l, Forall i8 l -> Zlen l < 2 ^ 16 ->
    ok_lit st (SColl SByte) (LCollBytes l) st
| ok_coll : forall st t l st', t <> SByte -> Zlen l < 2 ^ 16 -> ok_lits st t l st' ->
    ok_lit st (SColl t) (LColl t l) st'
| ok_tup : forall st ts l st', 2 <= Zlen l <= 255 -> ok_items st ts l st' ->
    ok_lit st (STuple ts) (LTup l) st'
with ok_lits : rst -> stype -> list (lit G) -> rst -> Prop :=
| ok_lits_nil : forall st t, ok_lits st t [] st
| ok_lits_cons : forall st t v l st1 st2, ok_lit st t v st1 -> ok_lits st1 t l st2 ->
    ok_lits st t (v :: l) st2
with ok_items : rst -> list stype -> list (lit G) -> rst -> Prop :=
| ok_items_nil : forall st, ok_items st [] [] st
| ok_items_cons : forall st t ts v l st1 st2, ok_lit st t v st1 -> ok_items st1 ts l st2 ->
    ok_items st (t :: ts) (v :: l) st2
with ok_const : rst -> const G -> rst -> Prop :=
| ok_constant : forall st t v st', ty_ok t -> ok_lit st t v st' -> ok_const st (MkConst t v) st'
with ok_consts : rst -> list (const G) -> rst -> Prop :=
| ok_consts_nil : forall st, ok_consts st [] st
| ok_consts_cons : forall st c l st1 st2, ok_const st c st1 -> ok_consts st1 l st2 ->
    ok_consts st (c :: l) st2
with ok_expr : bool -> rst -> expr G -> rst -> Prop :=
| ok_inline : forall st c st', ok_const st c st' -> ok_expr false st (EConst c) st'
| ok_segregated : forall st c, ok_expr true st (EConst c) st
| ok_placeholder : forall st id c, u32 id -> rs_subst st = false ->
    nth_error (rs_store st) (Z.to_nat id) = Some c ->
    ok_expr false st (EPlaceholder id (c_tpe c)) st
| ok_op : forall m st k p args d st1 st2 t,
    pay_kind p = op_pay k -> payload_ok p -> List.length args = op_arity k ->
    (op_has_opt k = false -> d = None) ->
    op_ty k p (map tpe args) (option_map tpe d) = Ok t ->
    ok_exprs m st args st1 -> ok_opt m st1 d st2 ->
    ok_expr m st (EOp k p args d) st2
| ok_bin_bools : forall m st k x y, ok_expr m st (EBin k (bool_const x) (bool_const y)) st
| ok_bin : forall m st k l r st1 st2,
    ~ (is_bool_const l /\ is_bool_const r) -> ~ is_bools l ->
    ok_expr m st l st1 -> ok_expr m st1 r st2 -> ok_expr m st (EBin k l r) st2
| ok_bools : forall m st l, Zlen l < 2 ^ 16 -> ok_expr m st (EBools l) st
| ok_seq : forall m st q l st' t, seq_ok q (Zlen l) -> seq_ty q (map tpe l) = Ok t ->
    ok_exprs m st l st' -> ok_expr m st (ESeq q l) st'
| ok_func : forall m st args body st', Forall arg_ok args -> Zlen args < 2 ^ 32 ->
    ok_expr m (insert_args args st) body st' -> ok_expr m st (EFunc args body) st'
| ok_val_def : forall m st id rhs st', u32 id -> ok_expr m st rhs st' ->
    ok_expr m st (EValDef id rhs) (insert_type id (tpe rhs) st')
| ok_val_use : forall m st id t, u32 id -> ty_lookup (rs_types st) id = Some t ->
    ok_expr m st (EValUse id t) st
| ok_block : forall m st items r st1 st2, Zlen items < 2 ^ 32 ->
    ok_exprs m st items st1 -> ok_expr m st1 r st2 -> ok_expr m st (EBlock items r) st2
| ok_apply : forall m st f args st1 st2 t, Zlen args < 2 ^ 32 ->
    apply_ty (tpe f) (map tpe args) = Ok t ->
    ok_expr m st f st1 -> ok_exprs m st1 args st2 -> ok_expr m st (EApply f args) st2
| ok_method : forall m st g g0 obj args st1 st2, Zlen args < 2 ^ 32 ->
    from_ids (sm_code g) (sm_id g) = Ok g0 ->
    specialize_for g0 (tpe obj) (map tpe args) = Ok g ->
    sm_dom g = tpe obj :: map tpe args ->
    ok_expr m st obj st1 -> ok_exprs m st1 args st2 -> ok_expr m st (EMethod g obj args) st2
| ok_prop : forall m st g g0 obj st',
    from_ids (sm_code g) (sm_id g) = Ok g0 ->
    specialize_for g0 (tpe obj) [] = Ok g ->
    sm_dom g = [tpe obj] ->
    ok_expr m st obj st' -> ok_expr m st (EProp g obj) st'
with ok_exprs : bool -> rst -> list (expr G) -> rst -> Prop :=
| ok_exprs_nil : forall m st, ok_exprs m st [] st
| ok_exprs_cons : forall m st e l st1 st2, ok_expr m st e st1 -> ok_exprs m st1 l st2 ->
    ok_exprs m st (e :: l) st2
with ok_opt : bool -> rst -> option (expr G) -> rst -> Prop :=
| ok_none : forall m st, ok_opt m st None st
| ok_some : forall m st e st', ok_expr m st e st' -> ok_opt m st (Some e) st'
with ok_tree : rst -> tree G -> rst -> Prop :=
(** A script with the size flag is self-contained. *)
| ok_sized : forall st h cs root st1 st2, header_ok h -> th_size h = true ->
    ok_seg h fresh cs st1 -> ok_expr false (set_store cs st1) root st2 ->
    (forall bs, ser_tree (Parsed (THeader (th_version h) (th_seg h) false) cs root) = Ok bs ->
       Zlen bs <= 2 ^ 32) ->
    ok_tree st (Parsed h cs root) st
| ok_unsized : forall st h cs root st1 st2, header_ok h -> th_size h = false ->
    ok_seg h st cs st1 -> ok_expr false (set_store cs st1) root st2 ->
    ok_tree st (Parsed h cs root) st2
| ok_unparsed : forall st h n nb buf e, header_ok h -> th_size h = true ->
    n = Zlen buf -> u32 n -> put_u32 n = Ok nb ->
    parse_body (@parse_expr G) h fresh buf = Err e ->
    ok_tree st (Unparsed (th_serialized h :: nb ++ buf)) st
with ok_seg : theader -> rst -> list (const G) -> rst -> Prop :=
| ok_seg_yes : forall h st cs st', th_seg h = true -> Zlen cs <= max_constants ->
    ok_consts st cs st' -> ok_seg h st cs st'
| ok_seg_no : forall h st, th_seg h = false -> ok_seg h st [] st
with ok_reg : rst -> regval G -> rst -> Prop :=
| ok_reg_const : forall st c st', ok_const st c st' -> ok_reg st (RParsed c) st'
| ok_reg_tuple : forall st l st' c, 2 <= Zlen l <= 255 -> tuple_to_constant l = Some c ->
    ok_exprs false st l st' -> ok_reg st (RTuple l) st'
with ok_regs : rst -> list (regval G) -> rst -> Prop :=
| ok_regs_nil : forall st, ok_regs st [] st
| ok_regs_cons : forall st r l st1 st2, ok_reg st r st1 -> ok_regs st1 l st2 ->
    ok_regs st (r :: l) st2
with ok_cand : rst -> cand G -> rst -> Prop :=
| ok_candidate : forall st v t tk rg h st1 st2,
    box_value_min <= v <= 2 ^ 63 - 1 -> u32 h -> Forall token_ok tk -> Zlen tk <= max_tokens ->
    Zlen rg <= max_regs ->
    ok_tree st t st1 -> ok_regs st1 rg st2 -> ok_cand st (MkCand v t tk rg h) st2
with ok_box : rst -> box G -> rst -> Prop :=
| ok_ergo_box : forall st c txid i st', List.length txid = 32%nat -> u16 i ->
    ok_cand st c st' -> ok_box st (MkBox c txid i) st'.

Scheme ok_lit_mut := Minimality for ok_lit Sort Prop
  with ok_lits_mut := Minimality for ok_lits Sort Prop
  with ok_items_mut := Minimality for ok_items Sort Prop
  with ok_const_mut := Minimality for ok_const Sort Prop
  with ok_consts_mut := Minimality for ok_consts Sort Prop
  with ok_expr_mut := Minimality for ok_expr Sort Prop
  with ok_exprs_mut := Minimality for ok_exprs Sort Prop
  with ok_opt_mut := Minimality for ok_opt Sort Prop
  with ok_tree_mut := Minimality for ok_tree Sort Prop
  with ok_seg_mut := Minimality for ok_seg Sort Prop
  with ok_reg_mut := Minimality for ok_reg Sort Prop
  with ok_regs_mut := Minimality for ok_regs Sort Prop
  with ok_cand_mut := Minimality for ok_cand Sort Prop
  with ok_box_mut := Minimality for ok_box Sort Prop.
Combined Scheme ok_mutind from ok_lit_mut, ok_lits_mut, ok_items_mut, ok_const_mut,
  ok_consts_mut, ok_expr_mut, ok_exprs_mut, ok_opt_mut, ok_tree_mut, ok_seg_mut, ok_reg_mut,
  ok_regs_mut, ok_cand_mut, ok_box_mut.

End Spec.
