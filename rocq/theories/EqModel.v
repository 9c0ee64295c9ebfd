(** Structural equality of the intermediate representation: the derived
    [PartialEq] of [Literal] (mir/constant.rs 54), [Constant] (mir/constant.rs 44),
    [Expr] (mir/expr.rs 87) and the structs it holds, [ErgoTree] (ergo_tree.rs
    28, 112), [RegisterValue] (chain/ergo_box/register/value.rs 10),
    [ErgoBoxCandidate] and [ErgoBox] (chain/ergo_box.rs 51, 222).  The fields that
    IrModel.v leaves out (source positions, stored parse errors) are not compared. *)
From Verif Require Import Base VlqModel GroupModel SigmaModel TypeModel MethodModel IrModel HeaderModel.
Local Open Scope string_scope.
Local Open Scope list_scope.
Local Open Scope Z_scope.

(** Derived equality of field-less enums, through their distinct codes. *)
Definition opk_eqb (a b : opk) : bool := op_code a =? op_code b.
Definition bink_eqb (a b : bink) : bool := bin_code a =? bin_code b.
(** Derived equality of the payload fields of the nodes. *)
Definition payload_eqb (a b : payload) : bool :=
  match a, b with
  | PNone, PNone => true
  | PType t, PType u => stype_eqb t u
  | PI8Type r t, PI8Type s u => (r =? s) && stype_eqb t u
  | PU8Type r t, PU8Type s u => (r =? s) && stype_eqb t u
  | PTypeU8 t r, PTypeU8 u s => stype_eqb t u && (r =? s)
  | PIndex i, PIndex j => i =? j
  | _, _ => false
  end.
Definition seqk_eqb (a b : seqk) : bool :=
  match a, b with
  | QTuple, QTuple | QSigmaAnd, QSigmaAnd | QSigmaOr, QSigmaOr => true
  | QColl t, QColl u => stype_eqb t u
  | _, _ => false
  end.
(** [SMethod] (types/smethod.rs 24, 34). *)
Definition smethod_eqb (a b : smethod) : bool :=
  (sm_code a =? sm_code b) && (sm_id a =? sm_id b) &&
  leqb stype_eqb (sm_dom a) (sm_dom b) && stype_eqb (sm_range a) (sm_range b).
(** [AvlTreeData] (mir/avl_tree_data.rs 58). *)
Definition avl_eqb (a b : avl) : bool :=
  leqb Z.eqb (av_digest a) (av_digest b) && (av_flags a =? av_flags b) &&
  (av_key_len a =? av_key_len b) && opt_eqb Z.eqb (av_val_len a) (av_val_len b).
(** [ErgoTreeHeader] (ergo_tree/tree_header.rs 24). *)
Definition theader_eqb (a b : theader) : bool :=
  (th_version a =? th_version b) && Bool.eqb (th_seg a) (th_seg b) && Bool.eqb (th_size a) (th_size b).
Definition arg_eqb (a b : Z * stype) : bool := (fst a =? fst b) && stype_eqb (snd a) (snd b).
Definition token_eqb (a b : bytes * Z) : bool := leqb Z.eqb (fst a) (fst b) && (snd a =? snd b).

Section Eq.
Context {G : group}.

Fixpoint lit_eqb (a b : lit G) {struct a} : bool :=
  match a, b with
  | LUnit, LUnit => true
  | LBool x, LBool y => Bool.eqb x y
  | LByte x, LByte y | LShort x, LShort y | LInt x, LInt y | LLong x, LLong y
  | LBigInt x, LBigInt y => x =? y
  | LSigma x, LSigma y => sbool_eqb x y
  | LGroup x, LGroup y => geqb x y
  | LAvl x, LAvl y => avl_eqb x y
  | LBox x, LBox y => box_eqb x y
  | LCollBytes x, LCollBytes y => leqb Z.eqb x y
  | LColl t x, LColl u y => stype_eqb t u && leqb lit_eqb x y
  | LOpt x, LOpt y => opt_eqb lit_eqb x y
  | LTup x, LTup y => leqb lit_eqb x y
  | _, _ => false
  end
with const_eqb (a b : const G) {struct a} : bool :=
  match a, b with MkConst t v, MkConst u w => stype_eqb t u && lit_eqb v w end
with expr_eqb (a b : expr G) {struct a} : bool :=
  match a, b with
  | EConst x, EConst y => const_eqb x y
  | EPlaceholder i t, EPlaceholder j u => (i =? j) && stype_eqb t u
  | EOp k p l d, EOp k' p' l' d' =>
      opk_eqb k k' && payload_eqb p p' && leqb expr_eqb l l' && opt_eqb expr_eqb d d'
  | EBin k l r, EBin k' l' r' => bink_eqb k k' && expr_eqb l l' && expr_eqb r r'
  | EBools x, EBools y => leqb Bool.eqb x y
  | ESeq q x, ESeq q' y => seqk_eqb q q' && leqb expr_eqb x y
  | EFunc l b, EFunc l' b' => leqb arg_eqb l l' && expr_eqb b b'
  | EValDef i x, EValDef j y => (i =? j) && expr_eqb x y
  | EValUse i t, EValUse j u => (i =? j) && stype_eqb t u
  | EBlock l r, EBlock l' r' => leqb expr_eqb l l' && expr_eqb r r'
  | EApply f l, EApply f' l' => expr_eqb f f' && leqb expr_eqb l l'
  | EMethod m o l, EMethod m' o' l' => smethod_eqb m m' && expr_eqb o o' && leqb expr_eqb l l'
  | EProp m o, EProp m' o' => smethod_eqb m m' && expr_eqb o o'
  | _, _ => false
  end
with tree_eqb (a b : tree G) {struct a} : bool :=
  match a, b with
  | Unparsed x, Unparsed y => leqb Z.eqb x y
  | Parsed h cs r, Parsed h' cs' r' => theader_eqb h h' && leqb const_eqb cs cs' && expr_eqb r r'
  | _, _ => false
  end
with regval_eqb (a b : regval G) {struct a} : bool :=
  match a, b with
  | RParsed x, RParsed y => const_eqb x y
  | RTuple x, RTuple y => leqb expr_eqb x y
  | RInvalid x, RInvalid y => leqb Z.eqb x y
  | _, _ => false
  end
with cand_eqb (a b : cand G) {struct a} : bool :=
  match a, b with
  | MkCand v t k r h, MkCand v' t' k' r' h' =>
      (v =? v') && tree_eqb t t' && leqb token_eqb k k' && leqb regval_eqb r r' && (h =? h')
  end
with box_eqb (a b : box G) {struct a} : bool :=
  match a, b with
  | MkBox c t i, MkBox c' t' i' => cand_eqb c c' && leqb Z.eqb t t' && (i =? i')
  end.
End Eq.
