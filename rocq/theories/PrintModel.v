(** The pretty printer that the interpreter runs on a script that fails or that
    reduces to false: ergotree-ir/src/pretty_printer.rs and
    ergotree-ir/src/pretty_printer/print.rs.

    The text and the source positions are left out.  What is kept is what a caller
    can observe besides the text: whether printing panics.  Printing rebuilds
    every node and unwraps the constructor's check, and it keeps an unsigned
    indentation that some nodes decrease without having increased it.  The
    arithmetic is that of a release build: the indentation wraps.  A build with
    overflow checks panics earlier, at the decrement itself. *)
From Verif Require Import Base VlqModel GroupModel SigmaModel TypeModel MethodModel IrModel.
Local Open Scope string_scope.
Local Open Scope list_scope.
Local Open Scope Z_scope.

(** [PosTrackingWriter::inc_ident], [dec_ident] (pretty_printer.rs 45-51). *)
Definition inc_ident (i : Z) : Z := wrapu 64 (i + 2).
Definition dec_ident (i : Z) : Z := wrapu 64 (i - 2).
(** [print_indent] (pretty_printer.rs 20-22): padding of 2^63 characters or more
    exceeds the largest possible allocation. *)
Definition print_indent (i : Z) : res unit := if i <? 2 ^ 63 then Ok tt else Panic.

Section Print.
Context {G : group}.
Notation expr := (expr G).

Definition dtpe (d : option expr) : option stype :=
  match d with Some x => Some (tpe x) | None => None end.

(** The constructor checks unwrapped while printing (print.rs 285-300 [ByIndex],
    302-317 [Map], 319-334 [Exists], 336-355 [Fold], 384-401 [Filter], 438-457
    [ExtractRegisterAs], 459-472 [SelectField], 527-540 [OptionGet], 664-672
    [Upcast], 741-754 [Apply], 756-781 [Collection], 904-919 [OptionGetOrElse],
    954-969 [ForAll]).  [Fold::new] (mir/coll_fold.rs 28-51), [Upcast::new]
    (mir/upcast.rs 26-46) and [Collection::new] (mir/collection.rs 32-52) check
    more than the parser does; the others check what [op_ty] and [apply_ty] do. *)
Definition rebuilds (e : expr) : bool :=
  match e with
  | EOp OFold _ [a; z; f] None =>
      match pe (tpe a), tpe f with
      | SColl t, SFunc d _ => leqb stype_eqb d [STuple [tpe z; t]]
      | _, _ => false
      end
  | EOp OUpcast (PType t) [a] None => is_numeric t && is_numeric (pe (tpe a))
  | EOp k p args d =>
      match k with
      | OByIndex | OMap | OExists | OFilter | OForAll | OExtractRegisterAs | OSelectField
      | OOptionGet | OOptionGetOrElse => is_ok (op_ty k p (map tpe args) (dtpe d))
      | _ => true
      end
  | ESeq (QColl t) items => forallb (fun i => stype_eqb (tpe i) t) items
  | EApply f args => is_ok (apply_ty (tpe f) (map tpe args))
  | _ => true
  end.
Definition rebuild (e : expr) : res unit := if rebuilds e then Ok tt else Panic.

(** Children printed one after the other. *)
Definition print_each (f : expr -> Z -> res Z) : list expr -> Z -> res Z :=
  fix go l i := match l with [] => Ok i | x :: l' => i <- f x i ;; go l' i end.

(** [Expr::print] (print.rs 99-176 and the impl of each node): the indentation
    after the node.  [CreateAvlTree] (1108-1123) prints only the digest and the
    key length; [DeserializeRegister]'s default (1029-1034), [ByIndex]'s default (297)
    and placeholders (109) are not printed. *)
Fixpoint print_expr (e : expr) (i : Z) : res Z :=
  let check (j : Z) : res Z := _ <- rebuild e ;; Ok j in
  match e with
  | EConst _ | EPlaceholder _ _ | EValUse _ _ | EBools _ => Ok i
  (* ValDef (208-223) *)
  | EValDef _ rhs => print_expr rhs i
  (* BlockValue (178-206) *)
  | EBlock items r =>
      let i := inc_ident i in
      i <- print_each (fun x i => _ <- print_indent i ;; print_expr x i) items i ;;
      _ <- print_indent i ;;
      i <- print_expr r i ;;
      let i := dec_ident i in
      _ <- print_indent i ;; Ok i
  (* FuncValue (357-382) *)
  | EFunc _ body =>
      let i := inc_ident (inc_ident i) in
      _ <- print_indent i ;;
      let i := inc_ident i in
      _ <- print_indent i ;;
      i <- print_expr body i ;;
      let i := dec_ident i in
      _ <- print_indent i ;;
      Ok (dec_ident i)
  | EApply f args => i <- print_expr f i ;; i <- print_each print_expr args i ;; check i
  | EMethod _ obj args => i <- print_expr obj i ;; print_each print_expr args i
  | EProp _ obj => print_expr obj i
  | EBin _ l r => i <- print_expr l i ;; print_expr r i
  (* SigmaAnd (565-581), SigmaOr (583-599) *)
  | ESeq QSigmaAnd items | ESeq QSigmaOr items =>
      i <- print_each (fun x i => let i := inc_ident i in
                                  _ <- print_indent i ;;
                                  i <- print_expr x i ;; Ok (dec_ident i)) items i ;;
      _ <- print_indent i ;; Ok i
  | ESeq QTuple items => print_each print_expr items i
  | ESeq (QColl _) items => i <- print_each print_expr items i ;; check i
  (* Fold (336-355), Filter (384-401) *)
  | EOp OFold _ args _ | EOp OFilter _ args _ =>
      i <- print_each print_expr args i ;;
      _ <- print_indent i ;;
      check (dec_ident i)
  | EOp OCreateAvlTree _ (_ :: args) _ => print_each print_expr args i
  | EOp _ _ args _ => i <- print_each print_expr args i ;; check i
  end.

(** [Expr::pretty_print] and [to_string_pretty] (print.rs 83-89, mir/expr.rs
    335-340). *)
Definition pretty_print (e : expr) : res unit := _ <- print_expr e 0 ;; Ok tt.

End Print.
