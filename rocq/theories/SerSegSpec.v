(** Constant segregation: the constants of an expression in order, the expression
    with its constants replaced by numbered placeholders, and the converse. *)
From Verif Require Import Base VlqModel GroupModel SigmaModel TypeModel MethodModel IrModel SerModel.
Local Open Scope string_scope.
Local Open Scope list_scope.
Local Open Scope Z_scope.

Section Seg.
Context {G : group}.
Notation expr := (expr G).
Notation const := (const G).

(** Two Boolean constants under a binary operation are kept in place. *)
Definition bool_pair (l r : expr) : bool :=
  match l, r with
  | EConst (MkConst SBoolean _), EConst (MkConst SBoolean _) => true
  | _, _ => false
  end.

(** The constants of an expression, left to right. *)
Fixpoint consts_of (e : expr) : list const :=
  match e with
  | EConst c => [c]
  | EPlaceholder _ _ | EBools _ | EValUse _ _ => []
  | EOp _ _ args d =>
      flat_map consts_of args ++ match d with Some x => consts_of x | None => [] end
  | EBin _ l r => if bool_pair l r then [] else consts_of l ++ consts_of r
  | ESeq _ items => flat_map consts_of items
  | EFunc _ body => consts_of body
  | EValDef _ rhs => consts_of rhs
  | EBlock items r => flat_map consts_of items ++ consts_of r
  | EApply f args => consts_of f ++ flat_map consts_of args
  | EMethod _ obj args => consts_of obj ++ flat_map consts_of args
  | EProp _ obj => consts_of obj
  end.

(** Replace each constant by a placeholder; the first one gets the number [n]. *)
Definition abs_list (f : Z -> expr -> expr) : Z -> list expr -> list expr :=
  fix go n l :=
    match l with
    | [] => []
    | x :: l' => f n x :: go (n + Zlen (consts_of x)) l'
    end.
Fixpoint abs (n : Z) (e : expr) : expr :=
  match e with
  | EConst c => EPlaceholder n (c_tpe c)
  | EPlaceholder _ _ | EBools _ | EValUse _ _ => e
  | EOp k p args d =>
      EOp k p (abs_list abs n args)
        match d with
        | Some x => Some (abs (n + Zlen (flat_map consts_of args)) x)
        | None => None
        end
  | EBin k l r =>
      if bool_pair l r then e else EBin k (abs n l) (abs (n + Zlen (consts_of l)) r)
  | ESeq q items => ESeq q (abs_list abs n items)
  | EFunc args body => EFunc args (abs n body)
  | EValDef id rhs => EValDef id (abs n rhs)
  | EBlock items r =>
      EBlock (abs_list abs n items) (abs (n + Zlen (flat_map consts_of items)) r)
  | EApply f args => EApply (abs n f) (abs_list abs (n + Zlen (consts_of f)) args)
  | EMethod m obj args => EMethod m (abs n obj) (abs_list abs (n + Zlen (consts_of obj)) args)
  | EProp m obj => EProp m (abs n obj)
  end.

(** Replace each placeholder by the constant it stands for. *)
Fixpoint fill (cs : list const) (e : expr) : expr :=
  match e with
  | EPlaceholder id _ =>
      match nth_error cs (Z.to_nat id) with Some c => EConst c | None => e end
  | EConst _ | EBools _ | EValUse _ _ => e
  | EOp k p args d =>
      EOp k p (map (fill cs) args) (match d with Some x => Some (fill cs x) | None => None end)
  | EBin k l r => if bool_pair l r then e else EBin k (fill cs l) (fill cs r)
  | ESeq q items => ESeq q (map (fill cs) items)
  | EFunc args body => EFunc args (fill cs body)
  | EValDef id rhs => EValDef id (fill cs rhs)
  | EBlock items r => EBlock (map (fill cs) items) (fill cs r)
  | EApply f args => EApply (fill cs f) (map (fill cs) args)
  | EMethod m obj args => EMethod m (fill cs obj) (map (fill cs) args)
  | EProp m obj => EProp m (fill cs obj)
  end.

(** Forget the values of the constants, keeping their types. *)
Fixpoint erase (e : expr) : expr :=
  match e with
  | EConst (MkConst t _) => EConst (MkConst t LUnit)
  | EPlaceholder _ _ | EBools _ | EValUse _ _ => e
  | EOp k p args d =>
      EOp k p (map erase args) (match d with Some x => Some (erase x) | None => None end)
  | EBin k l r => if bool_pair l r then e else EBin k (erase l) (erase r)
  | ESeq q items => ESeq q (map erase items)
  | EFunc args body => EFunc args (erase body)
  | EValDef id rhs => EValDef id (erase rhs)
  | EBlock items r => EBlock (map erase items) (erase r)
  | EApply f args => EApply (erase f) (map erase args)
  | EMethod m obj args => EMethod m (erase obj) (map erase args)
  | EProp m obj => EProp m (erase obj)
  end.

(** No constant left in place, other than Boolean pairs. *)
Definition no_inline (e : expr) : Prop := consts_of e = [].

End Seg.
