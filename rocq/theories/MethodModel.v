(** Model of type unification and of the method tables:
    ergotree-ir/src/types/{type_unify,smethod,stype_companion,scontext,sbox,scoll,
    sgroup_elem,sglobal,sheader,spreheader,soption,savltree}.rs. *)
From Verif Require Import Base VlqModel TypeModel.
Local Open Scope string_scope.
Local Open Scope list_scope.
Local Open Scope Z_scope.

(** A substitution of type variables, [HashMap<STypeVar, SType>]. *)
Definition tsubst := list (bytes * stype).

Fixpoint ts_get (s : tsubst) (n : bytes) : option stype :=
  match s with
  | [] => None
  | (m, t) :: s' => if leqb Z.eqb m n then Some t else ts_get s' n
  end.

(** [SType::with_subst] (types/stype.rs 100-109), with [STuple::with_subst]
    (stuple.rs 74-78) and [SFunc::with_subst] (sfunc.rs 42-57). *)
Fixpoint with_subst (s : tsubst) (t : stype) : stype :=
  match t with
  | STypeVar n => match ts_get s n with Some u => u | None => t end
  | SOption e => SOption (with_subst s e)
  | SColl e => SColl (with_subst s e)
  | STuple l => STuple (map (with_subst s) l)
  | SFunc d r => SFunc (map (with_subst s) d) (with_subst s r)
  | _ => t
  end.

(** The merging loop of [unify_many] (types/type_unify.rs 28-41): a variable bound
    twice must be bound to the same type. *)
Fixpoint ts_merge (acc s : tsubst) : res tsubst :=
  match s with
  | [] => Ok acc
  | (n, t) :: s' =>
      match ts_get acc n with
      | Some u => if stype_eqb u t then ts_merge acc s' else Err "TypeUnificationError"
      | None => ts_merge (acc ++ [(n, t)]) s'
      end
  end.

(** Unification of two lists of equal length, item by item, then merging. *)
Definition unify_list (u : stype -> stype -> res tsubst) : tsubst -> list stype -> list stype -> res tsubst :=
  fix go acc l1 l2 :=
    match l1, l2 with
    | [], [] => Ok acc
    | a :: l1', b :: l2' => s <- u a b ;; acc' <- ts_merge acc s ;; go acc' l1' l2'
    | _, _ => Err "TypeUnificationError"
    end.

(** [unify_one] (types/type_unify.rs 52-76).  Simplification: all item
    substitutions are computed before any merging in the code; only which error is
    reported first differs. *)
Fixpoint unify_one (t1 t2 : stype) {struct t1} : res tsubst :=
  let prim_or_err :=
    if is_prim t1 && is_prim t2 && stype_eqb t1 t2 then Ok []
    else match t1, t2 with
         | SAny, _ => Ok []
         | SBoolean, SSigmaProp => Ok []
         | _, _ => Err "TypeUnificationError"
         end in
  match t1, t2 with
  | STypeVar a, STypeVar b => if leqb Z.eqb a b then Ok [] else Err "TypeUnificationError"
  | STypeVar a, _ => Ok [(a, t2)]
  | SColl e1, SColl e2 => unify_one e1 e2
  | SColl e1, STuple _ => unify_one e1 SAny
  | STuple l1, STuple l2 => unify_list unify_one [] l1 l2
  | SOption e1, SOption e2 => unify_one e1 e2
  | SFunc d1 r1, SFunc d2 r2 =>
      s <- unify_list unify_one [] d1 d2 ;;
      s' <- unify_one r1 r2 ;; ts_merge s s'
  | _, _ => prim_or_err
  end.

(** [unify_many] (types/type_unify.rs 14-44). *)
Definition unify_many (l1 l2 : list stype) : res tsubst := unify_list unify_one [] l1 l2.

(** [SMethod] (types/smethod.rs 18-27, 98-104): the companion's type code, the
    method id and the (possibly specialised) signature.  The name is left out. *)
Record smethod := SMethod {
  sm_code : Z;
  sm_id : Z;
  sm_dom : list stype;
  sm_range : stype;
}.

Definition cbyte := SColl SByte.
Definition tv_t := STypeVar [84].          (* "T",  types/stype_param.rs 60 *)
Definition tv_iv := STypeVar [73; 86].     (* "IV", types/stype_param.rs 66 *)
Definition tv_ov := STypeVar [79; 86].     (* "OV", types/stype_param.rs 71 *)

(** Type codes of the companions (types/stype_companion.rs 77-90). *)
Definition companion_codes : list Z := [101; 99; 12; 7; 106; 104; 105; 36; 100].

(** The method descriptors of every companion. *)
Definition method_table : list smethod :=
  (* types/scontext.rs *)
  [ SMethod 101 1 [SContext] (SColl SBox);
    SMethod 101 2 [SContext] (SColl SHeader);
    SMethod 101 3 [SContext] SPreHeader;
    SMethod 101 4 [SContext] (SColl SBox);
    SMethod 101 5 [SContext] (SColl SBox);
    SMethod 101 6 [SContext] SInt;
    SMethod 101 7 [SContext] SBox;
    SMethod 101 8 [SContext] SInt;
    SMethod 101 9 [SContext] SAvlTree;
    SMethod 101 10 [SContext] cbyte;
  (* types/sbox.rs *)
    SMethod 99 1 [SBox] SLong;
    SMethod 99 7 [SBox; SByte] (SOption tv_t);
    SMethod 99 8 [SBox] (SColl (STuple [cbyte; SLong]));
  (* types/scoll.rs *)
    SMethod 12 26 [SColl tv_t; tv_t; SInt] SInt;
    SMethod 12 15 [SColl tv_iv; SFunc [tv_iv] (SColl tv_ov)] (SColl tv_ov);
    SMethod 12 29 [SColl tv_t; SColl tv_iv] (SColl (STuple [tv_t; tv_iv]));
    SMethod 12 14 [SColl tv_t] (SColl SInt);
    SMethod 12 19 [SColl tv_t; SInt; SColl tv_t; SInt] (SColl tv_t);
    SMethod 12 20 [SColl tv_t; SInt; tv_t] (SColl tv_t);
    SMethod 12 21 [SColl tv_t; SColl SInt; SColl tv_t] (SColl tv_t);
  (* types/sgroup_elem.rs *)
    SMethod 7 2 [SGroupElement] cbyte;
    SMethod 7 5 [SGroupElement] SGroupElement;
  (* types/sglobal.rs *)
    SMethod 106 1 [SGlobal] SGroupElement;
    SMethod 106 2 [SGlobal; cbyte; cbyte] cbyte;
  (* types/sheader.rs *)
    SMethod 104 1 [SHeader] cbyte;
    SMethod 104 2 [SHeader] SByte;
    SMethod 104 3 [SHeader] cbyte;
    SMethod 104 4 [SHeader] cbyte;
    SMethod 104 5 [SHeader] SAvlTree;
    SMethod 104 6 [SHeader] cbyte;
    SMethod 104 7 [SHeader] SLong;
    SMethod 104 8 [SHeader] SLong;
    SMethod 104 9 [SHeader] SInt;
    SMethod 104 10 [SHeader] cbyte;
    SMethod 104 11 [SHeader] SGroupElement;
    SMethod 104 12 [SHeader] SGroupElement;
    SMethod 104 13 [SHeader] cbyte;
    SMethod 104 14 [SHeader] SBigInt;
    SMethod 104 15 [SHeader] cbyte;
  (* types/spreheader.rs *)
    SMethod 105 1 [SPreHeader] SByte;
    SMethod 105 2 [SPreHeader] cbyte;
    SMethod 105 3 [SPreHeader] SLong;
    SMethod 105 4 [SPreHeader] SLong;
    SMethod 105 5 [SPreHeader] SInt;
    SMethod 105 6 [SPreHeader] SGroupElement;
    SMethod 105 7 [SPreHeader] cbyte;
  (* types/soption.rs *)
    SMethod 36 7 [SOption tv_iv; SFunc [tv_iv] tv_ov] (SOption tv_ov);
    SMethod 36 8 [SOption tv_iv; SFunc [tv_iv] SBoolean] (SOption tv_iv);
  (* types/savltree.rs *)
    SMethod 100 1 [SAvlTree] cbyte;
    SMethod 100 2 [SAvlTree] SByte;
    SMethod 100 3 [SAvlTree] SInt;
    SMethod 100 4 [SAvlTree] (SOption SInt);
    SMethod 100 5 [SAvlTree] SBoolean;
    SMethod 100 6 [SAvlTree] SBoolean;
    SMethod 100 7 [SAvlTree] SBoolean;
    SMethod 100 8 [SAvlTree; SByte] SAvlTree;
    SMethod 100 9 [SAvlTree; cbyte; cbyte] SBoolean;
    SMethod 100 10 [SAvlTree; cbyte; cbyte] (SOption cbyte);
    SMethod 100 11 [SAvlTree; SColl cbyte; cbyte] (SColl (SOption cbyte));
    SMethod 100 12 [SAvlTree; SColl (STuple [cbyte; cbyte]); cbyte] (SOption SAvlTree);
    SMethod 100 13 [SAvlTree; SColl (STuple [cbyte; cbyte]); cbyte] (SOption SAvlTree);
    SMethod 100 14 [SAvlTree; SColl cbyte; cbyte] (SOption SAvlTree);
    SMethod 100 15 [SAvlTree; cbyte] SAvlTree
  ].

(** [SMethod::from_ids] (types/smethod.rs 48-57) with
    [STypeCompanion::try_from(TypeCode)] and [method_by_id]
    (types/stype_companion.rs 61-66, 107-120). *)
Definition from_ids (code mid : Z) : res smethod :=
  if existsb (Z.eqb code) companion_codes then
    of_option "UnknownMethodId"
      (find (fun m => (sm_code m =? code) && (sm_id m =? mid)) method_table)
  else Err "NotImplementedYet".

(** [SMethod::with_concrete_types] (types/smethod.rs 75-81). *)
Definition with_concrete_types (m : smethod) (s : tsubst) : smethod :=
  SMethod (sm_code m) (sm_id m) (map (with_subst s) (sm_dom m)) (with_subst s (sm_range m)).

(** [SMethod::specialize_for] (types/smethod.rs 85-94). *)
Definition specialize_for (m : smethod) (obj : stype) (args : list stype) : res smethod :=
  s <- unify_many (sm_dom m) (obj :: args) ;; Ok (with_concrete_types m s).

(** The type checks of [MethodCall::new] (mir/method_call.rs 31-57) and
    [PropertyCall::new] (mir/property_call.rs 20-44): the signature's domain must
    equal the types of the object and the arguments. *)
Definition method_types_match (m : smethod) (obj : stype) (args : list stype) : bool :=
  leqb stype_eqb (sm_dom m) (obj :: args).
