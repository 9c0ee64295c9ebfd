(** Model of the ErgoTree type language and its binary encoding:
    ergotree-ir/src/types/{stype,stuple,sfunc,stype_param}.rs and
    ergotree-ir/src/serialization/types.rs. *)
From Verif Require Import Base VlqModel.
Local Open Scope string_scope.
Local Open Scope list_scope.
Local Open Scope Z_scope.

(** [SType] (types/stype.rs 24-67).  A type variable is its UTF-8 name
    (types/stype_param.rs 18-21, 1 to 254 bytes).  A tuple is its list of item
    types (types/stuple.rs 12, 2 to 255 items).  Simplification: [SFunc]
    (types/sfunc.rs 9-16) has no [tpe_params], which every constructor in the
    code base leaves empty. *)
Inductive stype : Type :=
| STypeVar (name : bytes)
| SAny | SUnit | SBoolean | SByte | SShort | SInt | SLong | SBigInt
| SGroupElement | SSigmaProp | SBox | SAvlTree
| SOption (t : stype)
| SColl (t : stype)
| STuple (items : list stype)
| SFunc (dom : list stype) (range : stype)
| SContext | SHeader | SPreHeader | SGlobal.

(** Element-wise equality of lists; the comparison is fixed outside the
    recursion so that it can be used below a nested recursion. *)
Definition leqb {A} (eqb : A -> A -> bool) : list A -> list A -> bool :=
  fix go l1 l2 :=
    match l1, l2 with
    | [], [] => true
    | a :: l1', b :: l2' => eqb a b && go l1' l2'
    | _, _ => false
    end.

(** Derived [PartialEq] on [SType] (types/stype.rs 22). *)
Fixpoint stype_eqb (a b : stype) {struct a} : bool :=
  match a, b with
  | STypeVar n, STypeVar m => leqb Z.eqb n m
  | SAny, SAny | SUnit, SUnit | SBoolean, SBoolean | SByte, SByte
  | SShort, SShort | SInt, SInt | SLong, SLong | SBigInt, SBigInt
  | SGroupElement, SGroupElement | SSigmaProp, SSigmaProp | SBox, SBox
  | SAvlTree, SAvlTree | SContext, SContext | SHeader, SHeader
  | SPreHeader, SPreHeader | SGlobal, SGlobal => true
  | SOption x, SOption y => stype_eqb x y
  | SColl x, SColl y => stype_eqb x y
  | STuple l, STuple m => leqb stype_eqb l m
  | SFunc d r, SFunc d' r' => leqb stype_eqb d d' && stype_eqb r r'
  | _, _ => false
  end.

(** [SType::is_numeric] (types/stype.rs 71-76). *)
Definition is_numeric (t : stype) : bool :=
  match t with SByte | SShort | SInt | SLong | SBigInt => true | _ => false end.

(** [SType::is_prim] (types/stype.rs 79-98). *)
Definition is_prim (t : stype) : bool :=
  match t with
  | SByte | SShort | SInt | SLong | SBigInt | SAny | SGroupElement | SSigmaProp
  | SBox | SAvlTree | SContext | SBoolean | SHeader | SPreHeader | SGlobal => true
  | _ => false
  end.

(** The codes 1 to 8 of the types that may be embedded in a constructor code
    (serialization/types.rs 20-27). *)
Definition emb_code (t : stype) : option Z :=
  match t with
  | SBoolean => Some 1 | SByte => Some 2 | SShort => Some 3 | SInt => Some 4
  | SLong => Some 5 | SBigInt => Some 6 | SGroupElement => Some 7
  | SSigmaProp => Some 8 | _ => None
  end.

Definition emb_type (c : Z) : option stype :=
  if c =? 1 then Some SBoolean else if c =? 2 then Some SByte
  else if c =? 3 then Some SShort else if c =? 4 then Some SInt
  else if c =? 5 then Some SLong else if c =? 6 then Some SBigInt
  else if c =? 7 then Some SGroupElement else if c =? 8 then Some SSigmaProp
  else None.

(** [STypeVar::sigma_serialize] and [sigma_parse] (types/stype_param.rs 78-89);
    [new_from_bytes] (38-51) checks UTF-8 before the length bounds. *)
Definition typevar_write (n : bytes) : bytes := wrapu 8 (Zlen n) :: n.
Definition typevar_read : reader stype := fun bs =>
  '(len, bs1) <- get_u8 bs ;;
  '(n, bs2) <- read_exact (Z.to_nat len) bs1 ;;
  if negb (utf8_valid n) then Err "InvalidArgument"
  else if (1 <=? Zlen n) && (Zlen n <=? 254) then Ok (STypeVar n, bs2)
  else Err "InvalidArgument".

(** [items.iter().try_for_each(|i| i.sigma_serialize(w))]. *)
Definition write_list {A} (w : A -> res bytes) : list A -> res bytes :=
  fix go l :=
    match l with
    | [] => Ok []
    | a :: l' => b1 <- w a ;; b2 <- go l' ;; Ok (b1 ++ b2)
    end.

(** [SType::sigma_serialize] (serialization/types.rs 341-549).  The pair table
    (434-523) lists symmetric codes for every embeddable type but [SShort]:
    two shorts take the [TUPLE_PAIR1_SHORT] row (455). *)
Fixpoint ser_type (t : stype) : res bytes :=
  match t with
  | SFunc _ _ => Err "NotSupported"
  | SAny => Ok [97] | SUnit => Ok [98]
  | SBoolean => Ok [1] | SByte => Ok [2] | SShort => Ok [3] | SInt => Ok [4]
  | SLong => Ok [5] | SBigInt => Ok [6] | SGroupElement => Ok [7]
  | SSigmaProp => Ok [8] | SBox => Ok [99] | SAvlTree => Ok [100]
  | SContext => Ok [101] | SHeader => Ok [104] | SPreHeader => Ok [105]
  | SGlobal => Ok [106]
  | SOption e =>
      match emb_code e with
      | Some p => Ok [36 + p]
      | None =>
          match e with
          | SColl i =>
              match emb_code i with
              | Some p => Ok [48 + p]
              | None => b <- ser_type e ;; Ok (36 :: b)
              end
          | _ => b <- ser_type e ;; Ok (36 :: b)
          end
      end
  | SColl e =>
      match emb_code e with
      | Some p => Ok [12 + p]
      | None =>
          match e with
          | SColl i =>
              match emb_code i with
              | Some p => Ok [24 + p]
              | None => b <- ser_type e ;; Ok (12 :: b)
              end
          | _ => b <- ser_type e ;; Ok (12 :: b)
          end
      end
  | STuple items =>
      match items with
      | [t1; t2] =>
          match emb_code t1, emb_code t2 with
          | Some p, Some q =>
              if (p =? q) && negb (p =? 3) then Ok [84 + p]
              else b <- ser_type t2 ;; Ok ((60 + p) :: b)
          | Some p, None => b <- ser_type t2 ;; Ok ((60 + p) :: b)
          | None, Some q => b <- ser_type t1 ;; Ok ((72 + q) :: b)
          | None, None =>
              b1 <- ser_type t1 ;; b2 <- ser_type t2 ;; Ok (60 :: b1 ++ b2)
          end
      | [t1; t2; t3] =>
          b1 <- ser_type t1 ;; b2 <- ser_type t2 ;; b3 <- ser_type t3 ;;
          Ok (72 :: b1 ++ b2 ++ b3)
      | [t1; t2; t3; t4] =>
          b1 <- ser_type t1 ;; b2 <- ser_type t2 ;; b3 <- ser_type t3 ;;
          b4 <- ser_type t4 ;; Ok (84 :: b1 ++ b2 ++ b3 ++ b4)
      | _ =>
          b <- write_list ser_type items ;;
          Ok (96 :: wrapu 8 (Zlen items) :: b)
      end
  | STypeVar n => Ok (103 :: typevar_write n)
  end.

(** [TypeCode::parse] (serialization/types.rs 149-154, enumeration 19-112): the
    bytes that are type codes. *)
Definition is_type_code (c : Z) : bool :=
  ((1 <=? c) && (c <=? 8)) || ((12 <=? c) && (c <=? 20)) ||
  ((25 <=? c) && (c <=? 32)) || ((36 <=? c) && (c <=? 44)) ||
  ((49 <=? c) && (c <=? 56)) || ((60 <=? c) && (c <=? 68)) ||
  ((72 <=? c) && (c <=? 80)) || ((84 <=? c) && (c <=? 92)) ||
  ((96 <=? c) && (c <=? 101)) || ((103 <=? c) && (c <=? 106)).

(** [SType::parse_with_type_code] (serialization/types.rs 176-328), with the
    recursive parser passed in.  Codes of a constructor with an embedded type
    are decoded as base code + embedded code. *)
Definition parse_tc_with (rec : reader stype) (c : Z) : reader stype := fun bs =>
  match emb_type c with
  | Some t => Ok (t, bs)
  | None =>
  if c =? 12 then '(t, r) <- rec bs ;; Ok (SColl t, r)
  else if (13 <=? c) && (c <=? 20) then
    t <- of_option "InvalidTypeCode" (emb_type (c - 12)) ;; Ok (SColl t, bs)
  else if (25 <=? c) && (c <=? 32) then
    t <- of_option "InvalidTypeCode" (emb_type (c - 24)) ;; Ok (SColl (SColl t), bs)
  else if c =? 36 then '(t, r) <- rec bs ;; Ok (SOption t, r)
  else if (37 <=? c) && (c <=? 44) then
    t <- of_option "InvalidTypeCode" (emb_type (c - 36)) ;; Ok (SOption t, bs)
  else if (49 <=? c) && (c <=? 56) then
    t <- of_option "InvalidTypeCode" (emb_type (c - 48)) ;; Ok (SOption (SColl t), bs)
  else if c =? 60 then
    '(t1, r1) <- rec bs ;; '(t2, r2) <- rec r1 ;; Ok (STuple [t1; t2], r2)
  else if (61 <=? c) && (c <=? 68) then
    t1 <- of_option "InvalidTypeCode" (emb_type (c - 60)) ;;
    '(t2, r) <- rec bs ;; Ok (STuple [t1; t2], r)
  else if c =? 72 then
    '(t1, r1) <- rec bs ;; '(t2, r2) <- rec r1 ;; '(t3, r3) <- rec r2 ;;
    Ok (STuple [t1; t2; t3], r3)
  else if (73 <=? c) && (c <=? 80) then
    t2 <- of_option "InvalidTypeCode" (emb_type (c - 72)) ;;
    '(t1, r) <- rec bs ;; Ok (STuple [t1; t2], r)
  else if c =? 84 then
    '(t1, r1) <- rec bs ;; '(t2, r2) <- rec r1 ;; '(t3, r3) <- rec r2 ;;
    '(t4, r4) <- rec r3 ;; Ok (STuple [t1; t2; t3; t4], r4)
  else if (85 <=? c) && (c <=? 92) then
    t <- of_option "InvalidTypeCode" (emb_type (c - 84)) ;; Ok (STuple [t; t], bs)
  else if c =? 96 then
    '(len, r1) <- get_u8 bs ;;
    '(items, r2) <- read_n (Z.to_nat len) rec r1 ;;
    if (2 <=? Zlen items) && (Zlen items <=? 255) then Ok (STuple items, r2)
    else Err "TupleItemsOutOfBounds"
  else if c =? 97 then Ok (SAny, bs)
  else if c =? 98 then Ok (SUnit, bs)
  else if c =? 99 then Ok (SBox, bs)
  else if c =? 100 then Ok (SAvlTree, bs)
  else if c =? 101 then Ok (SContext, bs)
  else if c =? 103 then typevar_read bs
  else if c =? 104 then Ok (SHeader, bs)
  else if c =? 105 then Ok (SPreHeader, bs)
  else if c =? 106 then Ok (SGlobal, bs)
  else Err "InvalidTypeCode"
  end.

(** [SType::sigma_parse] (serialization/types.rs 551-555).  The Rust recursion is
    not bounded; every level reads a byte, so a fuel larger than the number of
    bytes is never exhausted ([parse_type_total_fuel] in TypeProofs). *)
Fixpoint parse_type_f (fuel : nat) : reader stype := fun bs =>
  match fuel with
  | O => Err "fuel"
  | S n =>
      '(c, r) <- get_u8 bs ;;
      parse_tc_with (parse_type_f n) c r
  end.

Definition parse_type : reader stype := fun bs => parse_type_f (S (List.length bs)) bs.

(** [SType::parse_with_type_code(r, c)] for a code already read and validated by
    [TypeCode::parse]. *)
Definition parse_with_type_code (c : Z) : reader stype := fun bs =>
  parse_tc_with (parse_type_f (S (List.length bs))) c bs.
