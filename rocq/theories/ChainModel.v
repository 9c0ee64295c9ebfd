(** Boxes: nanoERG values, token amounts, registers, identifiers.
    ergotree-ir/src/chain/ergo_box.rs, ergotree-ir/src/chain/ergo_box/box_value.rs,
    ergotree-ir/src/chain/token.rs, ergotree-ir/src/chain/ergo_box/register.rs,
    ergotree-ir/src/chain/ergo_box/register/id.rs,
    ergotree-ir/src/chain/ergo_box/register/value.rs. *)
From Verif Require Import Base VlqModel GroupModel SigmaModel TypeModel MethodModel IrModel SerModel.
Local Open Scope string_scope.
Local Open Scope list_scope.
Local Open Scope Z_scope.

(** ** [BoxValue] (chain/ergo_box/box_value.rs) *)

Definition u64_checked (z : Z) : option Z := if (0 <=? z) && (z <? 2 ^ 64) then Some z else None.
Definition upto_max (raw : Z) : res Z := if raw <=? i64_max then Ok raw else Err "OutOfBounds".

(** [BoxValue::new], [TryFrom<u64>] (53-55, 122-131). *)
Definition bv_new (v : Z) : res Z := box_value_of v.
(** [TryFrom<i64>] (133-142). *)
Definition bv_of_i64 (v : Z) : res Z :=
  if box_value_min <=? v then Ok v else Err "OutOfBounds".
(** [checked_add] (73-80). *)
Definition bv_add (a b : Z) : res Z :=
  raw <- of_option "Overflow" (u64_checked (a + b)) ;; upto_max raw.
(** [checked_sub] (83-90). *)
Definition bv_sub (a b : Z) : res Z :=
  raw <- of_option "Overflow" (u64_checked (a - b)) ;;
  if box_value_min <=? raw then Ok raw else Err "OutOfBounds".
(** [checked_mul] (93-100) and [checked_mul_u32] (103-113). *)
Definition bv_mul (a b : Z) : res Z :=
  raw <- of_option "Overflow" (u64_checked (a * b)) ;; upto_max raw.
(** [checked_sum] (199-211). *)
Fixpoint bv_fold (acc : Z) (l : list Z) : res Z :=
  match l with [] => Ok acc | v :: l' => acc' <- bv_add acc v ;; bv_fold acc' l' end.
Definition bv_sum (l : list Z) : res Z :=
  v <- bv_fold 0 l ;; if v =? 0 then Err "OutOfBounds" else Ok v.

(** The derived [FromStr] (20-22) of the newtype: the text of a [u64], without a
    bound check.  [u64::from_str] accepts an optional plus sign and at least one
    decimal digit. *)
Fixpoint digits_value (acc : Z) (s : list Z) : option Z :=
  match s with
  | [] => Some acc
  | c :: s' => if (48 <=? c) && (c <=? 57) then digits_value (10 * acc + (c - 48)) s' else None
  end.
Definition strip_plus (s : bytes) : bytes :=
  match s with c :: s' => if c =? 43 then s' else s | [] => [] end.
Definition unsigned_of_text (bound : Z) (s : bytes) : option Z :=
  match strip_plus s with
  | [] => None
  | d => match digits_value 0 d with Some v => if v <? bound then Some v else None | None => None end
  end.
Definition bv_of_text (s : bytes) : res Z := of_option "ParseIntError" (unsigned_of_text (2 ^ 64) s).

(** ** [TokenAmount] (chain/token.rs) *)
(** [TryFrom<u64>] (136-146), [checked_add] (97-107), [checked_sub] (110-120). *)
Definition ta_new (v : Z) : res Z := token_amount_of v.
Definition ta_add (a b : Z) : res Z :=
  raw <- of_option "Overflow" (u64_checked (a + b)) ;; upto_max raw.
Definition ta_sub (a b : Z) : res Z :=
  raw <- of_option "Overflow" (u64_checked (a - b)) ;;
  if 1 <=? raw then Ok raw else Err "OutOfBounds".

(** ** Register identifiers (register/id.rs) *)

(** Registers are numbered 0-9; [RegisterId::try_from(i8)] (31-47). *)
Definition reg_id_of_i8 (v : Z) : res Z := if (0 <=? v) && (v <=? 9) then Ok v else Err "RegisterIdOutOfBounds".
(** [TryFrom<u8>] (49-55): through [as i8]. *)
Definition reg_id_of_u8 (v : Z) : res Z := reg_id_of_i8 (wraps 8 v).
(** [From<NonMandatoryRegisterId> for String] (140-144) as UTF-8 bytes. *)
Definition reg_id_text (id : Z) : bytes := [82; 48 + id].
(** [TryFrom<String> for NonMandatoryRegisterId] (146-166).  The argument is the
    UTF-8 encoding of a string: [&str[..1]] panics when the second byte continues a
    character. *)
Definition is_continuation (b : Z) : bool := (128 <=? b) && (b <? 192).
Definition reg_id_of_text (s : bytes) : res Z :=
  match s with
  | [a; b] =>
      if is_continuation b then Panic
      else if a =? 82 then
        match unsigned_of_text (2 ^ 64) [b] with
        | Some i => if (4 <=? i) && (i <=? 9) then Ok i else Err "NonMandatoryRegisterIdParsingError"
        | None => Err "NonMandatoryRegisterIdParsingError"
        end
      else Err "NonMandatoryRegisterIdParsingError"
  | _ => Err "NonMandatoryRegisterIdParsingError"
  end.

(** [NonMandatoryRegisterId::REG_IDS] (id.rs 123-130). *)
Definition reg_ids : list Z := [4; 5; 6; 7; 8; 9].

Section Chain.
Context {G : group}.
Notation const := (const G).
Notation expr := (expr G).
Notation regval := (regval G).
Notation cand := (cand G).
Notation box := (box G).

(** ** Registers (register.rs) *)

(** A [HashMap] from register identifiers is an association list. *)
Definition reg_map := list (Z * regval).
Fixpoint map_get (m : reg_map) (id : Z) : option regval :=
  match m with [] => None | (k, v) :: m' => if k =? id then Some v else map_get m' id end.

Fixpoint regs_collect (m : reg_map) (ids : list Z) : res (list regval) :=
  match ids with
  | [] => Ok []
  | id :: ids' =>
      match map_get m id with
      | Some v => l <- regs_collect m ids' ;; Ok (v :: l)
      | None => Err "NonDenselyPacked"
      end
  end.
(** [TryFrom<HashMap<NonMandatoryRegisterId, RegisterValue>>] (196-216). *)
Definition regs_of_map (m : reg_map) : res (list regval) :=
  if max_regs <? Zlen m then Err "InvalidSize"
  else regs_collect m (firstn (List.length m) reg_ids).
(** [NonMandatoryRegisters::new] (44-52). *)
Definition regs_new (m : list (Z * const)) : res (list regval) :=
  regs_of_map (map (fun p => (fst p, RParsed (snd p))) m).
(** [TryFrom<Vec<RegisterValue>>] (89-99). *)
Definition regs_of_vec (l : list regval) : res (list regval) :=
  if max_regs <? Zlen l then Err "InvalidSize" else Ok l.
(** [From<NonMandatoryRegisters> for HashMap<_, RegisterValue>] (186-194). *)
Definition map_of_regs (l : list regval) : reg_map := combine reg_ids l.
(** [RegisterValue::as_constant] (value.rs 73-82). *)
Definition reg_constant (r : regval) : res const :=
  match r with
  | RParsed c => Ok c
  | RTuple l => of_option "unreachable" (tuple_to_constant l)
  | RInvalid _ => Err "Invalid"
  end.
(** [NonMandatoryRegisters::get] (65-67): indexed by the number of the register. *)
Definition regs_get (l : list regval) (id : Z) : option regval := nth_error l (Z.to_nat id).
(** [NonMandatoryRegisters::get_constant] (71-85). *)
Definition regs_get_constant (l : list regval) (id : Z) : res (option const) :=
  match nth_error l (Z.to_nat (id - 4)) with
  | Some r => c <- reg_constant r ;; Ok (Some c)
  | None => Ok None
  end.
(** [NonMandatoryRegisters::sigma_serialize], [sigma_parse] (115-157). *)
Definition ser_regs (l : list regval) : res bytes :=
  m <- put_u8 (wrapu 8 (Zlen l)) ;; rg <- write_list ser_reg l ;; Ok (m ++ rg).
(** [RegisterValue::sigma_serialize_bytes] and [sigma_parse_bytes] (value.rs
    86-123), used by the JSON encoding; the error text is left out. *)
Definition reg_to_bytes (r : regval) : res bytes :=
  match r with
  | RInvalid bs => Ok bs
  | _ => match ser_reg r with Ok b => Ok b | _ => Panic end
  end.
Definition reg_of_bytes (bs : bytes) : res regval :=
  match from_bytes (@parse_expr G) bs with
  | Ok e => match reg_of e with Ok r => Ok r | _ => Ok (RInvalid bs) end
  | Err _ => Ok (RInvalid bs)
  | Panic => Panic
  end.

(** ** Boxes (ergo_box.rs) *)

Definition b_cand (b : box) : cand := let 'MkBox c _ _ := b in c.
Definition b_txid (b : box) : bytes := let 'MkBox _ t _ := b in t.
Definition b_index (b : box) : Z := let 'MkBox _ _ i := b in i.
Definition cd_value (c : cand) : Z := let 'MkCand v _ _ _ _ := c in v.
Definition cd_tree (c : cand) : tree G := let 'MkCand _ t _ _ _ := c in t.
Definition cd_tokens (c : cand) : list (bytes * Z) := let 'MkCand _ _ k _ _ := c in k.
Definition cd_regs (c : cand) : list regval := let 'MkCand _ _ _ r _ := c in r.
Definition cd_height (c : cand) : Z := let 'MkCand _ _ _ _ h := c in h.

(** [calc_box_id] (143-147) for the hash function [H]; [ErgoBox::new] and
    [from_box_candidate] (88-141) store this value. *)
Definition box_id (H : bytes -> bytes) (b : box) : res bytes := s <- ser_box b ;; Ok (H s).

Definition as_i8s (b : bytes) : list Z := map (wraps 8) b.
Definition const_bytes (b : list Z) : const := MkConst cbyte (LCollBytes b).
Definition tokens_type : stype := STuple [cbyte; SLong].
(** [tokens_raw] (165-172), [script_bytes] (175-177), [creation_info] (181-186),
    [bytes_without_ref] (189-192). *)
Definition tokens_const (l : list (bytes * Z)) : const :=
  MkConst (SColl tokens_type)
    (LColl tokens_type (map (fun p => LTup [LCollBytes (as_i8s (fst p)); LLong (snd p)]) l)).
Definition creation_info (b : box) : Z * list Z :=
  (wraps 32 (cd_height (b_cand b)), as_i8s (b_txid b ++ be_bytes 2 (b_index b))).
Definition script_bytes (b : box) : res (list Z) := s <- ser_tree (cd_tree (b_cand b)) ;; Ok (as_i8s s).
Definition bytes_without_ref (b : box) : res (list Z) := s <- ser_cand None (b_cand b) ;; Ok (as_i8s s).

(** [get_register] (150-162); the script's [unwrap] is a panic. *)
Definition get_register (b : box) (id : Z) : res (option const) :=
  match id with
  | 0 => Ok (Some (MkConst SLong (LLong (cd_value (b_cand b)))))
  | 1 => match script_bytes b with Ok s => Ok (Some (const_bytes s)) | _ => Panic end
  | 2 => Ok (Some (tokens_const (cd_tokens (b_cand b))))
  | 3 => let '(h, s) := creation_info b in
         Ok (Some (MkConst (STuple [SInt; cbyte]) (LTup [LInt h; LCollBytes s])))
  | _ => regs_get_constant (cd_regs (b_cand b)) id
  end.
End Chain.
