(** The readers of expressions and scripts with the room they reserve.  The readers of
    SerModel leave out [Vec::with_capacity] and [vec!]; here a reservation for more than
    [lim] elements fails.  Modelled are the reservations whose size is an unsigned 32-bit
    number taken from the bytes: lists of expressions and of function arguments
    (serialization/serializable.rs 166-173), and the buffer for the body of a script with a
    size (ergo_tree.rs 349-351, 398-400).  All other readers reserve at most 65535 elements
    at a time.  Simplified: an element counts as one whatever its size. *)
From Verif Require Import Base VlqModel IntBytes GroupModel SigmaModel TypeModel MethodModel BigIntModel IrModel SerModel.
Local Open Scope string_scope.
Local Open Scope list_scope.
Local Open Scope Z_scope.

Section Alloc.
Context {G : group}.
Notation const := (const G).
Notation expr := (expr G).
Notation tree := (tree G).
Notation box := (box G).
Notation cand := (cand G).
Notation P := (@P G).
Variable lim : Z.
(** With [strict] a script with a size whose body cannot be read is an error (the code
    keeps its bytes, ergo_tree.rs 357-366); used to say that no such script occurs. *)
Variable strict : bool.

(** [Vec::with_capacity(n)], [vec![0u8; n]]. *)
Definition reserve (n : Z) : P unit := if lim <? n then of_res Panic else pret tt.

Section Rec.
Variable rec : P expr.

(** [Vec::<Expr>::sigma_parse] (serialization/serializable.rs 166-173). *)
Definition pvec_r : P (list expr) :=
  pbind (lift get_u32) (fun n => pbind (reserve n) (fun _ => pread_n (Z.to_nat n) rec)).
(** [Vec::<FuncArg>::sigma_parse] (serializable.rs 166-173, mir/func_value.rs 34-39). *)
Definition parse_args_r : P (list (Z * stype)) :=
  pbind (lift get_u32) (fun n => pbind (reserve n) (fun _ => lift (read_n (Z.to_nat n) parse_arg))).

(** [ErgoTree::sigma_parse] (ergo_tree.rs 346-382). *)
Definition parse_tree_r : P tree :=
  pbind (lift parse_header) (fun h =>
  if th_size h then
    pbind (lift get_u32) (fun n =>
    pbind (reserve n) (fun _ =>
    pbind (lift (read_exact (Z.to_nat n))) (fun buf =>
    match parse_body rec h fresh buf with
    | Ok (t, _, _) => pret t
    | Err e =>
        if strict then of_res (Err e)
        else pbind (of_res (put_u32 n)) (fun nb => pret (Unparsed (th_serialized h :: nb ++ buf)))
    | Panic => of_res Panic
    end)))
  else parse_body rec h).
(** [parse_box_with_indexed_digests], [ErgoBox::sigma_parse] (chain/ergo_box.rs 338-383, 211-216). *)
Definition parse_cand_r (ids : option (list bytes)) : P cand :=
  pbind (lift parse_value) (fun v =>
  pbind parse_tree_r (fun t =>
  pbind (lift get_u32) (fun h =>
  pbind (lift (parse_tokens ids)) (fun tk =>
  pbind (parse_regs rec) (fun rg => pret (MkCand v t tk rg h)))))).
Definition parse_box_r : P box :=
  pbind (parse_cand_r None) (fun c =>
  pbind (lift (read_exact 32)) (fun txid =>
  pbind (lift get_u16) (fun i =>
  pbind (of_res (ser_box (MkBox c txid i))) (fun _ => pret (MkBox c txid i))))).
Definition parse_const_tag_r (tag : Z) : P expr :=
  pbind (lift (parse_with_type_code tag)) (fun t =>
  pbind (parse_lit parse_box_r t) (fun v => pret (EConst (MkConst t v)))).

(** mir/sigma_and.rs, func_value.rs 95-106, block.rs 51-56, apply.rs 63-67,
    serialization/method_call.rs 22-30. *)
Definition parse_sigma_seq_r (q : seqk) : P expr :=
  pbind pvec_r (fun l =>
  pbind (of_res (seq_ty q (map tpe l))) (fun _ =>
  pbind (pbounded l) (fun l => pret (ESeq q l)))).
Definition parse_func_r : P expr :=
  pbind parse_args_r (fun args =>
  pbind pstate (fun st =>
  pbind (pset (insert_args args st)) (fun _ =>
  pbind rec (fun body => pret (EFunc args body))))).
Definition parse_block_r : P expr :=
  pbind pvec_r (fun items => pbind rec (fun r => pret (EBlock items r))).
Definition parse_apply_r : P expr :=
  pbind rec (fun f => pbind pvec_r (fun args =>
  pbind (of_res (apply_ty (tpe f) (map tpe args))) (fun _ => pret (EApply f args)))).
Definition parse_method_r : P expr :=
  pbind (lift parse_type_code) (fun c =>
  pbind (lift get_u8) (fun mid =>
  pbind rec (fun obj =>
  pbind pvec_r (fun args =>
  pbind (of_res (m <- from_ids c mid ;; specialize_for m (tpe obj) (map tpe args))) (fun m =>
  if method_types_match m (tpe obj) (map tpe args) then pret (EMethod m obj args)
  else of_res (Err "InvalidArgument")))))).

(** [Expr::parse_with_tag] (serialization/expr.rs 87-205); the nodes without such a
    reservation are read as in SerModel. *)
Definition parse_tag_r (tag : Z) : P expr :=
  if tag <=? last_constant_code then parse_const_tag_r tag
  else if tag =? code_func then parse_func_r
  else if tag =? code_block then parse_block_r
  else if tag =? code_apply then parse_apply_r
  else if tag =? code_method then parse_method_r
  else if tag =? code_sigma_and then parse_sigma_seq_r QSigmaAnd
  else if tag =? code_sigma_or then parse_sigma_seq_r QSigmaOr
  else parse_tag rec tag.
Definition step_r : P expr := pbind (lift get_u8) parse_tag_r.
End Rec.

Fixpoint parse_expr_rf (fuel : nat) : P expr :=
  match fuel with
  | O => of_res (Err "fuel")
  | S n => step_r (parse_expr_rf n)
  end.
(** [Expr::sigma_parse], [ErgoTree::sigma_parse_bytes] (ergo_tree.rs 384-427). *)
Definition parse_expr_r : P expr := fun st bs => parse_expr_rf (S (List.length bs)) st bs.
Definition tree_of_bytes_r (bs : bytes) : res tree :=
  match parse_header bs with
  | Ok (h, r) =>
      if th_size h then
        '(n, r) <- get_u32 r ;;
        _ <- (if lim <? n then Panic else Ok tt) ;;
        '(buf, r) <- read_exact (Z.to_nat n) r ;;
        t <- match parse_body parse_expr_r h fresh buf with
             | Ok (t, _, _) => Ok t
             | Err e => if strict then Err e else Ok (Unparsed bs)
             | Panic => Panic
             end ;;
        Ok (match r with [] => t | _ => Unparsed bs end)
      else
        match parse_body parse_expr_r h fresh r with
        | Ok (t, _, r) => Ok (match r with [] => t | _ => Unparsed bs end)
        | Err e => if strict then Err e else Ok (Unparsed bs)
        | Panic => Panic
        end
  | Err e => if strict then Err e else Ok (Unparsed bs)
  | Panic => Panic
  end.
End Alloc.
