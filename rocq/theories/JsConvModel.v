(** Conversion of JavaScript values to constants and back
    (bindings/ergo-lib-wasm/src/ast/js_conv.rs, [Constant::from_js] and [Constant::to_js] of
    bindings/ergo-lib-wasm/src/ast.rs 290-311), and the extraction of Rust values from
    constants ([TryExtractFrom<Literal>], ergotree-ir/src/mir/constant.rs 581-850), which
    the other accessors of [Constant] use (ast.rs 73-278).

    Texts are UTF-8 bytes.  The messages of errors are shortened. *)
From Verif Require Import Base VlqModel IntBytes GroupModel SigmaModel BigIntModel TypeModel MethodModel IrModel SerModel ChainModel WalletModel JsonModel.
Local Open Scope string_scope.
Local Open Scope list_scope.
Local Open Scope Z_scope.

(** A number of JavaScript: [Fin n d] is the fraction [n/d]. *)
Inductive jsnum := NaN | Inf (neg : bool) | Fin (n : Z) (d : positive).
(** A value of JavaScript, by the class the conversion looks at; [VOther] is any other
    ([undefined], [null], an object, a function). *)
Inductive jsval :=
| VBytes (b : bytes)
| VArr (l : list jsval)
| VNum (n : jsnum)
| VStr (s : bytes)
| VBig (z : Z)
| VBool (b : bool)
| VOther.

(** [f64 as i32]: rounds towards zero and saturates. *)
Definition as_i32 (n : jsnum) : Z :=
  match n with
  | NaN => 0
  | Inf true => - 2 ^ 31
  | Inf false => 2 ^ 31 - 1
  | Fin n d => Z.max (- 2 ^ 31) (Z.min (2 ^ 31 - 1) (Z.quot n (Z.pos d)))
  end.
(** [str::parse::<i64>]: a sign, then at least one digit. *)
Definition i64_of_text (s : bytes) : option Z :=
  match s with
  | [] => None
  | c :: r =>
      if c =? 45 then
        match r with
        | [] => None
        | _ => match digits_value 0 r with Some v => if v <=? 2 ^ 63 then Some (- v) else None | None => None end
        end
      else unsigned_of_text (2 ^ 63) s
  end.
(** [i64::to_string], [BigInt256::to_string]. *)
Definition int_text : Z -> bytes := bigint_text.

(** [TUPLE_TOKEN], [array_as_tuple] (29-40). *)
Definition tuple_token : bytes := txt "Tuple".
Definition array_as_tuple (l : list jsval) : jsval := VArr (VStr tuple_token :: l).

Section JsConv.
Context {G : group}.
Notation const := (const G). Notation lit := (lit G).

(** [coll_long_from_js] (136-151). *)
Fixpoint longs_of_js (l : list jsval) : res (list lit) :=
  match l with
  | [] => Ok []
  | VStr s :: l' => v <- of_option "FailedToParseLongFromString" (i64_of_text s) ;; r <- longs_of_js l' ;; Ok (LLong v :: r)
  | _ :: _ => Err "UnexpectedJs"
  end.
(** [tuple_from_js] (115-134) after the items are converted; [TupleItems] holds 2 to 255
    items and the result is unwrapped. *)
Definition tuple_of (cs : list const) : res const :=
  if (2 <=? Zlen cs) && (Zlen cs <=? 255) then Ok (MkConst (STuple (map c_tpe cs)) (LTup (map c_val cs))) else Panic.
(** A regular array (81-96): [cs[0]] gives the type of the items. *)
Definition array_of (cs : list const) : res const :=
  match cs with
  | [] => Panic
  | c :: _ => Ok (MkConst (SColl (c_tpe c)) (LColl (c_tpe c) (map c_val cs)))
  end.
(** [constant_from_js] (64-113); [js_bigint_to_ergo_bigint] (203-209) goes through the
    decimal text. *)
Fixpoint of_js (v : jsval) : res const :=
  match v with
  | VBytes b => Ok (MkConst (SColl SByte) (LCollBytes (map (wraps 8) b)))
  | VArr l =>
      let items := fix items (l : list jsval) : res (list const) :=
        match l with
        | [] => Ok []
        | x :: l' => c <- of_js x ;; cs <- items l' ;; Ok (c :: cs)
        end in
      match l with
      | VStr s :: r =>
          if bytes_eqb s tuple_token then cs <- items r ;; tuple_of cs
          else match longs_of_js l with
               | Ok vs => Ok (MkConst (SColl SLong) (LColl SLong vs))
               | Err _ => Err "NotSupported"
               | Panic => Panic
               end
      | _ => cs <- items l ;; array_of cs
      end
  | VNum n => Ok (MkConst SInt (LInt (as_i32 n)))
  | VStr s => z <- of_option "FailedToParseLongFromString" (i64_of_text s) ;; Ok (MkConst SLong (LLong z))
  | VBig z =>
      n <- of_option "FailedToConvertJsBigInt" (bigint_of_text (int_text z)) ;;
      b <- of_option "FailedToConvertJsBigInt" (b256_of_bigint n) ;;
      Ok (MkConst SBigInt (LBigInt b))
  | VBool _ | VOther => Err "NotSupported"
  end.

(** [constant_to_js] (153-201). *)
Definition whole (z : Z) : jsval := VNum (Fin z 1).
Fixpoint js_of (t : stype) (v : lit) {struct v} : res jsval :=
  match t with
  | SBoolean => match v with LBool b => Ok (VBool b) | _ => Err "TryExtractFromError" end
  | SShort => match v with LShort z => Ok (whole z) | _ => Err "TryExtractFromError" end
  | SByte => match v with LByte z => Ok (whole z) | _ => Err "TryExtractFromError" end
  | SInt => match v with LInt z => Ok (whole z) | _ => Err "TryExtractFromError" end
  | SLong => match v with LLong z => Ok (VStr (int_text z)) | _ => Err "TryExtractFromError" end
  | SBigInt => match v with LBigInt z => Ok (VBig z) | _ => Err "TryExtractFromError" end
  | SColl _ =>
      match v with
      | LCollBytes l => Ok (VBytes (map (fun z => z mod 256) l))
      | LColl u items =>
          l <- (fix go (l : list lit) : res (list jsval) :=
                  match l with
                  | [] => Ok []
                  | x :: l' => j <- js_of u x ;; r <- go l' ;; Ok (j :: r)
                  end) items ;;
          Ok (VArr l)
      | _ => Err "UnexpectedConst"
      end
  | STuple ts =>
      match v with
      | LTup items =>
          l <- (fix go (l : list lit) (ts : list stype) : res (list jsval) :=
                  match l, ts with
                  | x :: l', u :: ts' => j <- js_of u x ;; r <- go l' ts' ;; Ok (j :: r)
                  | _, _ => Ok []
                  end) items ts ;;
          Ok (VArr l)
      | _ => Err "UnexpectedConst"
      end
  | _ => Err "UnexpectedConst"
  end.
Definition const_to_js (c : const) : res jsval := js_of (c_tpe c) (c_val c).

(** ** [TryExtractFrom<Literal>]

    [target] is the Rust type asked for; the value extracted is shown as the literal it
    came from (for a tuple, of the items that were taken).  The declared type of a constant
    and of the items of a collection is not looked at. *)
Inductive target :=
| XUnit | XBool | XI8 | XI16 | XI32 | XI64 | XBigInt | XSigma | XGroup | XAvl | XBox
| XBytes | XVec (t : target) | XOpt (t : target) | XTuple (ts : list target).
Fixpoint extract (t : target) (v : lit) {struct t} : res lit :=
  match t, v with
  | XUnit, LUnit | XBool, LBool _ | XI8, LByte _ | XI16, LShort _ | XI32, LInt _ | XI64, LLong _
  | XBigInt, LBigInt _ | XSigma, LSigma _ | XGroup, LGroup _ | XAvl, LAvl _ | XBox, LBox _ | XBytes, LCollBytes _ => Ok v
  | XVec u, LColl w items =>
      l <- (fix go (l : list lit) : res (list lit) :=
              match l with
              | [] => Ok []
              | x :: l' => y <- extract u x ;; r <- go l' ;; Ok (y :: r)
              end) items ;;
      Ok (LColl w l)
  | XOpt u, LOpt o =>
      match o with
      | Some x => y <- extract u x ;; Ok (LOpt (Some y))
      | None => Ok (LOpt None)
      end
  | XTuple us, LTup items =>
      l <- (fix go (us : list target) (l : list lit) : res (list lit) :=
              match us with
              | [] => Ok []
              | u :: us' =>
                  match l with
                  | x :: l' => y <- extract u x ;; r <- go us' l' ;; Ok (y :: r)
                  | [] => Err "not enough items in STuple"
                  end
              end) us items ;;
      Ok (LTup l)
  | _, _ => Err "TryExtractFromError"
  end.
End JsConv.
