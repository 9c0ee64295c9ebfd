(** Addresses: ergotree-ir/src/chain/address.rs, with the base58 coding it takes from
    the bs58 crate (version 0.4, not part of the repository; the algorithm of its
    [encode_into] and [decode_into] is modelled).

    Text is the list of its bytes. *)
From Verif Require Import Base VlqModel GroupModel SigmaModel TypeModel MethodModel IrModel SerModel ChainModel.
Local Open Scope string_scope.
Local Open Scope list_scope.
Local Open Scope Z_scope.

(** ** bs58 *)

(** [while carry > 0 { push carry % n; carry /= n }]; the carry is below 256, so
    eight turns are enough. *)
Fixpoint carry_digits (fuel : nat) (n carry : Z) : list Z :=
  match fuel with
  | O => []
  | S fuel' => if carry =? 0 then [] else carry mod n :: carry_digits fuel' n (carry / n)
  end.
(** One turn of the outer loops: multiply the number with base-[n] digits [ds], least
    significant first, by [m] and add [carry]. *)
Fixpoint mul_add (m n : Z) (ds : list Z) (carry : Z) : list Z :=
  match ds with
  | [] => carry_digits 8 n carry
  | d :: ds' => let c := carry + d * m in c mod n :: mul_add m n ds' (c / n)
  end.
Definition convert (m n : Z) (input : list Z) : list Z := fold_left (fun ds v => mul_add m n ds v) input [].
(** [take_while(|v| v == zero).count()]. *)
Fixpoint leading (zero : Z) (l : list Z) : nat :=
  match l with x :: l' => if x =? zero then S (leading zero l') else O | [] => O end.

(** [Alphabet::BITCOIN]: 1-9, A-Z without I and O, a-z without l. *)
Definition alphabet : list Z :=
  [49; 50; 51; 52; 53; 54; 55; 56; 57;
   65; 66; 67; 68; 69; 70; 71; 72; 74; 75; 76; 77; 78; 80; 81; 82; 83; 84; 85; 86; 87; 88; 89; 90;
   97; 98; 99; 100; 101; 102; 103; 104; 105; 106; 107; 109; 110; 111; 112; 113; 114; 115; 116; 117; 118; 119; 120; 121; 122].
Definition letter (d : Z) : Z := nth (Z.to_nat d) alphabet 0.
Fixpoint index_of (l : list Z) (x : Z) : option Z :=
  match l with
  | [] => None
  | y :: l' => if y =? x then Some 0 else match index_of l' x with Some i => Some (i + 1) | None => None end
  end.
(** [encode_into]. *)
Definition b58_encode (input : bytes) : bytes :=
  rev (map letter (convert 256 58 input ++ repeat 0 (leading 0 input))).
(** [decode_into]. *)
Fixpoint b58_digits (s : bytes) : res (list Z) :=
  match s with
  | [] => Ok []
  | c :: s' =>
      if 127 <? c then Err "NonAsciiCharacter" else
      d <- of_option "InvalidCharacter" (index_of alphabet c) ;; l <- b58_digits s' ;; Ok (d :: l)
  end.
Definition b58_decode (s : bytes) : res bytes :=
  l <- b58_digits s ;; Ok (rev (convert 58 256 l ++ repeat 0 (leading 49 s))).

Section Address.
Context {G : group}.
Notation expr := (expr G). Notation tree := (tree G). Notation const := (const G).

(** ** [Address] (77-85) *)
Inductive address :=
| P2Pk (h : G)
| P2S (script : bytes)
| P2SH (hash : bytes).   (* 24 bytes *)

(** [address_type_prefix] (176-182), [content_bytes] (185-195). *)
Definition type_prefix (a : address) : Z := match a with P2Pk _ => 1 | P2SH _ => 2 | P2S _ => 3 end.
Definition content_bytes (a : address) : res bytes :=
  match a with P2Pk h => ec_write h | P2S b => Ok b | P2SH b => Ok b end.

Definition dlog_const (h : G) : const := MkConst SSigmaProp (LSigma (SLeaf (Dlog h))).
Definition int_expr (z : Z) : expr := EConst (MkConst SInt (LInt z)).
(** The script of a script-hash address (213-246). *)
Definition p2sh_expr (hash : bytes) : expr :=
  ESeq QSigmaAnd
    [EOp OBoolToSigmaProp PNone
       [EBin BEq
          (EOp OSlice PNone [EOp OCalcBlake2b256 PNone [EOp OGetVar (PU8Type 1 cbyte) [] None] None; int_expr 0; int_expr 24] None)
          (EConst (const_bytes (as_i8s hash)))] None;
     EOp ODeserializeContext (PTypeU8 SSigmaProp 1) [] None].
(** [script] (198-256). *)
Definition script (a : address) : res tree :=
  match a with
  | P2Pk h => tree_of_expr (EConst (dlog_const h))
  | P2S b => tree_of_bytes b
  | P2SH b => tree_new (th_v0 false) (p2sh_expr b)
  end.

(** The pattern of 110-166: the hash when the expression is that of a script-hash
    address.  What is hashed is not looked at. *)
Definition p2sh_hash (e : expr) : option (list Z) :=
  match e with
  | ESeq QSigmaAnd
      [EOp OBoolToSigmaProp PNone
         [EBin BEq
            (EOp OSlice PNone [EOp OCalcBlake2b256 PNone [_] None; EConst (MkConst SInt (LInt 0)); EConst (MkConst SInt (LInt 24))] None)
            (EConst (MkConst _ (LCollBytes l)))] None;
       EOp ODeserializeContext (PTypeU8 SSigmaProp 1) [] None] => Some l
  | _ => None
  end.
(** [recreate_from_ergo_tree] (100-173). *)
Definition recreate (t : tree) : res address :=
  match proposition t with
  | Ok (EConst (MkConst SSigmaProp (LSigma (SLeaf (Dlog h))))) => Ok (P2Pk h)
  | Ok e =>
      match p2sh_hash e with
      | Some l => if Zlen l =? 24 then Ok (P2SH (map (fun z => z mod 256) l)) else Err "UnexpectedErgoTree"
      | None => s <- ser_tree t ;; Ok (P2S s)
      end
  | Err _ => s <- ser_tree t ;; Ok (P2S s)
  | Panic => Panic
  end.

(** ** [AddressEncoder] (411-550); a network is its prefix, 0 or 16. *)
Section Encoder.
Variable H : bytes -> bytes.
(** [calc_checksum] (449-457). *)
Definition checksum (b : bytes) : bytes := firstn 4 (H b).
(** [encode_address_as_bytes] (532-540), [encode_address_as_string] (543-549). *)
Definition address_bytes (net : Z) (a : address) : res bytes :=
  c <- content_bytes a ;;
  let b := wrapu 8 (net + type_prefix a) :: c in
  Ok (b ++ checksum b).
Definition address_text (net : Z) (a : address) : res bytes := b <- address_bytes net a ;; Ok (b58_encode b).

(** [unchecked_parse_address_from_bytes] (499-524). *)
Definition parse_bytes (bs : bytes) : res address :=
  if Zlen bs <? 6 then Err "InvalidSize" else
  let n := (List.length bs - 4)%nat in
  let body := firstn n bs in
  if negb (bytes_eqb (skipn n bs) (checksum body)) then Err "InvalidChecksum" else
  let content := tl body in
  let ty := Z.land (hd 0 bs) 15 in
  if ty =? 1 then '(h, _) <- ec_read content ;; Ok (P2Pk h)
  else if ty =? 2 then if Zlen content =? 24 then Ok (P2SH content) else Err "InvalidSize"
  else if ty =? 3 then Ok (P2S content)
  else Err "InvalidAddressType".
(** [check_head_byte] (433-447), [parse_address_from_str] (460-467). *)
Definition check_head (net head : Z) : res unit :=
  if (net =? 0) && (16 <? head) then Err "InvalidNetwork"
  else if (net =? 16) && (head <? 16) then Err "InvalidNetwork"
  else Ok tt.
Definition parse_text (net : Z) (s : bytes) : res address :=
  bs <- b58_decode s ;;
  if Zlen bs <? 6 then Err "InvalidSize" else
  _ <- check_head net (hd 0 bs) ;; parse_bytes bs.
(** [unchecked_parse_network_address_from_bytes] (478-490) and [_from_str] (470-475). *)
Definition parse_network_bytes (bs : bytes) : res (Z * address) :=
  if Zlen bs <? 6 then Err "InvalidSize" else
  let net := Z.land (hd 0 bs) 240 in
  if (net =? 0) || (net =? 16) then a <- parse_bytes bs ;; Ok (net, a) else Err "InvalidNetwork".
Definition parse_network_text (s : bytes) : res (Z * address) :=
  bs <- b58_decode s ;; parse_network_bytes bs.
End Encoder.
End Address.
Arguments address G : clear implicits.
