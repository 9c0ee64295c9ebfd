(** Keys of a wallet: ergo-lib/src/wallet/derivation_path.rs,
    ergo-lib/src/wallet/ext_secret_key.rs, ergo-lib/src/wallet/ext_pub_key.rs,
    ergo-lib/src/wallet/secret_key.rs.

    Text is the list of its characters (code points).  [HMAC-SHA512] is any function
    of key and message; the mnemonic code (PBKDF2) is not modelled. *)
From Verif Require Import Base VlqModel GroupModel SigmaModel ProverModel TypeModel MethodModel IrModel SerModel ChainModel WalletModel AddressModel.
Local Open Scope string_scope.
Local Open Scope list_scope.
Local Open Scope Z_scope.

(** ** Derivation paths (derivation_path.rs) *)

(** [ChildIndex] (51-57); the two index newtypes hold a [u32]. *)
Inductive cindex := Hard (i : Z) | Soft (i : Z).
Definition path := list cindex.
(** [from_31_bit] (15-21), [normal] (35-41). *)
Definition index31 (i : Z) : res Z := if i <? 2 ^ 31 then Ok i else Err "NumberTooLarge".
(** [ChildIndexHardened::next] (24-26), [ChildIndexNormal::next] (44-46): the normal
    index is not checked; the addition wraps as in a release build. *)
Definition soft_next (i : Z) : Z := wrapu 32 (i + 1).
Definition cindex_next (c : cindex) : res cindex :=
  match c with
  | Hard i => j <- index31 (wrapu 32 (i + 1)) ;; Ok (Hard j)
  | Soft i => Ok (Soft (soft_next i))
  end.
(** [to_bits] (111-116). *)
Definition to_bits (c : cindex) : Z := match c with Hard i => Z.lor (2 ^ 31) i | Soft i => i end.
(** [Display] (59-66). *)
Definition cindex_text (c : cindex) : list Z :=
  match c with Hard i => dec_text 10 i ++ [39] | Soft i => dec_text 10 i end.
(** [FromStr] (68-81): every apostrophe is dropped, wherever it stands. *)
Definition cindex_of_text (s : list Z) : res cindex :=
  if existsb (Z.eqb 39) s then
    v <- of_option "BadIndex" (unsigned_of_text (2 ^ 32) (filter (fun c => negb (c =? 39)) s)) ;; i <- index31 v ;; Ok (Hard i)
  else v <- of_option "BadIndex" (unsigned_of_text (2 ^ 32) s) ;; i <- index31 v ;; Ok (Soft i).

(** [DerivationPath::new] (154-165), [next] (186-199). *)
Definition path_new (acc : Z) (addrs : list Z) : path := [Hard 44; Hard 429; Hard acc; Soft 0] ++ map Soft addrs.
Definition path_next (p : path) : res path :=
  match rev p with
  | [] => Err "EmptyPath"
  | c :: r => c' <- cindex_next c ;; Ok (rev (c' :: r))
  end.
(** [ledger_bytes] (229-235). *)
Definition ledger_bytes (p : path) : bytes := wrapu 8 (Zlen p) :: flat_map (fun c => be_bytes 4 (to_bits c)) p.
(** [Display] (238-251). *)
Fixpoint join (sep : Z) (l : list (list Z)) : list Z :=
  match l with [] => [] | [x] => x | x :: l' => x ++ sep :: join sep l' end.
Definition path_text (p : path) : list Z := [109; 47] ++ join 47 (map cindex_text p).
(** [char::is_whitespace]. *)
Definition is_white (c : Z) : bool :=
  ((9 <=? c) && (c <=? 13)) || (c =? 32) || (c =? 133) || (c =? 160) || (c =? 5760) ||
  ((8192 <=? c) && (c <=? 8202)) || (c =? 8232) || (c =? 8233) || (c =? 8239) || (c =? 8287) || (c =? 12288).
(** [str::split]. *)
Fixpoint split (sep : Z) (s : list Z) : list (list Z) :=
  match s with
  | [] => [[]]
  | c :: s' => if c =? sep then [] :: split sep s' else
      match split sep s' with x :: l => (c :: x) :: l | [] => [[c]] end
  end.
(** [flat_map(ChildIndex::from_str)] (268-271): components that are not understood are
    dropped. *)
Fixpoint components (l : list (list Z)) : path :=
  match l with
  | [] => []
  | s :: l' => match cindex_of_text s with Ok c => c :: components l' | _ => components l' end
  end.
(** [FromStr] (253-273). *)
Definition path_of_text (s : list Z) : res path :=
  match split 47 (filter (fun c => negb (is_white c)) s) with
  | [] => Err "EmptyPath"
  | m :: parts => if bytes_eqb m [109] || bytes_eqb m [77] then Ok (components parts) else Err "InvalidFormat"
  end.

Definition cindex_eqb (a b : cindex) : bool :=
  match a, b with Hard i, Hard j => i =? j | Soft i, Soft j => i =? j | _, _ => false end.

Section Keys.
Context {G : group}.
(** HMAC-SHA512 of key and message. *)
Variable hmac : bytes -> bytes -> bytes.

(** [DlogProverInput::from_bytes] (private_input.rs 51-55): numbers below the order of the
    group only. *)
Definition scalar_from_bytes (b : bytes) : option Z := if be_value b <? gord G then Some (be_value b) else None.

(** [ExtSecretKey] (ext_secret_key.rs 31-36), [ExtPubKey] (ext_pub_key.rs 27-33). *)
Record ext_sk := ExtSk { sk_w : Z; sk_chain : bytes; sk_path : path }.
Record ext_pk := ExtPk { pk_point : G; pk_chain : bytes; pk_path : path }.
(** [new] (63-75), [public_image] (93-95), [public_image_bytes] (98-100), [public_key]
    (103-111) with [ExtPubKey::new] (46-57). *)
Definition sk_new (b chain : bytes) (p : path) : res ext_sk :=
  w <- of_option "ScalarEncodingError" (scalar_from_bytes b) ;; Ok (ExtSk w chain p).
Definition sk_image (k : ext_sk) : G := exponentiate ggen (sk_w k).
Definition sk_public (k : ext_sk) : res ext_pk :=
  b <- ec_write (sk_image k) ;; '(h, _) <- ec_read b ;; Ok (ExtPk h (sk_chain k) (sk_path k)).

(** [ExtSecretKey::child] (114-162): the recursion on the next index is not bounded by
    the code; the model takes the number of turns. *)
Fixpoint sk_child (fuel : nat) (k : ext_sk) (index : cindex) : res ext_sk :=
  match fuel with
  | O => Err "fuel"
  | S fuel' =>
      data <- match index with
              | Hard _ => Ok (0 :: scalar_bytes (sk_w k))
              | Soft _ => ec_write (sk_image k)
              end ;;
      let mac := hmac (sk_chain k) (data ++ be_bytes 4 (to_bits index)) in
      match scalar_from_bytes (firstn 32 mac) with
      | Some w =>
          let child := (w + sk_w k) mod gord G in
          if child =? 0 then i <- cindex_next index ;; sk_child fuel' k i
          else sk_new (scalar_bytes child) (skipn 32 mac) (sk_path k ++ [index])
      | None => i <- cindex_next index ;; sk_child fuel' k i
      end
  end.
(** [ExtPubKey::child] (79-105). *)
Fixpoint pk_child (fuel : nat) (k : ext_pk) (index : Z) : res ext_pk :=
  match fuel with
  | O => Err "fuel"
  | S fuel' =>
      data <- ec_write (pk_point k) ;;
      let mac := hmac (pk_chain k) (data ++ be_bytes 4 (to_bits (Soft index))) in
      match scalar_from_bytes (firstn 32 mac) with
      | Some w =>
          let child := gop (exponentiate ggen w) (pk_point k) in
          if is_identity child then pk_child fuel' k (soft_next index)
          else Ok (ExtPk child (skipn 32 mac) (pk_path k ++ [Soft index]))
      | None => pk_child fuel' k (soft_next index)
      end
  end.

Fixpoint sk_walk (fuel : nat) (k : ext_sk) (l : path) : res ext_sk :=
  match l with [] => Ok k | i :: l' => k' <- sk_child fuel k i ;; sk_walk fuel k' l' end.
Fixpoint pk_walk (fuel : nat) (k : ext_pk) (l : path) : res ext_pk :=
  match l with
  | [] => Ok k
  | Hard _ :: _ => Err "IncompatibleDerivation"
  | Soft i :: l' => k' <- pk_child fuel k i ;; pk_walk fuel k' l'
  end.
(** [derive] (165-182; ext_pub_key.rs 108-130): slicing a shorter path panics. *)
Definition matching (up base : path) : bool :=
  forallb (fun p => cindex_eqb (fst p) (snd p)) (combine (firstn (List.length base) up) base).
Definition sk_derive (fuel : nat) (k : ext_sk) (up : path) : res ext_sk :=
  let d := List.length (sk_path k) in
  if (List.length up <? d)%nat then Panic else
  if matching up (sk_path k) then sk_walk fuel k (skipn d up) else Err "IncompatibleDerivation".
Definition pk_derive (fuel : nat) (k : ext_pk) (up : path) : res ext_pk :=
  let d := List.length (pk_path k) in
  if (List.length up <? d)%nat then Panic else
  if matching up (pk_path k) then pk_walk fuel k (skipn d up) else Err "IncompatibleDerivation".
(** [derive_master] (185-197); the key is the text "Bitcoin seed". *)
Definition bitcoin_seed : bytes := [66; 105; 116; 99; 111; 105; 110; 32; 115; 101; 101; 100].
Definition sk_master (seed : bytes) : res ext_sk :=
  let mac := hmac bitcoin_seed seed in sk_new (firstn 32 mac) (skipn 32 mac) [].

(** ** [SecretKey] (secret_key.rs) as bytes *)
Notation secret := (@secret G).
(** [to_bytes] (84-89; private_input.rs 84-86, 156-165). *)
Definition secret_bytes (s : secret) : res bytes :=
  match s with
  | SecDlog w => Ok (scalar_bytes w)
  | SecDht w g h u v =>
      a <- ec_write g ;; b <- ec_write h ;; c <- ec_write u ;; d <- ec_write v ;;
      Ok (scalar_bytes w ++ a ++ b ++ c ++ d)
  end.
(** [from_bytes] (95-111; private_input.rs 51-55, 170-219). *)
Definition secret_from_bytes (b : bytes) : res secret :=
  if Zlen b =? 32 then w <- of_option "DlogParsingError" (scalar_from_bytes b) ;; Ok (SecDlog w)
  else if Zlen b =? 164 then
    match
      ('(g, _) <- ec_read (firstn 33 (skipn 32 b)) ;;
       '(h, _) <- ec_read (firstn 33 (skipn 65 b)) ;;
       '(u, _) <- ec_read (firstn 33 (skipn 98 b)) ;;
       '(v, _) <- ec_read (skipn 131 b) ;;
       w <- of_option "" (scalar_from_bytes (firstn 32 b)) ;; Ok (SecDht w g h u v))
    with Ok s => Ok s | Err _ => Err "DhtParsingError" | Panic => Panic end
  else Err "InvalidLength".
(** [get_address_from_public_image] (72-81). *)
Definition secret_address (s : secret) : res (address G) :=
  match s with
  | SecDlog w => Ok (P2Pk (exponentiate ggen w))
  | SecDht w g h u v =>
      t <- tree_of_expr (EConst (MkConst SSigmaProp (LSigma (SLeaf (Dht g h u v))))) ;;
      match ser_tree t with Ok b => Ok (P2S b) | _ => Panic end
  end.
End Keys.
