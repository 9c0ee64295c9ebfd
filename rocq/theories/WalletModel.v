(** Building transactions in a wallet: ergo-lib/src/wallet/box_selector.rs,
    ergo-lib/src/wallet/box_selector/simple.rs, ergo-lib/src/wallet/tx_builder.rs,
    ergo-lib/src/chain/ergo_box/box_builder.rs.

    [u64] sums written with [+] or [sum()] wrap, as in a release build. *)
From Verif Require Import Base VlqModel GroupModel SigmaModel TypeModel MethodModel IrModel SerModel ChainModel TxModel.
Local Open Scope string_scope.
Local Open Scope list_scope.
Local Open Scope Z_scope.

(** A [Token] is an identifier and an amount; the absent [BoxTokens] is the empty
    list. *)
Definition token : Type := bytes * Z.

(** ** Token maps.  A [HashMap<TokenId, TokenAmount>] is an association list with
    distinct keys. *)
Definition tmap := list token.
Fixpoint tm_get (m : tmap) (id : bytes) : option Z :=
  match m with
  | [] => None
  | (k, v) :: m' => if bytes_eqb k id then Some v else tm_get m' id
  end.
Fixpoint tm_set (m : tmap) (id : bytes) (v : Z) : tmap :=
  match m with
  | [] => [(id, v)]
  | (k, w) :: m' => if bytes_eqb k id then (k, v) :: m' else (k, w) :: tm_set m' id v
  end.
Definition tm_remove (m : tmap) (id : bytes) : tmap := filter (fun p => negb (bytes_eqb (fst p) id)) m.
Definition tm_has (m : tmap) (id : bytes) : bool := match tm_get m id with Some _ => true | None => false end.
Definition is_nil {A} (l : list A) : bool := match l with [] => true | _ => false end.
(** [PartialEq] of maps: as many entries, and every entry of one is in the other. *)
Definition tm_eqb (a b : tmap) : bool :=
  Nat.eqb (List.length a) (List.length b) &&
  forallb (fun p => match tm_get b (fst p) with Some v => v =? snd p | None => false end) a.

(** The loop body shared by [sum_tokens] (box_selector.rs 140-151),
    [sum_tokens_from_boxes] (154-170), [sum_tokens_from_hashmaps] (173-190) and
    [vec_tokens_to_map] (tx_builder.rs 320-333). *)
Definition tm_add (m : tmap) (t : token) : res tmap :=
  match tm_get m (fst t) with
  | Some amt => s <- ta_add amt (snd t) ;; Ok (tm_set m (fst t) s)
  | None => Ok (tm_set m (fst t) (snd t))
  end.
Fixpoint tm_add_all (m : tmap) (l : list token) : res tmap :=
  match l with [] => Ok m | t :: l' => m' <- tm_add m t ;; tm_add_all m' l' end.
Definition sum_tokens (l : list token) : res tmap := tm_add_all [] l.

(** ** What a box holds: [ErgoBoxAssets] and [ErgoBoxId] (75-132). *)
Record abox := ABox { a_id : bytes; a_value : Z; a_tokens : list token }.
(** [ErgoBoxAssetsData] (85-90). *)
Definition assets : Type := Z * list token.
Definition assets_of (b : abox) : assets := (a_value b, a_tokens b).

(** [sum_value] (135-137). *)
Definition sum_value (l : list assets) : Z := fold_left (fun s b => wrapu 64 (s + fst b)) l 0.
Fixpoint sum_boxes_from (m : tmap) (l : list assets) : res tmap :=
  match l with [] => Ok m | b :: l' => m' <- tm_add_all m (snd b) ;; sum_boxes_from m' l' end.
Definition sum_tokens_from_boxes (l : list assets) : res tmap := sum_boxes_from [] l.
Definition sum_tokens_from_hashmaps (m1 m2 : tmap) : res tmap := tm_add_all [] (m1 ++ m2).
(** [subtract_tokens] (195-214). *)
Fixpoint subtract_tokens (m : tmap) (l : list token) : res tmap :=
  match l with
  | [] => Ok m
  | (id, amt) :: l' =>
      m' <- match tm_get m id with
            | Some a => if a =? amt then Ok (tm_remove m id)
                        else s <- ta_sub a amt ;; Ok (tm_set m id s)
            | None => Err "OutOfBounds"
            end ;;
      subtract_tokens m' l'
  end.

(** ** [SimpleBoxSelector::select] (simple.rs 43-182) *)

(** 58-75: the stable sort by the number of wanted tokens, then reversed. *)
Definition wanted_count (need : tmap) (b : abox) : nat :=
  List.length (filter (fun t => tm_has need (fst t)) (a_tokens b)).
Fixpoint sort_insert (key : abox -> nat) (b : abox) (l : list abox) : list abox :=
  match l with
  | [] => [b]
  | c :: l' => if (key b <? key c)%nat then b :: l else c :: sort_insert key b l'
  end.
Definition sort_boxes (key : abox -> nat) (l : list abox) : list abox :=
  fold_left (fun acc b => sort_insert key b acc) l [].

Definition safe_user_min : Z := 1000000.
Record sel := Sel {
  s_boxes : list abox;     (** [selected_inputs] *)
  s_value : Z;             (** [selected_boxes_value] *)
  s_left : tmap;           (** [target_tokens_left] *)
  s_vchange : bool;        (** [has_value_change] *)
  s_tchange : bool         (** [has_token_change] *)
}.
(** 97-121: take the tokens of one box. *)
Fixpoint take_tokens (need got : tmap) (l : list token) : res (tmap * tmap) :=
  match l with
  | [] => Ok (need, got)
  | (id, in_box) :: l' =>
      match tm_get need id with
      | Some want =>
          need' <- (if want <=? in_box then Ok (tm_remove need id)
                    else s <- ta_sub want in_box ;; Ok (tm_set need id s)) ;;
          let take := Z.min in_box want in
          got' <- match tm_get got id with
                  | Some a => s <- ta_add a take ;; Ok (tm_set got id s)
                  | None => Ok (tm_set got id take)
                  end ;;
          take_tokens need' got' l'
      | None => take_tokens need got l'
      end
  end.
(** 77-90 *)
Definition wants_box (target : Z) (s : sel) (b : abox) : bool :=
  let change := if s_value s <? target then 0 else s_value s - target in
  (s_value s <? target)
  || ((s_vchange s || s_tchange s) && (change <? safe_user_min))
  || (negb (is_nil (s_left s)) && existsb (fun t => tm_has (s_left s) (fst t)) (a_tokens b)).
(** 76-129: one turn of the loop. *)
Definition select_step (target : Z) (s : sel) (b : abox) : res sel :=
  if wants_box target s b then
    let v := wrapu 64 (s_value s + a_value b) in
    '(need, got) <- take_tokens (s_left s) [] (a_tokens b) ;;
    all <- sum_tokens (a_tokens b) ;;
    Ok (Sel (s_boxes s ++ [b]) v need (s_vchange s || (target <? v)) (s_tchange s || negb (tm_eqb all got)))
  else Ok s.
Fixpoint select_loop (target : Z) (s : sel) (l : list abox) : res sel :=
  match l with [] => Ok s | b :: l' => s' <- select_step target s b ;; select_loop target s' l' end.

(** [make_change_boxes] (230-287).  The order in which a map gives up its entries is
    not determined by its contents: [order] lists them.  The [unwrap]s on 1 to 122
    tokens succeed. *)
Fixpoint split_change (fuel : nat) (value : Z) (l : list token) : res (list assets) :=
  match fuel with
  | O => Ok []
  | S fuel' =>
      if is_nil l then Ok []
      else if Zlen l <=? max_tokens then Ok [(value, l)]
      else
        v <- match bv_mul safe_user_min 2 with Ok v => Ok v | _ => Panic end ;;
        let head := firstn (Z.to_nat max_tokens) l in
        need <- match bv_sub value v with Ok x => Ok x | _ => Err "NotEnoughCoinsForChangeBox" end ;;
        r <- split_change fuel' need (skipn (Z.to_nat max_tokens) l) ;;
        Ok ((v, head) :: r)
  end.
Definition make_change_boxes (order : tmap -> list token) (value : Z) (m : tmap) : res (list assets) :=
  if is_nil m then Ok [(value, [])]
  else if Zlen m <=? max_tokens then Ok [(value, order m)]
  else split_change (List.length m) value (order m).

(** 152-166: what is left of the selected tokens. *)
Fixpoint change_tokens (m : tmap) (l : list token) : res tmap :=
  match l with
  | [] => Ok m
  | (id, amt) :: l' =>
      m' <- match tm_get m id with
            | Some a => if a =? amt then Ok (tm_remove m id)
                        else if amt <? a then s <- ta_sub a amt ;; Ok (tm_set m id s)
                        else Err "NotEnoughTokens in change"
            | None => Err "NotEnoughTokens in change"
            end ;;
      change_tokens m' l'
  end.

(** [check_input_preservation] (197-222). *)
Definition check_preservation (selected : list abox) (change : list assets) (target : Z) (tokens : list token) : res unit :=
  if negb (sum_value (map assets_of selected) =? wrapu 64 (sum_value change + target)) then Err "CheckPreservation" else
  a <- sum_tokens_from_boxes (map assets_of selected) ;;
  b <- sum_tokens_from_boxes change ;;
  c <- sum_tokens tokens ;;
  d <- sum_tokens_from_hashmaps b c ;;
  if tm_eqb a d then Ok tt else Err "CheckPreservation".

Record selection := Selection { sn_boxes : list abox; sn_change : list assets }.
Definition select (order : tmap -> list token) (inputs : list abox) (target : Z) (tokens : list token) : res selection :=
  need <- sum_tokens tokens ;;
  let sorted := rev (sort_boxes (wanted_count need) inputs) in
  s <- select_loop target (Sel [] 0 need false false) sorted ;;
  if s_value s <? target then Err "NotEnoughCoins" else
  if negb (is_nil tokens) && negb (is_nil (s_left s)) then Err "NotEnoughTokens" else
  change <- (if negb (s_vchange s) && negb (s_tchange s) then Ok []
             else
               v <- match bv_new (s_value s - target) with Ok v => Ok v | _ => Err "NotEnoughCoinsForChangeBox" end ;;
               m <- sum_tokens_from_boxes (map assets_of (s_boxes s)) ;;
               m' <- change_tokens m tokens ;;
               make_change_boxes order v m') ;;
  _ <- check_preservation (s_boxes s) change target tokens ;;
  if txio_ok (s_boxes s) then Ok (Selection (s_boxes s) change) else Err "SelectedInputsOutOfBounds".

Section Wallet.
Context {G : group}.
Notation const := (const G). Notation cand := (cand G). Notation tree := (tree G).

(** ** [ErgoBoxCandidateBuilder] (box_builder.rs) *)

(** Decimal text of a number below [10 ^ fuel]. *)
Fixpoint dec_text (fuel : nat) (n : Z) : bytes :=
  match fuel with
  | O => []
  | S fuel' => (if n <? 10 then [] else dec_text fuel' (n / 10)) ++ [48 + n mod 10]
  end.
(** [MintingToken] (64-69); texts are their UTF-8 bytes. *)
Record minting := Minting { mt_token : token; mt_name : bytes; mt_desc : bytes; mt_decimals : Z }.
Record builder := Builder {
  bd_per_byte : Z;
  bd_value : Z;
  bd_tree : tree;
  bd_tokens : list token;
  bd_regs : list (Z * const);
  bd_height : Z;
  bd_mint : option minting
}.
(** [new] (88-98), [add_token] (171-173). *)
Definition builder_new (value : Z) (t : tree) (height : Z) : builder := Builder 360 value t [] [] height None.
Definition bd_add_token (b : builder) (t : token) : builder :=
  Builder (bd_per_byte b) (bd_value b) (bd_tree b) (bd_tokens b ++ [t]) (bd_regs b) (bd_height b) (bd_mint b).
Fixpoint creg_get (m : list (Z * const)) (id : Z) : option const :=
  match m with [] => None | (k, v) :: m' => if k =? id then Some v else creg_get m' id end.
(** [HashMap::insert]: [set_register_value] (136-138). *)
Fixpoint creg_set (m : list (Z * const)) (id : Z) (c : const) : list (Z * const) :=
  match m with
  | [] => [(id, c)]
  | (k, v) :: m' => if k =? id then (k, c) :: m' else (k, v) :: creg_set m' id c
  end.
Definition text_const (b : bytes) : const := const_bytes (as_i8s b).

(** [build_box_unchecked] (177-251). *)
Definition build_unchecked (b : builder) : res cand :=
  '(tokens, regs) <-
    match bd_mint b with
    | None => Ok (bd_tokens b, bd_regs b)
    | Some m =>
        if negb (is_nil (bd_tokens b)) then Err "ExclusiveMintedTokenError" else
        match creg_get (bd_regs b) 4, creg_get (bd_regs b) 5, creg_get (bd_regs b) 6 with
        | Some _, _, _ => Err "MintedTokenRegisterOverwriteError R4"
        | None, Some _, _ => Err "MintedTokenRegisterOverwriteError R5"
        | None, None, Some _ => Err "MintedTokenRegisterOverwriteError R6"
        | None, None, None =>
            let r4 := creg_set (bd_regs b) 4 (text_const (mt_name m)) in
            let r5 := creg_set r4 5 (text_const (mt_desc m)) in
            let r6 := creg_set r5 6 (text_const (dec_text 20 (mt_decimals m))) in
            Ok (bd_tokens b ++ [mt_token m], r6)
        end
    end ;;
  rg <- regs_new regs ;;
  if max_tokens <? Zlen tokens then Err "TooManyTokensError" else
  Ok (MkCand (bd_value b) (bd_tree b) tokens rg (bd_height b)).

(** [as i64] products wrap. *)
Definition min_value (size per_byte : Z) : res Z :=
  match bv_of_i64 (wraps 64 (size * per_byte)) with Ok v => Ok v | _ => Panic end.
(** [calc_box_size_bytes] (121-124), [calc_min_box_value] (127-133). *)
Definition calc_size (b : builder) : res Z := c <- build_unchecked b ;; s <- ser_cand None c ;; Ok (Zlen s).
Definition calc_min_value (b : builder) : res Z := n <- calc_size b ;; min_value n (bd_per_byte b).
(** [build_box] (253-271). *)
Definition build_box (b : builder) : res cand :=
  c <- build_unchecked b ;;
  s <- ser_cand None c ;;
  m <- min_value (Zlen s) (bd_per_byte b) ;;
  if m <=? bd_value b then Ok c else Err "BoxValueTooLow".

(** ** [TxBuilder] (tx_builder.rs) *)
Record txb := TxB {
  tb_boxes : list abox;
  tb_change : list assets;
  tb_data : list bytes;
  tb_outputs : list cand;
  tb_height : Z;
  tb_fee : Z;
  tb_change_tree : res tree;          (** [Contract::pay_to_address(change_address)] *)
  tb_exts : list (bytes * ext G);     (** [context_extensions] *)
  tb_permit : list token
}.
Definition cand_assets (c : cand) : assets := (cd_value c, cd_tokens c).
(** 173-189 *)
Fixpoint change_cands (t : tree) (height : Z) (l : list assets) : res (list cand) :=
  match l with
  | [] => Ok []
  | b :: l' =>
      c <- build_box (fold_left bd_add_token (snd b) (builder_new (fst b) t height)) ;;
      r <- change_cands t height l' ;; Ok (c :: r)
  end.
Fixpoint no_dup_ids (l : list bytes) : bool :=
  match l with [] => true | x :: l' => negb (existsb (bytes_eqb x) l') && no_dup_ids l' end.
(** [check_enough_token_burn_permit] (335-354), [check_unused_token_burn_permit]
    (356-376). *)
Definition check_enough (burned permits : tmap) : res unit :=
  if forallb (fun p => match tm_get permits (fst p) with Some m => snd p <=? m | None => false end) burned
  then Ok tt else Err "TokenBurnPermitExceeded or missing".
Definition check_unused (burned permits : tmap) : res unit :=
  if forallb (fun p => match tm_get burned (fst p) with Some m => snd p <=? m | None => false end) permits
  then Ok tt else Err "TokenBurnPermitUnused".
Fixpoint ext_for (m : list (bytes * ext G)) (id : bytes) : ext G :=
  match m with [] => [] | (k, e) :: m' => if bytes_eqb k id then e else ext_for m' id end.

(** [build_tx] (141-255).  [fee_tree] is the parsed constant of miner_fee.rs. *)
Definition build_tx (H : bytes -> bytes) (fee_tree : tree) (b : txb) : res (utx G) :=
  match tb_boxes b with
  | [] => Err "inputs are empty"
  | first :: _ =>
  if is_nil (tb_outputs b) then Err "outputs are empty" else
  if 65535 <? Zlen (tb_boxes b) then Err "too many inputs" else
  if negb (no_dup_ids (map a_id (tb_boxes b))) then Err "duplicate inputs found" else
  if 65535 <? Zlen (tb_data b) then Err "too many data inputs" else
  ct <- tb_change_tree b ;;
  ch <- change_cands ct (tb_height b) (tb_change b) ;;
  fee <- build_box (builder_new (tb_fee b) fee_tree (tb_height b)) ;;
  let outs := (tb_outputs b ++ ch) ++ [fee] in
  if 65535 <? Zlen outs then Err "too many outputs" else
  let total_in := sum_value (map assets_of (tb_boxes b)) in
  let total_out := sum_value (map cand_assets outs) in
  if total_in <? total_out then Err "NotEnoughCoinsInInputs" else
  if total_out <? total_in then Err "NotEnoughCoinsInOutputs" else
  tin <- sum_tokens_from_boxes (map assets_of (tb_boxes b)) ;;
  tout <- sum_tokens_from_boxes (map cand_assets outs) ;;
  let tout' := filter (fun p => negb (bytes_eqb (fst p) (a_id first))) tout in
  if (1 <? Zlen tout - Zlen tout') then Err "cannot mint more than one token" else
  if negb (forallb (fun p => match tm_get tin (fst p) with Some a => snd p <=? a | None => false end) tout')
  then Err "NotEnoughTokens" else
  burned <- subtract_tokens tin tout' ;;
  permits <- sum_tokens (tb_permit b) ;;
  _ <- check_enough burned permits ;;
  _ <- check_unused burned permits ;;
  d <- opt_vec (tb_data b) ;;
  utx_new H (map (fun x => MkUInput (a_id x) (ext_for (tb_exts b) (a_id x))) (tb_boxes b)) d outs
  end.

(** [estimate_tx_size_bytes] (118-134): the size with the given proof on each
    input. *)
Definition signed_size (H : bytes -> bytes) (u : utx G) (p : proof) : res Z :=
  t <- tx_new H (map (fun i => input_of i p) (u_inputs u)) (u_data u) (u_cands u) ;;
  s <- ser_tx t ;; Ok (Zlen s).
Definition mock_proof : proof := PSome [0; 24].
Definition estimate_size (H : bytes -> bytes) (fee_tree : tree) (b : txb) : res Z :=
  u <- build_tx H fee_tree b ;; signed_size H u mock_proof.
End Wallet.
Arguments builder G : clear implicits. Arguments txb G : clear implicits.
