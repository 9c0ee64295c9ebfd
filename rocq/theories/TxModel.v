(** Transactions: ergo-lib/src/chain/transaction.rs with input.rs, data_input.rs,
    unsigned.rs, reduced.rs, the spending proof and context extension encodings of
    ergotree-interpreter/src/sigma_protocol/prover/, and the transaction context of
    ergo-lib/src/wallet/tx_context.rs and signing.rs.

    The hash function (Blake2b-256) is any function [H].  A [TxIoVec] is a list; its
    bounds (1 to 65535 elements) are checked where the code converts a vector to
    one.  JSON is in JsonModel.v. *)
From Verif Require Import Base VlqModel GroupModel SigmaModel TypeModel MethodModel IrModel SerModel ChainModel.
Local Open Scope string_scope.
Local Open Scope list_scope.
Local Open Scope Z_scope.

Section Tx.
Context {G : group}.
Notation expr := (expr G). Notation const := (const G). Notation tree := (tree G).
Notation cand := (cand G). Notation box := (box G).

(** ** Spending proofs (prover_result.rs 13-99) *)
Inductive proof := PEmpty | PSome (b : bytes).
(** [to_bytes], [as_ref] (22-27, 68-75), [From<Vec<u8>>] (39-47). *)
Definition proof_bytes (p : proof) : bytes := match p with PEmpty => [] | PSome b => b end.
Definition proof_of_bytes (b : bytes) : proof := match b with [] => PEmpty | _ => PSome b end.
(** 78-99; the length is written with [as u16]. *)
Definition ser_proof (p : proof) : res bytes :=
  match p with
  | PEmpty => put_u16 0
  | PSome b => n <- put_u16 (wrapu 16 (Zlen b)) ;; Ok (n ++ b)
  end.
Definition parse_proof : reader proof := fun bs =>
  '(n, bs) <- get_u16 bs ;;
  if n =? 0 then Ok (PEmpty, bs)
  else '(b, bs) <- read_exact (Z.to_nat n) bs ;; Ok (PSome b, bs).

(** ** Context extension (context_extension.rs 15-55): an [IndexMap] is the list of
    its entries in insertion order. *)
Definition ext := list (Z * const).
Fixpoint ext_insert (k : Z) (c : const) (m : ext) : ext :=
  match m with
  | [] => [(k, c)]
  | (k', c') :: m' => if k' =? k then (k, c) :: m' else (k', c') :: ext_insert k c m'
  end.
Fixpoint ext_get (m : ext) (k : Z) : option const :=
  match m with
  | [] => None
  | (k', c) :: m' => if k' =? k then Some c else ext_get m' k
  end.
(** 36-44; the count is written with [as u8]. *)
Definition ser_entry (e : Z * const) : res bytes :=
  k <- put_u8 (fst e) ;; c <- ser_const (snd e) ;; Ok (k ++ c).
Definition ser_ext (m : ext) : res bytes :=
  n <- put_u8 (wrapu 8 (Zlen m)) ;; b <- write_list ser_entry m ;; Ok (n ++ b).
(** 46-54. *)
Definition parse_entry : P (Z * const) :=
  pbind (lift get_u8) (fun k => pbind (@parse_const G) (fun c => pret (k, c))).
Definition parse_ext : P ext :=
  pbind (lift get_u8) (fun n =>
  pbind (pread_n (Z.to_nat n) parse_entry) (fun l =>
  pret (fold_left (fun m e => ext_insert (fst e) (snd e) m) l []))).

(** ** Inputs (input.rs 28-145) *)
Record input := MkInput { in_box : bytes; in_proof : proof; in_ext : ext }.
Record uinput := MkUInput { ui_box : bytes; ui_ext : ext }.
(** [input_to_sign] (64-72, 121-129), [from_unsigned_input] (110-118). *)
Definition ui_to_sign (i : uinput) : input := MkInput (ui_box i) PEmpty (ui_ext i).
Definition in_to_sign (i : input) : input := MkInput (in_box i) PEmpty (in_ext i).
Definition input_of (i : uinput) (p : proof) : input := MkInput (ui_box i) p (ui_ext i).
(** 133-145 with input/prover_result.rs 43-54; box ids are 32 bytes. *)
Definition ser_input (i : input) : res bytes :=
  p <- ser_proof (in_proof i) ;; e <- ser_ext (in_ext i) ;; Ok (in_box i ++ p ++ e).
Definition parse_input : P input :=
  pbind (lift (read_exact 32)) (fun b =>
  pbind (lift parse_proof) (fun p =>
  pbind parse_ext (fun e => pret (MkInput b p e)))).

(** ** Transactions (transaction.rs) *)
Record tx := MkTx {
  t_id : bytes;
  t_inputs : list input;
  t_data : option (list bytes);   (* [DataInput] is a box id *)
  t_cands : list cand;
  t_outputs : list (bytes * box); (* with their identifiers *)
}.

(** [distinct_token_ids] (228-243): an [IndexSet] keeps the first occurrences. *)
Definition set_insert (l : list bytes) (x : bytes) : list bytes :=
  if existsb (bytes_eqb x) l then l else l ++ [x].
Definition index_set (l : list bytes) : list bytes := fold_left set_insert l [].
Definition distinct_token_ids (cs : list cand) : list bytes :=
  index_set (flat_map (fun c => map fst (cd_tokens c)) cs).

(** [sigma_serialize] (247-274). *)
Definition ser_tx_parts (ins : list input) (data : option (list bytes)) (cs : list cand) : res bytes :=
  n <- put_usize_as_u16_unwrapped (Zlen ins) ;;
  i <- write_list ser_input ins ;;
  d <- match data with
       | Some l => m <- put_usize_as_u16_unwrapped (Zlen l) ;; Ok (m ++ List.concat l)
       | None => put_u16 0
       end ;;
  let ids := distinct_token_ids cs in
  k <- put_usize_as_u32_unwrapped (Zlen ids) ;;
  o <- put_usize_as_u16_unwrapped (Zlen cs) ;;
  c <- write_list (ser_cand (Some ids)) cs ;;
  Ok (n ++ i ++ d ++ k ++ List.concat ids ++ o ++ c).
Definition ser_tx (t : tx) : res bytes := ser_tx_parts (t_inputs t) (t_data t) (t_cands t).

(** [bytes_to_sign] (175-182). *)
Definition tx_message (ins : list input) (data : option (list bytes)) (cs : list cand) : res bytes :=
  ser_tx_parts (map in_to_sign ins) data cs.
Definition bytes_to_sign (t : tx) : res bytes := tx_message (t_inputs t) (t_data t) (t_cands t).

(** [ErgoBox::from_box_candidate] for every candidate (117-123, 132-134); the
    position is converted with [as u16]. *)
Fixpoint mk_outputs (H : bytes -> bytes) (txid : bytes) (i : Z) (cs : list cand) : res (list (bytes * box)) :=
  match cs with
  | [] => Ok []
  | c :: cs' =>
      let b := MkBox c txid (wrapu 16 i) in
      id <- box_id H b ;;
      l <- mk_outputs H txid (i + 1) cs' ;;
      Ok ((id, b) :: l)
  end.
Definition zero_id : bytes := repeat 0 32.

(** [Transaction::new] (112-140). *)
Definition tx_new (H : bytes -> bytes) (ins : list input) (data : option (list bytes)) (cs : list cand) : res tx :=
  _ <- mk_outputs H zero_id 0 cs ;;
  m <- tx_message ins data cs ;;
  outs <- mk_outputs H (H m) 0 cs ;;
  Ok (MkTx (H m) ins data cs outs).

(** [new_from_vec] (94-109); [opt_empty_vec] maps the empty vector to [None]. *)
Definition txio_ok {A} (l : list A) : bool := (1 <=? Zlen l) && (Zlen l <=? 65535).
Definition opt_vec {A} (l : list A) : res (option (list A)) :=
  match l with
  | [] => Ok None
  | _ => if txio_ok l then Ok (Some l) else Err "InvalidDataInputsCount"
  end.
Definition tx_of_vecs (H : bytes -> bytes) (ins : list input) (data : list bytes) (cs : list cand) : res tx :=
  if negb (txio_ok ins) then Err "InvalidInputsCount" else
  d <- opt_vec data ;;
  if negb (txio_ok cs) then Err "InvalidOutputCandidatesCount" else
  tx_new H ins d cs.

(** [sigma_parse] (276-317). *)
Definition max_tx_tokens : Z := 65535 * max_tokens.
Definition parse_tx (H : bytes -> bytes) : P tx :=
  pbind (lift get_u16) (fun n =>
  pbind (pread_n (Z.to_nat n) parse_input) (fun ins =>
  pbind (lift get_u16) (fun m =>
  pbind (lift (read_n (Z.to_nat m) (read_exact 32))) (fun data =>
  pbind (lift get_u32) (fun k =>
  if max_tx_tokens <? k then of_res (Err "too many tokens in transaction") else
  pbind (lift (read_n (Z.to_nat k) (read_exact 32))) (fun l =>
  let ids := index_set l in
  pbind (lift get_u16) (fun o =>
  pbind (pread_n (Z.to_nat o) (parse_cand parse_expr (Some ids))) (fun cs =>
  of_res (tx_of_vecs H ins data cs))))))))).

(** ** Unsigned transactions (unsigned.rs) *)
Record utx := MkUtx {
  u_id : bytes;
  u_inputs : list uinput;
  u_data : option (list bytes);
  u_cands : list cand;
}.
(** [to_tx_without_proofs], [bytes_to_sign] (84-102). *)
Definition utx_message (H : bytes -> bytes) (ins : list uinput) (data : option (list bytes)) (cs : list cand) : res bytes :=
  t <- tx_new H (map ui_to_sign ins) data cs ;; bytes_to_sign t.
Definition utx_bytes_to_sign (H : bytes -> bytes) (u : utx) : res bytes :=
  utx_message H (u_inputs u) (u_data u) (u_cands u).
(** [UnsignedTransaction::new] (61-82). *)
Definition utx_new (H : bytes -> bytes) (ins : list uinput) (data : option (list bytes)) (cs : list cand) : res utx :=
  m <- utx_message H ins data cs ;; Ok (MkUtx (H m) ins data cs).
Definition utx_of_vecs (H : bytes -> bytes) (ins : list uinput) (data : list bytes) (cs : list cand) : res utx :=
  if negb (txio_ok ins) then Err "InvalidInputsCount" else
  d <- opt_vec data ;;
  if negb (txio_ok cs) then Err "InvalidOutputCandidatesCount" else
  utx_new H ins d cs.

(** [Transaction::from_unsigned_tx] (transaction.rs 144-167). *)
Fixpoint attach (ins : list uinput) (ps : list proof) : res (list input) :=
  match ins, ps with
  | [], _ => Ok []
  | _ :: _, [] => Err "no proof for input index"
  | i :: ins', p :: ps' => l <- attach ins' ps' ;; Ok (input_of i p :: l)
  end.
Definition tx_of_unsigned (H : bytes -> bytes) (u : utx) (ps : list proof) : res tx :=
  ins <- attach (u_inputs u) ps ;; tx_new H ins (u_data u) (u_cands u).

(** ** Reduced transactions (reduced.rs 32-149) *)
Record rinput := MkRInput { ri_prop : sbool G; ri_cost : Z; ri_ext : ext }.
Record rtx := MkRtx { r_tx : utx; r_cost : Z; r_inputs : list rinput }.
Definition ser_rinput (i : rinput) : res bytes :=
  s <- sb_write (ri_prop i) ;; c <- put_u64 (ri_cost i) ;; Ok (s ++ c).
Definition ser_rtx (H : bytes -> bytes) (r : rtx) : res bytes :=
  m <- utx_bytes_to_sign H (r_tx r) ;;
  n <- put_usize_as_u32_unwrapped (Zlen m) ;;
  i <- write_list ser_rinput (r_inputs r) ;;
  c <- put_u32 (r_cost r) ;;
  Ok (n ++ m ++ i ++ c).
Fixpoint parse_rinputs (ins : list input) : reader (list rinput) := fun bs =>
  match ins with
  | [] => Ok ([], bs)
  | i :: ins' =>
      '(s, bs) <- sb_parse bs ;;
      '(c, bs) <- get_u64 bs ;;
      '(l, bs) <- parse_rinputs ins' bs ;;
      Ok (MkRInput s c (in_ext i) :: l, bs)
  end.
Definition parse_rtx (H : bytes -> bytes) : reader rtx := fun bs =>
  '(n, bs) <- get_u32 bs ;;
  '(buf, bs) <- read_exact (Z.to_nat n) bs ;;
  t <- from_bytes (parse_tx H) buf ;;
  '(ri, bs) <- parse_rinputs (t_inputs t) bs ;;
  u <- utx_new H (map (fun i => MkUInput (in_box i) (in_ext i)) (t_inputs t)) (t_data t) (t_cands t) ;;
  '(c, bs) <- get_u32 bs ;;
  Ok (MkRtx u c ri, bs).

(** ** Transaction context (wallet/tx_context.rs).  A box carries its identifier. *)
Definition ebox : Type := bytes * box.
Record txctx (T : Type) := MkTxCtx {
  x_tx : T;
  x_boxes : list ebox;
  x_data : option (list ebox);
}.
Arguments MkTxCtx {T}. Arguments x_tx {T}. Arguments x_boxes {T}. Arguments x_data {T}.
(** [get_input_box] (72-77). *)
Definition find_box (l : list ebox) (id : bytes) : option ebox :=
  find (fun b => bytes_eqb (fst b) id) l.
(** [ErgoTransaction] (signing.rs 47-101): input ids, data inputs, outputs, context
    extensions. *)
Record etx (T : Type) := MkETx {
  e_inputs : T -> list bytes;
  e_data : T -> option (list bytes);
  e_outputs : T -> res (list ebox);
  e_ext : T -> nat -> option ext;
}.
Arguments MkETx {T}. Arguments e_inputs {T}. Arguments e_data {T}. Arguments e_outputs {T}. Arguments e_ext {T}.
(** The outputs of an unsigned transaction are built with [unwrap] (67-74). *)
Definition unsigned_etx (H : bytes -> bytes) : etx utx :=
  MkETx (fun u => map ui_box (u_inputs u)) u_data
    (fun u => match mk_outputs H (u_id u) 0 (u_cands u) with Ok l => Ok l | _ => Panic end)
    (fun u i => option_map ui_ext (nth_error (u_inputs u) i)).
Definition signed_etx : etx tx :=
  MkETx (fun t => map in_box (t_inputs t)) t_data (fun t => Ok (t_outputs t))
    (fun t i => option_map in_ext (nth_error (t_inputs t) i)).

(** [TransactionContext::new] (25-69). *)
Definition has_box (l : list ebox) (id : bytes) : bool := existsb (fun b => bytes_eqb id (fst b)) l.
Definition txctx_new {T} (E : etx T) (t : T) (boxes dboxes : list ebox) : res (txctx T) :=
  if Zlen boxes <? 1 then Err "NoInputBoxes" else
  if 65535 <? Zlen boxes then Err "TooManyInputBoxes" else
  if negb (forallb (has_box boxes) (e_inputs E t)) then Err "InputBoxNotFound" else
  d <- match dboxes with
       | [] => Ok None
       | _ => if 65535 <? Zlen dboxes then Err "TooManyDataInputBoxes" else Ok (Some dboxes)
       end ;;
  _ <- match e_data E t with
       | None => Ok tt
       | Some ids =>
           match d with
           | None => Err "DataInputBoxNotFound"
           | Some l => if forallb (has_box l) ids then Ok tt else Err "DataInputBoxNotFound"
           end
       end ;;
  Ok (MkTxCtx t boxes d).

(** The interpreter's context (ergotree-interpreter/src/eval/context.rs 13-30); the
    pre-header and the ten last headers are opaque here, except for the height. *)
Record context (S : Type) := MkContext {
  c_height : Z;
  c_self : ebox;
  c_outputs : list ebox;
  c_data : option (list ebox);
  c_inputs : list ebox;
  c_state : S;
  c_ext : ext;
}.
Arguments MkContext {S}. Arguments c_height {S}. Arguments c_self {S}. Arguments c_outputs {S}.
Arguments c_data {S}. Arguments c_inputs {S}. Arguments c_state {S}. Arguments c_ext {S}.

Fixpoint find_all (l : list ebox) (ids : list bytes) (e : string) : res (list ebox) :=
  match ids with
  | [] => Ok []
  | id :: ids' => b <- of_option e (find_box l id) ;; r <- find_all l ids' e ;; Ok (b :: r)
  end.
(** [make_context] (signing.rs 104-163). *)
Definition make_context {S T} (E : etx T) (height : S -> Z) (st : S) (x : txctx T) (i : nat) : res (context S) :=
  let t := x_tx x in
  id <- of_option "InputNofFound" (nth_error (e_inputs E t) i) ;;
  self <- of_option "InputBoxNotFound" (find_box (x_boxes x) id) ;;
  outs <- e_outputs E t ;;
  d <- match e_data E t with
       | None => Ok None
       | Some ids =>
           match x_data x with
           | Some l => r <- find_all l ids "DataInputBoxNotFound" ;; Ok (Some r)
           | None => match ids with [] => Ok (Some []) | _ => Err "DataInputBoxNotFound" end
           end
       end ;;
  ins <- find_all (x_boxes x) (e_inputs E t) "InputBoxNotFound" ;;
  ex <- of_option "InputNofFound" (e_ext E t i) ;;
  Ok (MkContext (height st) self outs d ins st ex).
End Tx.
Arguments ext G : clear implicits. Arguments input G : clear implicits. Arguments uinput G : clear implicits.
Arguments tx G : clear implicits. Arguments utx G : clear implicits. Arguments rtx G : clear implicits.
Arguments rinput G : clear implicits. Arguments ebox G : clear implicits.
Arguments MkTxCtx {G T}. Arguments x_tx {G T}. Arguments x_boxes {G T}. Arguments x_data {G T}.
Arguments MkETx {G T}. Arguments e_inputs {G T}. Arguments e_data {G T}. Arguments e_outputs {G T}. Arguments e_ext {G T}.
Arguments MkContext {G S}. Arguments c_height {G S}. Arguments c_self {G S}. Arguments c_outputs {G S}.
Arguments c_data {G S}. Arguments c_inputs {G S}. Arguments c_state {G S}. Arguments c_ext {G S}.
Arguments txctx G T : clear implicits. Arguments etx G T : clear implicits. Arguments context G S : clear implicits.
