(** The wallet as applications use it: ergo-lib/src/wallet.rs, the per-transaction part
    of ergo-lib/src/wallet/multi_sig.rs (242-301), message signing
    (ergo-lib/src/wallet/signing.rs 231-239) and its two bindings
    (bindings/ergo-lib-wasm/src/wallet.rs 177-196, bindings/ergo-lib-wasm/src/verifier.rs
    11-28, bindings/ergo-lib-c-core/src/wallet.rs 265-313).

    A wallet is the list of its secrets.  Random choices are arguments.  The pointers of
    the C binding and the conversion of errors into JavaScript values are left out. *)
From Verif Require Import Base VlqModel GfModel GroupModel SigmaModel ProverModel.
From Verif Require Import TypeModel MethodModel IrModel SerModel ChainModel TxModel SignModel.
From Verif Require Import WalletModel AddressModel DeriveModel MnemonicModel.
Local Open Scope string_scope.
Local Open Scope list_scope.
Local Open Scope Z_scope.

Section Keyring.
Context {G : group} {S : Type}.
Notation hint := (hint G). Notation sbool := (sbool G).

(** [Wallet] (wallet.rs 44-46) over [TestProver] (prover.rs 1192-1206). *)
Definition wallet := list (secret G).
(** [from_secrets] (78-85), [add_secret] (88-90) with [append_secret] (prover.rs 1203-1205). *)
Definition from_secrets (l : list (secret G)) : wallet := l.
Definition add_secret (w : wallet) (s : secret G) : wallet := w ++ [s].
(** [from_mnemonic] (68-75): the master key, at the empty path. *)
Definition from_mnemonic (nfkd : bytes -> bytes) (pbkdf2 : bytes -> bytes -> Z -> bytes) (hmac : bytes -> bytes -> bytes)
    (phrase pass : bytes) : res wallet :=
  k <- sk_master (G := G) hmac (to_seed nfkd pbkdf2 phrase pass) ;; Ok (from_secrets [SecDlog (sk_w k)]).
(** The public keys collected at 119-124 and 134-139. *)
Definition public_keys (w : wallet) : list sbool := map (fun s => SLeaf (public_image s)) w.

(** ** Messages *)
Variable H : bytes -> bytes.
(** [sign_message] (149-155; signing.rs 231-239). *)
Definition sign_message (w : wallet) (rnd : randomness) (s : sbool) (msg : bytes) : res bytes :=
  generate_proof w [] rnd H s msg.
(** [sign_message_using_p2pk] (wasm wallet.rs 177-196, c-core wallet.rs 265-287). *)
Definition sign_message_using_p2pk (w : wallet) (rnd : randomness) (a : address G) (msg : bytes) : res bytes :=
  match a with
  | P2Pk h => sign_message w rnd (SLeaf (Dlog h)) msg
  | _ => Err "wallet::sign_message_using_p2pk: Address:P2Pk expected"
  end.
(** [verify_signature] (wasm verifier.rs 11-28, c-core wallet.rs 289-313). *)
Definition verify_signature_p2pk (a : address G) (msg signature : bytes) : res bool :=
  match a with
  | P2Pk h => verify_signature H (SLeaf (Dlog h)) msg signature
  | _ => Err "wallet::verify_signature: Address:P2Pk expected"
  end.

(** ** Hints for whole transactions *)
(** The loops of multi_sig.rs 249-265 and 277-298 and wallet.rs 140-144: the hints of
    every input in turn are added to the bag under its index. *)
Fixpoint collect (f : nat -> res (list hint)) (n i : nat) (b : txhints G) : res (txhints G) :=
  match n with
  | O => Ok b
  | Datatypes.S n' => l <- f i ;; collect f n' (Datatypes.S i) (add_hints b i l)
  end.

Variable reduce : expr G -> context G S -> res sbool.
Variable height : S -> Z.

(** [generate_commitments] (multi_sig.rs 242-267, wallet.rs 114-126); [r] gives the random
    scalar of a leaf by input and position. *)
Definition input_prop (st : S) (x : txctx G (utx G)) (i : nat) : res sbool :=
  ui <- of_option "InputBoxNotFound" (nth_error (u_inputs (x_tx x)) i) ;;
  b <- of_option "InputBoxNotFound" (find_box (x_boxes x) (ui_box ui)) ;;
  c <- make_context (unsigned_etx H) height st x i ;;
  reduce_script reduce (box_tree b) c.
Definition generate_commitments (w : wallet) (r : nat -> position -> Z) (st : S) (x : txctx G (utx G)) : res (txhints G) :=
  collect (fun i => s <- input_prop st x i ;; Ok (generate_commitments_for (r i) s (public_keys w)))
    (List.length (u_inputs (x_tx x))) 0 th_empty.
(** [generate_commitments_for_reduced_transaction] (wallet.rs 129-146). *)
Definition generate_commitments_reduced (w : wallet) (r : nat -> position -> Z) (t : rtx G) : res (txhints G) :=
  collect (fun i => ri <- of_option "unreachable" (nth_error (r_inputs t) i) ;;
             Ok (generate_commitments_for (r i) (ri_prop ri) (public_keys w)))
    (List.length (r_inputs t)) 0 th_empty.
(** [extract_hints] (multi_sig.rs 270-301). *)
Definition signed_prop (st : S) (x : txctx G (tx G)) (i : nat) : res (sbool * bytes) :=
  inp <- of_option "InputBoxNotFound" (nth_error (t_inputs (x_tx x)) i) ;;
  b <- of_option "InputBoxNotFound" (find_box (x_boxes x) (in_box inp)) ;;
  c <- make_context signed_etx height st x i ;;
  s <- reduce_script reduce (box_tree b) c ;;
  Ok (s, proof_bytes (in_proof inp)).
Definition extract_hints (real sim : list sbool) (st : S) (x : txctx G (tx G)) : res (txhints G) :=
  collect (fun i => '(s, p) <- signed_prop st x i ;; bag_for_multi_sig s real sim p)
    (List.length (t_inputs (x_tx x))) 0 th_empty.

(** [sign_tx_input] (wallet.rs 158-175). *)
Definition wallet_sign_input (w : wallet) (th : option (txhints G)) (rnd : randomness) (st : S) (x : txctx G (utx G))
    (i : nat) : res (input G) :=
  msg <- utx_bytes_to_sign H (x_tx x) ;;
  sign_input H reduce height w th rnd st x msg i.
End Keyring.
Arguments wallet G : clear implicits.
