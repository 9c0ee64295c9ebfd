(** Signing and verifying transactions: ergo-lib/src/wallet/signing.rs,
    ergo-lib/src/wallet/multi_sig.rs, ergo-lib/src/chain/transaction.rs 353-378,
    ergo-lib/src/chain/transaction/reduced.rs 68-101, [Prover::prove]
    (ergotree-interpreter/src/sigma_protocol/prover.rs 140-163) and
    [Verifier::verify] (ergotree-interpreter/src/sigma_protocol/verifier.rs 60-92).

    The script evaluator [reduce_to_crypto] is any function [reduce] of the
    proposition and the context; the diagnostics it returns are not modelled.  The
    cost it reports is always zero in the code. *)
From Verif Require Import Base VlqModel GfModel GroupModel SigmaModel ProverModel.
From Verif Require Import TypeModel MethodModel IrModel SerModel ChainModel TxModel.
Local Open Scope string_scope.
Local Open Scope list_scope.
Local Open Scope Z_scope.

Section Sign.
Context {G : group} {S : Type}.
Notation hint := (hint G). Notation sbool := (sbool G). Notation utree := (utree G).
Notation leaf := (leaf G). Notation fmsg := (fmsg G).

(** ** [TransactionHintsBag] (multi_sig.rs 42-130).  A [HashMap] is an association
    list; the first entry for a key counts. *)
Definition hmap := list (nat * list hint).
Fixpoint hm_get (m : hmap) (i : nat) : option (list hint) :=
  match m with
  | [] => None
  | (k, v) :: m' => if Nat.eqb k i then Some v else hm_get m' i
  end.
Definition hm_insert (i : nat) (v : list hint) (m : hmap) : hmap := (i, v) :: m.
Record txhints := TxHints { th_secret : hmap; th_public : hmap }.
Definition th_empty : txhints := TxHints [] [].
Definition is_commitment (h : hint) : bool :=
  match h with HOwnCommitment _ _ _ _ | HRealCommitment _ _ _ | HSimCommitment _ _ _ => true | _ => false end.
Definition is_secret_proven (h : hint) : bool :=
  match h with HRealProof _ _ _ _ | HSimProof _ _ _ _ => true | _ => false end.
Definition hints_or_empty (o : option (list hint)) : list hint := match o with Some l => l | None => [] end.
(** 69-84 *)
Definition replace_hints (b : txhints) (i : nat) (l : list hint) : txhints :=
  TxHints (hm_insert i (filter is_secret_proven l) (th_secret b))
          (hm_insert i (filter is_commitment l) (th_public b)).
(** 87-112 *)
Definition add_hints (b : txhints) (i : nat) (l : list hint) : txhints :=
  TxHints (hm_insert i (filter is_secret_proven l ++ hints_or_empty (hm_get (th_secret b) i)) (th_secret b))
          (hm_insert i (filter is_commitment l ++ hints_or_empty (hm_get (th_public b) i)) (th_public b)).
(** 115-129 *)
Definition all_hints (b : txhints) (i : nat) : list hint :=
  hints_or_empty (hm_get (th_secret b) i) ++ hints_or_empty (hm_get (th_public b) i).

(** ** Commitments and partial proofs *)

(** [generate_commitments_for] (306-384): the hints in the order they are added; the
    random scalars are given by the position of the leaf. *)
Fixpoint gen_commitments (r : position -> Z) (wanted : list sbool) (pos : position) (s : sbool) : list hint :=
  match s with
  | Triv _ => []
  | SLeaf p =>
      if existsb (sbool_eqb s) wanted then
        let cm := first_message p (r pos) in
        [HRealCommitment s cm pos; HOwnCommitment s (r pos) cm pos]
      else []
  | SConj _ l =>
      (fix go (i : nat) (l : list sbool) : list hint :=
         match l with
         | [] => []
         | x :: l' => gen_commitments r wanted (pos_child pos i) x ++ go (Datatypes.S i) l'
         end) 0%nat l
  end.
Definition generate_commitments_for (r : position -> Z) (s : sbool) (wanted : list sbool) : list hint :=
  gen_commitments r wanted crypto_tree_prefix s.

(** [bag_for_multi_sig] (135-235). *)
Fixpoint bag_traverse (real sim : list sbool) (pos : position) (u : utree) : res (list hint) :=
  match u with
  | UConj _ _ l =>
      (fix go (i : nat) (l : list utree) : res (list hint) :=
         match l with
         | [] => Ok []
         | x :: l' => a <- bag_traverse real sim (pos_child pos i) x ;; b <- go (Datatypes.S i) l' ;; Ok (a ++ b)
         end) 0%nat l
  | ULeaf p cm e z =>
      match cm with
      | Some c =>
          if existsb (sbool_eqb (SLeaf p)) real then
            Ok [HRealCommitment (SLeaf p) c pos; HRealProof (SLeaf p) e u pos]
          else if existsb (sbool_eqb (SLeaf p)) sim then
            Ok [HSimCommitment (SLeaf p) c pos; HSimProof (SLeaf p) e u pos]
          else Ok []
      | None => Err "EmptyCommitment"
      end
  end.
Definition bag_for_multi_sig (s : sbool) (real sim : list sbool) (proof : bytes) : res (list hint) :=
  match s with
  | Triv _ => Ok []
  | _ => u <- parse_sig_compute_challenges s proof ;;
         bag_traverse real sim crypto_tree_prefix (compute_commitments u)
  end.

(** ** Proving and verifying *)
Variable H : bytes -> bytes.
Variable reduce : expr G -> context G S -> res sbool.
Variable height : S -> Z.

(** [generate_proof] (prover.rs 166-185) with the kind of proof bytes it returns. *)
Definition make_proof (secrets : list (secret G)) (hints : list hint) (rnd : randomness) (s : sbool) (msg : bytes) : res proof :=
  b <- generate_proof secrets hints rnd H s msg ;;
  Ok (match s with Triv _ => PEmpty | _ => PSome b end).

Definition reduce_script (t : tree G) (c : context G S) : res sbool :=
  e <- proposition t ;; reduce e c.

(** [Prover::prove]. *)
Definition prove (secrets : list (secret G)) (hints : list hint) (rnd : randomness) (t : tree G) (c : context G S) (msg : bytes)
  : res (proof * ext G) :=
  s <- reduce_script t c ;;
  p <- make_proof secrets hints rnd s msg ;;
  Ok (p, c_ext c).

(** [Verifier::verify]. *)
Definition verify (t : tree G) (c : context G S) (p : proof) (msg : bytes) : res bool :=
  s <- reduce_script t c ;;
  match s with
  | Triv b => Ok b
  | _ =>
      match p with
      | PEmpty => Ok false
      | PSome b => u <- parse_sig_compute_challenges s b ;; check_commitments H u msg
      end
  end.

(** [sign_tx_input] (signing.rs 242-273). *)
Definition hints_for (th : option txhints) (i : nat) : list hint :=
  match th with Some b => all_hints b i | None => [] end.
Definition box_tree (b : ebox G) : tree G := cd_tree (b_cand (snd b)).
Definition sign_input (secrets : list (secret G)) (th : option txhints) (rnd : randomness) (st : S)
    (x : txctx G (utx G)) (msg : bytes) (i : nat) : res (input G) :=
  ui <- of_option "InputBoxNotFound" (nth_error (u_inputs (x_tx x)) i) ;;
  b <- of_option "InputBoxNotFound" (find_box (x_boxes x) (ui_box ui)) ;;
  c <- make_context (unsigned_etx H) height st x i ;;
  '(p, e) <- prove secrets (hints_for th i) rnd (box_tree b) c msg ;;
  Ok (MkInput (ui_box ui) p e).

(** [enumerated().try_mapped]. *)
Fixpoint map_from {A} (f : nat -> res A) (i n : nat) : res (list A) :=
  match n with
  | O => Ok []
  | Datatypes.S n' => a <- f i ;; l <- map_from f (Datatypes.S i) n' ;; Ok (a :: l)
  end.

(** [sign_transaction] (166-189); the randomness is given per input. *)
Definition sign_tx (secrets : list (secret G)) (th : option txhints) (rnd : nat -> randomness) (st : S)
    (x : txctx G (utx G)) : res (tx G) :=
  let u := x_tx x in
  msg <- utx_bytes_to_sign H u ;;
  ins <- map_from (fun i => sign_input secrets th (rnd i) st x msg i) 0 (List.length (u_inputs u)) ;;
  tx_new H ins (u_data u) (u_cands u).

(** [reduce_tx] (reduced.rs 68-101). *)
Definition reduce_input (st : S) (x : txctx G (utx G)) (i : nat) : res (rinput G) :=
  ui <- of_option "InputBoxNotFound" (nth_error (u_inputs (x_tx x)) i) ;;
  b <- of_option "InputBoxNotFound" (find_box (x_boxes x) (ui_box ui)) ;;
  c <- make_context (unsigned_etx H) height st x i ;;
  s <- reduce_script (box_tree b) c ;;
  Ok (MkRInput s 0 (ui_ext ui)).
Definition reduce_tx (st : S) (x : txctx G (utx G)) : res (rtx G) :=
  l <- map_from (reduce_input st x) 0 (List.length (u_inputs (x_tx x))) ;;
  Ok (MkRtx (x_tx x) 0 l).

(** [sign_reduced_transaction] (192-227); the reduced inputs are as many as the
    inputs, otherwise the [unwrap] panics. *)
Definition sign_reduced_input (secrets : list (secret G)) (th : option txhints) (rnd : randomness) (r : rtx G) (msg : bytes)
    (i : nat) : res (input G) :=
  ui <- of_option "unreachable" (nth_error (u_inputs (r_tx r)) i) ;;
  match nth_error (r_inputs r) i with
  | None => Panic
  | Some ri =>
      p <- make_proof secrets (hints_for th i) rnd (ri_prop ri) msg ;;
      Ok (MkInput (ui_box ui) p (ri_ext ri))
  end.
Definition sign_reduced (secrets : list (secret G)) (th : option txhints) (rnd : nat -> randomness) (r : rtx G) : res (tx G) :=
  let u := r_tx r in
  msg <- utx_bytes_to_sign H u ;;
  ins <- map_from (fun i => sign_reduced_input secrets th (rnd i) r msg i) 0 (List.length (u_inputs u)) ;;
  tx_new H ins (u_data u) (u_cands u).

(** [verify_tx_input_proof] (transaction.rs 353-378). *)
Definition verify_input (st : S) (x : txctx G (tx G)) (i : nat) : res bool :=
  inp <- of_option "InputBoxNotFound" (nth_error (t_inputs (x_tx x)) i) ;;
  b <- of_option "InputBoxNotFound" (find_box (x_boxes x) (in_box inp)) ;;
  c <- make_context signed_etx height st x i ;;
  msg <- bytes_to_sign (x_tx x) ;;
  verify (box_tree b) c (in_proof inp) msg.

(** [verify_p2pk_input] (transaction.rs 191-211); the first input naming the box. *)
Definition extract_sigma (e : expr G) : res sbool :=
  match e with EConst (MkConst SSigmaProp (LSigma s)) => Ok s | _ => Err "InvalidResultType" end.
Definition verify_p2pk (t : tx G) (b : ebox G) : res bool :=
  msg <- match bytes_to_sign t with Ok m => Ok m | _ => Panic end ;;
  inp <- of_option "InputNotFound" (find (fun i => bytes_eqb (in_box i) (fst b)) (t_inputs t)) ;;
  e <- proposition (box_tree b) ;;
  s <- extract_sigma e ;;
  verify_signature H s msg (proof_bytes (in_proof inp)).
End Sign.
Arguments txhints G : clear implicits. Arguments hmap G : clear implicits.
