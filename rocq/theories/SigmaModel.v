(** Sigma propositions, their serialization, the proof tree, the Fiat-Shamir
    string, the proof encoding and the verifier. *)
From Verif Require Import Base VlqModel GfModel GroupModel.
Local Open Scope Z_scope.

Section Sigma.
Context {G : group}.

(** ** Sigma propositions: ergotree-ir/src/sigma_protocol/sigma_boolean.rs *)

(** 33-36 [ProveDlog], 69-78 [ProveDhTuple], 108-113 [SigmaProofOfKnowledgeTree]. *)
Inductive leaf := Dlog (h : G) | Dht (g h u v : G).

(** 126-133 [SigmaConjecture]; [Thr k] carries the [u8] field [k] of
    cthreshold.rs:21-27. *)
Inductive ckind := And | Or | Thr (k : Z).

(** 166-173 [SigmaBoolean].  The three conjecture structs become one
    constructor with the kind and the list of items. *)
Inductive sbool :=
| Triv (b : bool)
| SLeaf (p : leaf)
| SConj (c : ckind) (items : list sbool).

(** Derived [PartialEq]. *)
Definition leaf_eqb (a b : leaf) : bool :=
  match a, b with
  | Dlog h1, Dlog h2 => geqb h1 h2
  | Dht g1 h1 u1 v1, Dht g2 h2 u2 v2 => geqb g1 g2 && geqb h1 h2 && geqb u1 u2 && geqb v1 v2
  | _, _ => false
  end.
Definition conj_eqb (a b : ckind) : bool :=
  match a, b with
  | And, And => true
  | Or, Or => true
  | Thr k1, Thr k2 => k1 =? k2
  | _, _ => false
  end.
Definition list_eqb {A} (f : A -> A -> bool) : list A -> list A -> bool :=
  fix go l1 l2 :=
    match l1, l2 with
    | [], [] => true
    | x :: l1', y :: l2' => f x y && go l1' l2'
    | _, _ => false
    end.
Fixpoint sbool_eqb (a b : sbool) : bool :=
  match a, b with
  | Triv x, Triv y => Bool.eqb x y
  | SLeaf p, SLeaf q => leaf_eqb p q
  | SConj c l, SConj d m => conj_eqb c d && list_eqb sbool_eqb l m
  | _, _ => false
  end.

(** [SigmaConjectureItems] is [BoundedVec<_, 2, 255>] (29); [k] is a [u8]. *)
Definition items_len_ok {A} (l : list A) : Prop := 2 <= Zlen l <= 255.
Definition conj_wf (c : ckind) : Prop := match c with Thr k => u8 k | _ => True end.
Fixpoint sb_wf (s : sbool) : Prop :=
  match s with
  | Triv _ | SLeaf _ => True
  | SConj c l => conj_wf c /\ items_len_ok l /\ fold_right (fun x P => sb_wf x /\ P) True l
  end.

(** *** Serialization: ergotree-ir/src/serialization/sigmaboolean.rs:16-93 *)

(** serialization/op_code.rs:74-76, 125-126, 130-131; [new_op_code] adds 112. *)
Definition op_and := 150. Definition op_or := 151. Definition op_atleast := 152.
Definition op_prove_dlog := 205. Definition op_prove_dht := 206.
Definition op_triv_false := 210. Definition op_triv_true := 211.

(** sigma_boolean.rs:115-122, 135-143, 175-190 [op_code]. *)
Definition leaf_op (p : leaf) : Z := match p with Dlog _ => op_prove_dlog | Dht _ _ _ _ => op_prove_dht end.
Definition conj_op (c : ckind) : Z := match c with And => op_and | Or => op_or | Thr _ => op_atleast end.
Definition sb_op (s : sbool) : Z :=
  match s with
  | Triv true => op_triv_true
  | Triv false => op_triv_false
  | SLeaf p => leaf_op p
  | SConj c _ => conj_op c
  end.

(** sigmaboolean.rs:66-69, 77-83. *)
Definition leaf_write (p : leaf) : res bytes :=
  match p with
  | Dlog h => ec_write h
  | Dht g h u v =>
      a <- ec_write g ;; b <- ec_write h ;; c <- ec_write u ;; d <- ec_write v ;;
      Ok (a ++ b ++ c ++ d)
  end.

(** Running a fallible writer over the items ([try_for_each]). *)
Definition write_each {A} (w : A -> res bytes) : list A -> res bytes :=
  fix go l :=
    match l with
    | [] => Ok []
    | a :: l' => b1 <- w a ;; b2 <- go l' ;; Ok (b1 ++ b2)
    end.

(** sigmaboolean.rs:17-31, with cand.rs:65-68, cor.rs:66-69, cthreshold.rs:104-110;
    item counts are written [as u16]. *)
Fixpoint sb_write (s : sbool) : res bytes :=
  let op := sb_op s in
  match s with
  | Triv _ => Ok [op]
  | SLeaf p => b <- leaf_write p ;; Ok (op :: b)
  | SConj c l =>
      kb <- match c with Thr k => put_u16 k | _ => Ok [] end ;;
      nb <- put_u16 (wrapu 16 (Zlen l)) ;;
      lb <- write_each sb_write l ;;
      Ok (op :: kb ++ nb ++ lb)
  end.

(** sigmaboolean.rs:71-74, 86-92. *)
Definition dlog_read : reader leaf :=
  fun bs => '(h, bs) <- ec_read bs ;; Ok (Dlog h, bs).
Definition dht_read : reader leaf :=
  fun bs =>
    '(g, bs) <- ec_read bs ;; '(h, bs) <- ec_read bs ;;
    '(u, bs) <- ec_read bs ;; '(v, bs) <- ec_read bs ;; Ok (Dht g h u v, bs).

(** [items.try_into()] to [BoundedVec<_, 2, 255>]. *)
Definition bounded {A} (l : list A) : res (list A) :=
  if (2 <=? Zlen l) && (Zlen l <=? 255) then Ok l else Err "BoundedVecOutOfBounds".

(** sigmaboolean.rs:33-63, with cand.rs:70-79, cor.rs:71-80,
    cthreshold.rs:112-123 ([k] is [get_u16()? as u8]).  [fuel] bounds the nesting
    depth only; the Rust recursion is bounded by the stack. *)
Fixpoint sb_read (fuel : nat) : reader sbool :=
  fun bs =>
    match fuel with
    | O => Err "fuel"
    | S fuel' =>
        '(op, bs) <- get_u8 bs ;;
        let conj_read (c : ckind) (bs : bytes) :=
          '(n, bs) <- get_u16 bs ;;
          '(l, bs) <- read_n (Z.to_nat n) (sb_read fuel') bs ;;
          l <- bounded l ;; Ok (SConj c l, bs) in
        if op =? op_prove_dlog then '(p, bs) <- dlog_read bs ;; Ok (SLeaf p, bs)
        else if op =? op_prove_dht then '(p, bs) <- dht_read bs ;; Ok (SLeaf p, bs)
        else if op =? op_and then conj_read And bs
        else if op =? op_or then conj_read Or bs
        else if op =? op_atleast then
          '(k, bs) <- get_u16 bs ;; conj_read (Thr (wrapu 8 k)) bs
        else if op =? op_triv_true then Ok (Triv true, bs)
        else if op =? op_triv_false then Ok (Triv false, bs)
        else Err "unexpected op code in SigmaBoolean parsing"
    end.

(** *** Normalization: cand.rs:27-48, cor.rs:27-50, cthreshold.rs:31-81 *)

(** Keep the items that are not the neutral constant [b]; [None] when the
    absorbing constant [negb b] occurs (the early [return it]). *)
Fixpoint strip (b : bool) (l : list sbool) : option (list sbool) :=
  match l with
  | [] => Some []
  | Triv c :: l' => if Bool.eqb b c then strip b l' else None
  | x :: l' => option_map (cons x) (strip b l')
  end.

(** [res.try_into().unwrap()]. *)
Definition bounded_unwrap {A} (l : list A) : res (list A) :=
  match bounded l with Ok l => Ok l | _ => Panic end.

Definition conj_of_stripped (c : ckind) (b : bool) (o : option (list sbool)) : res sbool :=
  match o with
  | None => Ok (Triv (negb b))
  | Some [] => Ok (Triv b)
  | Some [x] => Ok x
  | Some l => l <- bounded_unwrap l ;; Ok (SConj c l)
  end.
Definition cand_normalized (items : list sbool) : res sbool :=
  conj_of_stripped And true (strip true items).
Definition cor_normalized (items : list sbool) : res sbool :=
  conj_of_stripped Or false (strip false items).

(** The loop of [reduce] (43-68): [acc] is [res], [rem] is [children_left];
    the inner [Some] is an early return. *)
Fixpoint reduce_loop (l : list sbool) (k rem : Z) (acc : list sbool)
  : (Z * Z * list sbool) + res sbool :=
  match l with
  | [] => inl (k, rem, acc)
  | ch :: l' =>
      if k =? 1 then inr (r <- bounded_unwrap (acc ++ l) ;; cor_normalized r)
      else if k =? rem then inr (r <- bounded_unwrap (acc ++ l) ;; cand_normalized r)
      else match ch with
           | Triv true => reduce_loop l' (k - 1) (rem - 1) acc
           | Triv false => reduce_loop l' k (rem - 1) acc
           | _ => reduce_loop l' k rem (acc ++ [ch])
           end
  end.
Definition cthreshold_reduce (k : Z) (children : list sbool) : res sbool :=
  if k =? 0 then Ok (Triv true)
  else if Zlen children <? k then Ok (Triv false)
  else match reduce_loop children k (Zlen children) [] with
       | inr r => r
       | inl (k, rem, acc) =>
           sigmas <- bounded_unwrap acc ;;
           if k =? 1 then cor_normalized sigmas
           else if k =? rem then cand_normalized sigmas
           else Ok (SConj (Thr k) sigmas)
       end.

(** ** Challenges: ergotree-interpreter/src/sigma_protocol/challenge.rs *)

(** 13 [Challenge]: 24 bytes. *)
Definition challenge := bytes.
Definition chal_ok (e : challenge) : Prop := length e = 24%nat /\ bytes_ok e.

(** 26-36 [xor]. *)
Definition chal_xor (a b : challenge) : challenge :=
  map (fun '(x, y) => Z.lxor x y) (combine a b).

(** gf2_192.rs:9-21. *)
Definition chal_gf (e : challenge) : gf := gf_from_bytes24 e.
Definition gf_chal (x : gf) : challenge := gf_to_bytes x.

(** gf2_192.rs:29-40 [gf2_192poly_from_byte_array]. *)
Definition poly_of_chal (e : challenge) (other : bytes) : res poly :=
  poly_from_bytes (gf_to_bytes (chal_gf e)) other.

(** wscalar.rs:48-56: the 24 bytes, left-padded to 32, reduced modulo the order. *)
Definition chal_scalar (e : challenge) : Z := be_value (repeat 0 8 ++ e) mod gord G.

(** wscalar.rs:40-46 [From<GroupSizedBytes>]; [Scalar::to_bytes]. *)
Definition scalar_of_bytes (b : bytes) : Z := be_value b mod gord G.
Definition scalar_bytes (z : Z) : bytes := be_bytes 32 z.
Definition scalar_ok (z : Z) : Prop := 0 <= z < gord G.

(** fiat_shamir.rs:66-72 [fiat_shamir_hash_fn]; [H] is Blake2b256. *)
Definition fiat_shamir_hash (H : bytes -> bytes) (input : bytes) : challenge :=
  firstn 24 (H input).

(** ** Leaf protocols: dlog_protocol.rs, dht_protocol.rs *)

(** sigma_protocol.rs:46-53 [FirstProverMessage]. *)
Inductive fmsg := FDlog (a : G) | FDht (a b : G).

Definition fmsg_eqb (x y : fmsg) : bool :=
  match x, y with
  | FDlog a, FDlog b => geqb a b
  | FDht a b, FDht c d => geqb a c && geqb b d
  | _, _ => false
  end.

(** dlog_protocol.rs:23-29, dht_protocol.rs:29-36 [bytes]. *)
Definition fmsg_bytes (m : fmsg) : res bytes :=
  match m with
  | FDlog a => ec_write a
  | FDht a b => x <- ec_write a ;; y <- ec_write b ;; Ok (x ++ y)
  end.

(** dlog_protocol.rs:81-86, dht_protocol.rs:92-98 [first_message], on the random
    scalar [r]. *)
Definition first_message (p : leaf) (r : Z) : fmsg :=
  match p with
  | Dlog _ => FDlog (exponentiate ggen r)
  | Dht g h _ _ => FDht (exponentiate g r) (exponentiate h r)
  end.

(** dlog_protocol.rs:92-103, dht_protocol.rs:104-115 [second_message]. *)
Definition second_message (w rnd : Z) (e : challenge) : Z :=
  (rnd + (chal_scalar e * w) mod gord G) mod gord G.

(** dlog_protocol.rs:59-76, dht_protocol.rs:64-85 [simulate], on the random
    scalar [z]; [Scalar::negate] is negation modulo the order. *)
Definition simulate (p : leaf) (e : challenge) (z : Z) : fmsg :=
  let minus_e := (- chal_scalar e) mod gord G in
  match p with
  | Dlog h => FDlog (gop (exponentiate ggen z) (exponentiate h minus_e))
  | Dht g h u v => FDht (gop (exponentiate g z) (exponentiate u minus_e))
                        (gop (exponentiate h z) (exponentiate v minus_e))
  end.

(** dlog_protocol.rs:110-121, dht_protocol.rs:124-149 [compute_commitment]. *)
Definition compute_commitment (p : leaf) (e : challenge) (z : Z) : fmsg :=
  let s := chal_scalar e in
  match p with
  | Dlog h => FDlog (gop (exponentiate ggen z) (ginv (exponentiate h s)))
  | Dht g h u v => FDht (gop (exponentiate g z) (ginv (exponentiate u s)))
                        (gop (exponentiate h z) (ginv (exponentiate v s)))
  end.

(** ** Unchecked trees: unchecked_tree.rs *)

(** The kind of an unchecked conjecture; the threshold one carries its polynomial. *)
Inductive uconj := UAnd | UOr | UThr (k : Z) (q : poly).

(** [UncheckedTree]: the Schnorr and DH-tuple leaf structs become one
    constructor carrying the leaf proposition. *)
Inductive utree :=
| ULeaf (p : leaf) (cm : option fmsg) (e : challenge) (z : Z)
| UConj (c : uconj) (e : challenge) (children : list utree).

Definition u_chal (t : utree) : challenge :=
  match t with ULeaf _ _ e _ => e | UConj _ e _ => e end.

(** ** Fiat-Shamir string: fiat_shamir.rs:129-193 *)

(** 140-148: [ErgoTree::new(ErgoTreeHeader::v0(true), Const(SigmaProp(leaf)))]
    serialized: header 0x10, one constant, type code 8 ([SSigmaProp]), the
    sigma proposition, and the body [ConstantPlaceholder(0)] (0x73 0x00). *)
Definition leaf_prop_bytes (p : leaf) : res bytes :=
  sb <- sb_write (SLeaf p) ;; Ok ([16; 1; 8] ++ sb ++ [115; 0]).

Definition fs_leaf (p : leaf) (cm : option fmsg) : res bytes :=
  pb <- leaf_prop_bytes p ;;
  c <- of_option "EmptyCommitmentInLeaf" cm ;;
  cb <- fmsg_bytes c ;;
  pl <- put_i16_be_bytes (wraps 16 (Zlen pb)) ;;
  cl <- put_i16_be_bytes (wraps 16 (Zlen cb)) ;;
  Ok ([1] ++ pl ++ pb ++ cl ++ cb).

(** Node header: prefix 0, [conjecture_type] (proof_tree.rs:131-135), [k] for a
    threshold, number of children. *)
Definition fs_node (ty : Z) (k : option Z) (n : Z) : res bytes :=
  nb <- put_i16_be_bytes (wraps 16 n) ;;
  Ok ([0; ty] ++ match k with Some k => [k] | None => [] end ++ nb).

Definition uconj_type (c : uconj) : Z := match c with UAnd => 0 | UOr => 1 | UThr _ _ => 2 end.
Definition uconj_k (c : uconj) : option Z := match c with UThr k _ => Some k | _ => None end.

Fixpoint fs_write_u (t : utree) : res bytes :=
  match t with
  | ULeaf p cm _ _ => fs_leaf p cm
  | UConj c _ l =>
      hd <- fs_node (uconj_type c) (uconj_k c) (Zlen l) ;;
      b <- write_each fs_write_u l ;;
      Ok (hd ++ b)
  end.

(** ** Proof encoding: sig_serializer.rs *)

(** [for child in elements { write(child, true) }; write(last, false)]. *)
Definition write_all_but_last {A} (w : A -> bool -> res bytes) : list A -> res bytes :=
  fix go l :=
    match l with
    | [] => Ok []
    | [x] => w x false
    | x :: l' => b1 <- w x true ;; b2 <- go l' ;; Ok (b1 ++ b2)
    end.

(** 45-108 [sig_write_bytes]. *)
Fixpoint sig_write (t : utree) (write_challenges : bool) : res bytes :=
  let cb := if write_challenges then u_chal t else [] in
  match t with
  | ULeaf _ _ _ z => Ok (cb ++ scalar_bytes z)
  | UConj c _ l =>
      b <- match c with
           | UAnd => write_each (fun x => sig_write x false) l
           | UOr => write_all_but_last sig_write l
           | UThr k q =>
               let pb := poly_to_bytes q in
               if Zlen l <? k then Panic
               else if negb (Zlen pb =? (Zlen l - k) * 24) then Panic
               else b <- write_each (fun x => sig_write x false) l ;; Ok (pb ++ b)
           end ;;
      Ok (cb ++ b)
  end.

(** 30-37 [serialize_sig]. *)
Definition serialize_sig (t : utree) : res bytes := sig_write t true.

(** Readers over the children. *)
Definition read_each {A B} (f : A -> reader B) : list A -> reader (list B) :=
  fix go l :=
    match l with
    | [] => fun bs => Ok ([], bs)
    | a :: l' => fun bs =>
        '(b, bs) <- f a bs ;; '(bl, bs) <- go l' bs ;; Ok (b :: bl, bs)
    end.
Definition read_each_i {A B} (f : nat -> A -> reader B) : nat -> list A -> reader (list B) :=
  fix go i l {struct l} :=
    match l with
    | [] => fun bs => Ok ([], bs)
    | a :: l' => fun bs =>
        '(b, bs) <- f i a bs ;; '(bl, bs) <- go (S i) l' bs ;; Ok (b :: bl, bs)
    end.
(** The OR case (187-213): all children but the last read their challenge, the
    last gets the XOR of the others with the node's.  The fold over the children
    read so far is fused with the loop. *)
Definition read_or {A} (f : A -> option challenge -> reader utree)
  : list A -> challenge -> reader (list utree) :=
  fix go l acc {struct l} :=
    match l with
    | [] => fun bs => Ok ([], bs)
    | [x] => fun bs => '(u, bs) <- f x (Some acc) bs ;; Ok ([u], bs)
    | x :: l' => fun bs =>
        '(u, bs) <- f x None bs ;;
        '(us, bs) <- go l' (chal_xor acc (u_chal u)) bs ;; Ok (u :: us, bs)
    end.

(** The one-based child index [(idx + 1) as u8]. *)
Definition one_based (idx : nat) : N := Z.to_N (wrapu 8 (Z.of_nat idx + 1)).

(** 127-249 [parse_sig_compute_challenges_reader]. *)
Fixpoint parse_sig (s : sbool) (co : option challenge) : reader utree :=
  fun bs =>
    '(e, bs) <- match co with
                | Some c => Ok (c, bs)
                | None => match read_exact 24 bs with Ok r => Ok r | _ => Err "ChallengeRead" end
                end ;;
    match s with
    | Triv _ => Err "TrivialPropFound"
    | SLeaf p =>
        '(zb, bs) <- read_exact 32 bs ;;
        Ok (ULeaf p None e (scalar_of_bytes zb), bs)
    | SConj And l =>
        '(us, bs) <- read_each (fun x => parse_sig x (Some e)) l bs ;;
        Ok (UConj UAnd e us, bs)
    | SConj Or l =>
        '(us, bs) <- read_or parse_sig l e bs ;;
        Ok (UConj UOr e us, bs)
    | SConj (Thr k) l =>
        if Zlen l <? k then Panic else
        '(cb, bs) <- read_exact (Z.to_nat ((Zlen l - k) * 24)) bs ;;
        q <- poly_of_chal e cb ;;
        '(us, bs) <- read_each_i (fun i x => parse_sig x (Some (gf_chal (evaluate q (one_based i))))) 0 l bs ;;
        Ok (UConj (UThr k q) e us, bs)
    end.

(** 115-125 [parse_sig_compute_challenges]: bytes left over are ignored. *)
Definition parse_sig_compute_challenges (s : sbool) (proof : bytes) : res utree :=
  match proof with
  | [] => Err "EmptyProof"
  | _ => '(t, _) <- parse_sig s None proof ;; Ok t
  end.

(** ** Verifier: verifier.rs *)

(** 134-167 [compute_commitments]. *)
Fixpoint compute_commitments (t : utree) : utree :=
  match t with
  | ULeaf p _ e z => ULeaf p (Some (compute_commitment p e z)) e z
  | UConj c e l => UConj c e (map compute_commitments l)
  end.

Definition bytes_eqb : bytes -> bytes -> bool := list_eqb Z.eqb.

(** 118-129 [check_commitments]. *)
Definition check_commitments (H : bytes -> bytes) (t : utree) (message : bytes) : res bool :=
  let new_root := compute_commitments t in
  s <- fs_write_u new_root ;;
  Ok (bytes_eqb (u_chal new_root) (fiat_shamir_hash H (s ++ message))).

(** 95-115 [verify_signature]; also the body of [Verifier::verify] (72-85) once
    the script is reduced. *)
Definition verify_signature (H : bytes -> bytes) (s : sbool) (message signature : bytes) : res bool :=
  match s with
  | Triv b => Ok b
  | _ =>
      match signature with
      | [] => Ok false
      | _ => t <- parse_sig_compute_challenges s signature ;; check_commitments H t message
      end
  end.

End Sigma.
Arguments leaf G : clear implicits.
Arguments sbool G : clear implicits.
Arguments fmsg G : clear implicits.
Arguments utree G : clear implicits.
