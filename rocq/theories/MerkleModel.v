(** Model of the crate ergo-merkle-tree: trees, single and batch proofs.
    [blake2b256_hash] is a section variable [H]; a [Digest32] is the byte string
    it wraps.  [usize] positions of a vector are [nat]; vectors never reach
    2^64 elements, so index arithmetic does not overflow. *)
From Verif Require Import Base VlqModel.
Local Open Scope nat_scope.

Section Merkle.
Variable H : bytes -> bytes.

(** ergo-merkle-tree/src/lib.rs:26-27 [INTERNAL_PREFIX], [LEAF_PREFIX]. *)
Definition INTERNAL_PREFIX : Z := 1%Z.
Definition LEAF_PREFIX : Z := 0%Z.

(** lib.rs:35-40 [prefixed_hash]. *)
Definition prefixed_hash (prefix : Z) (data : bytes) : bytes := H (prefix :: data).

(** lib.rs:44-58 [prefixed_hash2]: absent data contributes nothing. *)
Definition opt_bytes (o : option bytes) : bytes :=
  match o with Some b => b | None => [] end.
Definition prefixed_hash2 (prefix : Z) (d1 d2 : option bytes) : bytes :=
  H ([prefix] ++ opt_bytes d1 ++ opt_bytes d2).

(** merkletree.rs:10-22 [MerkleNode]. *)
Inductive mnode : Type :=
| MNode (hash : bytes)
| MLeaf (hash : bytes) (data : bytes)
| MEmpty.

(** merkletree.rs:26-30 [from_bytes]. *)
Definition from_bytes (data : bytes) : mnode := MLeaf (prefixed_hash LEAF_PREFIX data) data.

(** merkletree.rs:32-38 [get_hash], 40-45 [get_leaf_data]. *)
Definition get_hash (n : mnode) : option bytes :=
  match n with MNode h => Some h | MLeaf h _ => Some h | MEmpty => None end.
Definition get_leaf_data (n : mnode) : option bytes :=
  match n with MLeaf _ d => Some d | _ => None end.

(** merkletree.rs:52-70 [get_left], [get_right], [get_parent], [get_sibling]. *)
Definition get_left (i : nat) : nat := 2 * i + 1.
Definition get_right (i : nat) : nat := 2 * i + 2.
Definition get_parent (i : nat) : option nat :=
  match i with O => None | S v => Some (v / 2) end.
Definition get_sibling (i : nat) : option nat :=
  match get_parent i with
  | None => None
  | Some p => if Nat.eqb (get_left p) i then Some (get_right p) else Some (get_left p)
  end.

(** Vector indexing [v[i]] and assignment [v[i] = x]; out of bounds panics. *)
Definition vget {A} (l : list A) (i : nat) : res A :=
  match nth_error l i with Some a => Ok a | None => Panic end.
Fixpoint vset {A} (l : list A) (i : nat) (x : A) : res (list A) :=
  match l, i with
  | [], _ => Panic
  | _ :: t, O => Ok (x :: t)
  | a :: t, S i' => rmap (cons a) (vset t i' x)
  end.
Definition unwrap {A} (o : option A) : res A :=
  match o with Some a => Ok a | None => Panic end.

(** merkletree.rs:165-181: the parent of two neighbouring nodes. *)
Definition combine_nodes (l r : option bytes) : res mnode :=
  match l, r with
  | Some lh, Some rh => Ok (MNode (prefixed_hash2 INTERNAL_PREFIX (Some lh) (Some rh)))
  | Some h, None => Ok (MNode (prefixed_hash INTERNAL_PREFIX h))
  | None, None => Ok MEmpty
  | None, Some _ => Panic (* unreachable!() *)
  end.

(** merkletree.rs:164 [(1..len).step_by(2).rev()]: the odd positions below [2*k],
    from the highest down. *)
Fixpoint odds (k : nat) : list nat :=
  match k with O => [] | S k' => (2 * k' + 1) :: odds k' end.

(** merkletree.rs:163-184 [build_nodes]. *)
Fixpoint build_nodes (pairs : list nat) (nodes : list mnode) : res (list mnode) :=
  match pairs with
  | [] => Ok nodes
  | pr :: rest =>
      l <- vget nodes pr ;;
      s <- unwrap (get_sibling pr) ;;
      r <- vget nodes s ;;
      node <- combine_nodes (get_hash l) (get_hash r) ;;
      p <- unwrap (get_parent pr) ;;
      nodes' <- vset nodes p node ;;
      build_nodes rest nodes'
  end.

(** merkletree.rs:153-157 [MerkleTree]; the [HashMap] is an association list in
    which the most recent insertion comes first. *)
Record mtree : Type := {
  nodes : list mnode;
  elements_hash_index : list (bytes * nat);
  internal_nodes : nat }.

(** [usize::next_power_of_two]. *)
Definition next_power_of_two (n : nat) : nat := 2 ^ Nat.log2_up n.

(** [.iter().flat_map(get_hash)] *)
Definition hashes_of (l : list mnode) : list bytes :=
  flat_map (fun n => match get_hash n with Some h => [h] | None => [] end) l.

(** [.enumerate()] *)
Fixpoint enumerate {A} (i : nat) (l : list A) : list (nat * A) :=
  match l with [] => [] | a :: t => (i, a) :: enumerate (S i) t end.

(** merkletree.rs:161-208 [MerkleTree::new]. *)
Definition merkle_new (input : list mnode) : res mtree :=
  let tree_nodes := if Nat.odd (length input) then input ++ [MEmpty] else input in
  let index := fold_left (fun m '(i, h) => (h, i) :: m) (enumerate 0 (hashes_of tree_nodes)) [] in
  let leaf_nodes := length tree_nodes in
  let full := repeat MEmpty (next_power_of_two leaf_nodes - 1) ++ tree_nodes in
  built <- build_nodes (odds (length full / 2)) full ;;
  Ok {| nodes := built; elements_hash_index := index;
        internal_nodes := length built - leaf_nodes |}.

(** merkletree.rs:211-217 [root_hash]; 220-229 [root_hash_special]. *)
Definition root_hash (t : mtree) : bytes :=
  match nth_error (nodes t) 0 with
  | Some n => match get_hash n with Some h => h | None => repeat 0%Z 32 end
  | None => repeat 0%Z 32
  end.
Definition root_hash_special (t : mtree) : bytes :=
  match nth_error (nodes t) 0 with
  | Some n => match get_hash n with Some h => h | None => H [] end
  | None => H []
  end.

(** merkleproof.rs:13-46 [NodeSide], [LevelNode]; 70-73 [MerkleProof]. *)
Inductive side : Type := SLeft | SRight.
Record level_node : Type := { ln_hash : option bytes; ln_side : side }.
Record merkle_proof : Type := { leaf_data : bytes; levels : list level_node }.

Definition side_eqb (a b : side) : bool :=
  match a, b with SLeft, SLeft | SRight, SRight => true | _, _ => false end.

(** merkletree.rs:84-95: the loop of [build_proof]; [fuel] bounds the number of
    iterations (the index shrinks at each one). *)
Fixpoint proof_loop (fuel : nat) (nodes : list mnode) (i : nat) : res (list level_node) :=
  match get_sibling i with
  | None => Ok []
  | Some s =>
      let sd := if Nat.eqb s (i + 1) then SLeft else SRight in
      n <- vget nodes s ;;
      match fuel, get_parent i with
      | S fuel', Some p =>
          rest <- proof_loop fuel' nodes p ;;
          Ok ({| ln_hash := get_hash n; ln_side := sd |} :: rest)
      | _, _ => Panic
      end
  end.

(** merkletree.rs:73-98 [build_proof]; [Ok None] is Rust's [None]. *)
Definition build_proof (ns : list mnode) (leaf_index internal : nat) : res (option merkle_proof) :=
  let i := leaf_index + internal in
  match nth_error ns i with
  | Some (MLeaf _ data) =>
      lv <- proof_loop i ns i ;;
      Ok (Some {| leaf_data := data; levels := lv |})
  | _ => Ok None
  end.

(** merkletree.rs:237-249 [proof_by_index], [proof_by_element_hash], [proof_by_element]. *)
Definition proof_by_index (t : mtree) (i : nat) : res (option merkle_proof) :=
  build_proof (nodes t) i (internal_nodes t).

Definition bytes_eqb (a b : bytes) : bool := if list_eq_dec Z.eq_dec a b then true else false.
Definition index_get (m : list (bytes * nat)) (h : bytes) : option nat :=
  match find (fun '(k, _) => bytes_eqb k h) m with Some (_, i) => Some i | None => None end.

Definition proof_by_element_hash (t : mtree) (h : bytes) : res (option merkle_proof) :=
  match index_get (elements_hash_index t) h with
  | None => Ok None
  | Some i => proof_by_index t i
  end.
Definition proof_by_element (t : mtree) (data : bytes) : res (option merkle_proof) :=
  proof_by_element_hash t (prefixed_hash LEAF_PREFIX data).

(** merkleproof.rs:91-101: one step of the fold in [valid]. *)
Definition level_step (prev : bytes) (n : level_node) : bytes :=
  match ln_hash n, ln_side n with
  | Some h, SLeft => prefixed_hash2 INTERNAL_PREFIX (Some prev) (Some h)
  | Some h, SRight => prefixed_hash2 INTERNAL_PREFIX (Some h) (Some prev)
  | None, _ => prefixed_hash INTERNAL_PREFIX prev
  end.

(** merkleproof.rs:86-104 [MerkleProof::valid]. *)
Definition proof_valid (p : merkle_proof) (expected_root : bytes) : bool :=
  bytes_eqb (fold_left level_step (levels p) (prefixed_hash 0%Z (leaf_data p))) expected_root.

(** ** Batch proofs *)

(** [BTreeSet] insertion and collection, and [sort_unstable] followed by [dedup]:
    strictly increasing lists. *)
Fixpoint set_insert (x : nat) (l : list nat) : list nat :=
  match l with
  | [] => [x]
  | y :: t => if x <? y then x :: l else if x =? y then l else y :: set_insert x t
  end.
Definition set_of (l : list nat) : list nat := fold_left (fun s x => set_insert x s) l [].
Definition mem (x : nat) (l : list nat) : bool := existsb (Nat.eqb x) l.

(** batchmerkleproof.rs:8-11, 22-25. *)
Record bidx : Type := { bi_index : nat; bi_hash : bytes }.
Record batch_proof : Type := { indices : list bidx; proofs : list level_node }.

(** merkletree.rs:114-118: [b_pruned]. [None] is the early return of [?]. *)
Fixpoint with_siblings (a : list nat) (acc : list nat) : option (list nat) :=
  match a with
  | [] => Some acc
  | n :: t =>
      match get_sibling n with
      | None => None
      | Some s => with_siblings t (set_insert s (set_insert n acc))
      end
  end.

(** merkletree.rs:121-132: level nodes of the set difference. *)
Definition diff_node (ns : list mnode) (n : nat) : res level_node :=
  match get_sibling n with
  | None => Panic
  | Some s =>
      let sd := if Nat.eqb s (n - 1) then SRight else SLeft in
      node <- vget ns n ;;
      Ok {| ln_hash := get_hash node; ln_side := sd |}
  end.

Fixpoint map_r {A B} (f : A -> res B) (l : list A) : res (list B) :=
  match l with
  | [] => Ok []
  | a :: t => b <- f a ;; bs <- map_r f t ;; Ok (b :: bs)
  end.

Definition parents (l : list nat) : list nat :=
  flat_map (fun n => match get_parent n with Some p => [p] | None => [] end) l.

(** merkletree.rs:112-134: the level loop.  [fuel] bounds the number of levels;
    running out is reported as a panic. *)
Fixpoint multiproof_loop (fuel : nat) (ns : list mnode) (a : list nat)
  : res (option (list level_node)) :=
  if mem 0 a then Ok (Some [])
  else
    match fuel with
    | O => Panic
    | S fuel' =>
        match with_siblings a [] with
        | None => Ok None
        | Some b_pruned =>
            let diff := filter (fun n => negb (mem n a)) b_pruned in
            lv <- map_r (diff_node ns) diff ;;
            rest <- multiproof_loop fuel' ns (set_of (parents b_pruned)) ;;
            match rest with
            | None => Ok None
            | Some r => Ok (Some (lv ++ r))
            end
        end
    end.

(** merkletree.rs:100-148 [build_multiproof]. *)
Definition build_multiproof (ns : list mnode) (leaf_indices : list nat) (internal : nat)
  : res (option batch_proof) :=
  mp <- multiproof_loop (length ns) ns (set_of (map (fun i => i + internal) leaf_indices)) ;;
  match mp with
  | None => Ok None
  | Some m =>
      idx <- map_r (fun i => n <- vget ns (i + internal) ;;
                             Ok (match get_hash n with
                                 | Some h => [{| bi_index := i; bi_hash := h |}]
                                 | None => []
                                 end)) leaf_indices ;;
      Ok (Some {| indices := concat idx; proofs := m |})
  end.

(** merkletree.rs:252-272 [proof_by_indices]. *)
Definition proof_by_indices (t : mtree) (leaf_indices : list nat) : res (option batch_proof) :=
  let l := set_of leaf_indices in
  if match l with [] => true | _ => false end
     || existsb (fun i => match nth_error (nodes t) (internal_nodes t + i) with
                          | Some n => match get_leaf_data n with Some _ => false | None => true end
                          | None => true
                          end) l
  then Ok None
  else build_multiproof (nodes t) l (internal_nodes t).

(** batchmerkleproof.rs:41-44: each index with its immediate neighbour. *)
Definition neighbours (i : nat) : nat * nat :=
  if Nat.even i then (i, i + 1) else (i - 1, i).
Definition pair_eqb (p q : nat * nat) : bool :=
  Nat.eqb (fst p) (fst q) && Nat.eqb (snd p) (snd q).

(** batchmerkleproof.rs:71-83: parent of a node and a hash taken from the proof. *)
Definition from_head (head : level_node) (h : bytes) : bytes :=
  match ln_side head with
  | SLeft => prefixed_hash2 INTERNAL_PREFIX (ln_hash head) (Some h)
  | SRight => prefixed_hash2 INTERNAL_PREFIX (Some h) (ln_hash head)
  end.

(** batchmerkleproof.rs:52-86: one pass over a level; [b] and [e] have the same
    length.  Returns the new hashes and the unused proof nodes. *)
Fixpoint level_pass (fuel : nat) (b : list (nat * nat)) (e : list bidx) (m : list level_node)
  : option (list bytes * list level_node) :=
  match fuel with
  | O => None
  | S fuel' =>
      match b, e with
      | [], _ => Some ([], m)
      | b0 :: b1 :: bs, e0 :: e1 :: es =>
          if pair_eqb b0 b1 then
            match level_pass fuel' bs es m with
            | None => None
            | Some (hs, m') =>
                Some (prefixed_hash2 INTERNAL_PREFIX (Some (bi_hash e0)) (Some (bi_hash e1)) :: hs, m')
            end
          else
            match m with
            | [] => None
            | head :: m1 =>
                match level_pass fuel' (b1 :: bs) (e1 :: es) m1 with
                | None => None
                | Some (hs, m') => Some (from_head head (bi_hash e0) :: hs, m')
                end
            end
      | [_], e0 :: _ =>
          match m with
          | [] => None
          | head :: m1 => Some ([from_head head (bi_hash e0)], m1)
          end
      | _, _ => None
      end
  end.

(** batchmerkleproof.rs:35-101 [validate]; [fuel] bounds the recursion depth, which
    is at most the number of indices and proof nodes plus one. *)
Fixpoint validate (fuel : nat) (a : list nat) (e : list bidx) (m : list level_node)
  : option (list bytes) :=
  match fuel with
  | O => None
  | S fuel' =>
      let b := map neighbours a in
      if negb (Nat.eqb (length e) (length b)) then None
      else
        match level_pass (S (length b)) b e m with
        | None => None
        | Some (e_new, m_new) =>
            let a_new := set_of (map (fun p => snd p / 2) b) in
            if (negb (match m_new with [] => true | _ => false end) || (1 <? length e_new))
               && negb (match a_new with [] => true | _ => false end)
            then
              validate fuel' a_new
                (map (fun '(i, h) => {| bi_index := i; bi_hash := h |}) (List.combine a_new e_new)) m_new
            else Some e_new
        end
  end.

(** [slice::sort_by_key] by index: a stable insertion sort. *)
Fixpoint insert_by_index (x : bidx) (l : list bidx) : list bidx :=
  match l with
  | [] => [x]
  | y :: t => if bi_index x <? bi_index y then x :: l else y :: insert_by_index x t
  end.
Definition sort_by_index (l : list bidx) : list bidx :=
  fold_left (fun s x => insert_by_index x s) l [].

(** batchmerkleproof.rs:34-113 [BatchMerkleProof::valid]. *)
Definition batch_valid (p : batch_proof) (expected_root : bytes) : bool :=
  let e := sort_by_index (indices p) in
  let a := map bi_index e in
  match validate (length a + length (proofs p) + 1) a e (proofs p) with
  | Some [root] => bytes_eqb root expected_root
  | _ => false
  end.

(** ** Serialization of batch proofs *)

Definition side_code (s : side) : Z := match s with SLeft => 0%Z | SRight => 1%Z end.
(** merkleproof.rs:20-29 [NodeSide::try_from]. *)
Definition side_of_code (z : Z) : res side :=
  if Z.eqb z 0 then Ok SLeft else if Z.eqb z 1 then Ok SRight else Err "ValueOutOfBounds".

(** [u32::try_from(usize)] *)
Definition u32_try (n : nat) : res Z :=
  if (Z.of_nat n <? 2 ^ 32)%Z then Ok (Z.of_nat n) else Err "TryFromIntError".

Definition write_bidx (x : bidx) : res bytes :=
  i <- u32_try (bi_index x) ;;
  ib <- put_u32_be_bytes i ;;
  Ok (ib ++ bi_hash x).
Definition write_level (n : level_node) : res bytes :=
  sb <- put_u8 (side_code (ln_side n)) ;;
  Ok (match ln_hash n with Some h => h | None => repeat 0%Z 32 end ++ sb).

(** batchmerkleproof.rs:129-150 [scorex_serialize]. *)
Definition batch_serialize (p : batch_proof) : res bytes :=
  n1 <- u32_try (length (indices p)) ;;
  b1 <- put_u32_be_bytes n1 ;;
  n2 <- u32_try (length (proofs p)) ;;
  b2 <- put_u32_be_bytes n2 ;;
  b3 <- write_all write_bidx (indices p) ;;
  b4 <- write_all write_level (proofs p) ;;
  Ok (b1 ++ b2 ++ b3 ++ b4).

(** batchmerkleproof.rs:155-161 [read_u32_be]. *)
Definition read_u32_be : reader Z :=
  fun bs => '(x, r) <- read_exact 4 bs ;; Ok (be_value x, r).

Definition read_bidx : reader bidx :=
  fun bs =>
    '(i, r) <- read_u32_be bs ;;
    '(h, r) <- read_exact 32 r ;;
    Ok ({| bi_index := Z.to_nat i; bi_hash := h |}, r).
Definition read_level : reader level_node :=
  fun bs =>
    '(h, r) <- read_exact 32 bs ;;
    let empty := forallb (fun b => Z.eqb b 0) h in
    '(c, r) <- get_u8 r ;;
    s <- side_of_code c ;;
    Ok ({| ln_hash := if empty then None else Some h; ln_side := s |}, r).

(** batchmerkleproof.rs:152-192 [scorex_parse]. *)
Definition batch_parse : reader batch_proof :=
  fun bs =>
    '(n1, r) <- read_u32_be bs ;;
    '(n2, r) <- read_u32_be r ;;
    '(idx, r) <- read_n (Z.to_nat n1) read_bidx r ;;
    '(pr, r) <- read_n (Z.to_nat n2) read_level r ;;
    Ok ({| indices := idx; proofs := pr |}, r).

End Merkle.
