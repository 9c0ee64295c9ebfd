(** Model of the crate ergo-nipopow: interlinks, the prover, proof comparison and the
    verifier.  [usize] is unbounded where it counts elements of a vector; arithmetic
    overflow is a panic, as in builds with overflow checks. *)
From Verif Require Import Base VlqModel IntBytes GroupModel MerkleModel HeaderModel PowModel.

(** ergotree-ir/src/sigma_protocol/dlog_group.rs:104-112 [order]. *)
Definition secp_order : Z :=
  0xFFFFFFFFFFFFFFFFFFFFFFFFFFFFFFFEBAAEDCE6AF48A03BBFD25E8CD0364141.

Definition i32_max : Z := 2 ^ 31 - 1.

(** ergo-nipopow/src/nipopow_algos.rs:200-231 [pack_interlinks]: [pack_loop] is the
    loop of lines 205-221 followed by lines 222-229; the counters are [u8]. *)
Fixpoint pack_loop (ids : list bytes) (curr : bytes) (count ix : Z) : res (list (bytes * bytes)) :=
  match ids with
  | [] => Ok [([1; ix], count :: curr)]
  | id :: rest =>
      if bytes_eqb id curr then
        if count =? 255 then Panic else pack_loop rest curr (count + 1) ix
      else if ix =? 255 then Panic
      else
        r <- pack_loop rest id 1 (ix + 1) ;;
        Ok (([1; ix], count :: curr) :: r)
  end.
Definition pack_interlinks (interlinks : list bytes) : res (list (bytes * bytes)) :=
  match interlinks with
  | [] => Panic
  | x :: rest => pack_loop rest x 1 0
  end.

(** nipopow_algos.rs:233-254 [unpack_interlinks], on the fields of the extension. *)
Fixpoint unpack_interlinks (fields : list (bytes * bytes)) : res (list bytes) :=
  match fields with
  | [] => Ok []
  | (key, v) :: rest =>
      if hd 0 key =? 1 then
        if negb (Nat.eqb (List.length v) 33) then Err "Interlinks must be 33 bytes in size"
        else
          r <- unpack_interlinks rest ;;
          Ok (repeat (skipn 1 v) (Z.to_nat (hd 0 v)) ++ r)
      else unpack_interlinks rest
  end.

(** ergo-chain-types/src/extensioncandidate.rs:10-15 [ExtensionCandidate::new]. *)
Definition extension_new (fields : list (bytes * bytes)) : res (list (bytes * bytes)) :=
  if forallb (fun '(_, v) => Nat.leb (List.length v) 64) fields then Ok fields
  else Err "Values of fields must be less than 64 bytes in size".

(** nipopow_algos.rs:337-342 [kv_to_leaf]. *)
Definition kv_to_leaf (kv : bytes * bytes) : bytes := 2 :: fst kv ++ snd kv.

Section Nipopow.
Context {G : group}.
Variable H : bytes -> bytes.
(** nipopow_algos.rs:98-104: the conversion of two big integers to [f64], the
    difference of their binary logarithms, and its cast to [i32], as one function of
    the required and the real target. *)
Variable float_level : Z -> Z -> Z.

(** nipopow_algos.rs:92-108 [max_level_of]; division by zero panics. *)
Definition max_level_of (h : header G) : res Z :=
  if h_height h =? 1 then Ok i32_max
  else
    let d := decode_compact_bits (h_n_bits h) in
    if d =? 0 then Panic
    else
      hit <- pow_hit H h ;;
      Ok (float_level (Z.quot secp_order d) hit).

(** nipopow_algos.rs:63-79: the loop of [best_arg] on the levels of the chain, cast to
    [u32]; [Ok None] when [fuel] iterations do not suffice, a panic when the [u32] loop
    counter overflows. *)
Definition at_level (levels : list Z) (level : Z) : Z :=
  Zlen (filter (fun l => level <=? wrapu 32 l) levels).
Fixpoint best_loop (fuel : nat) (levels : list Z) (m : Z) (level : Z) (acc : list (Z * Z))
  : res (option (list (Z * Z))) :=
  match fuel with
  | O => Ok None
  | S f =>
      let n := at_level levels level in
      if m <=? n then
        if level =? 2 ^ 32 - 1 then Panic else best_loop f levels m (level + 1) ((level, n) :: acc)
      else Ok (Some acc)
  end.

(** nipopow_algos.rs:81-88: [2usize.pow(level) * size], the largest one. *)
Definition score_of (p : Z * Z) : res Z :=
  let '(level, size) := p in
  if 2 ^ 64 <=? 2 ^ level * size then Panic
  else if 64 <=? level then Panic else Ok (2 ^ level * size).
Definition max_list (l : list Z) : res Z :=
  match l with [] => Panic | x :: t => Ok (fold_left Z.max t x) end.

(** nipopow_algos.rs:53-89 [best_arg]; [Ok None] when the loop needs more than [fuel]
    iterations. *)
Definition best_arg (fuel : nat) (chain : list (header G)) (m : Z) : res (option Z) :=
  levels <- map_r max_level_of chain ;;
  r <- best_loop fuel levels m 1 [(0, Zlen chain)] ;;
  match r with
  | None => Ok None
  | Some acc => scores <- map_r score_of acc ;; rmap Some (max_list scores)
  end.

(** nipopow_algos.rs:111-135 [lowest_common_ancestor]. *)
Definition lca_inner (l : header G) (start : nat) (right : list (header G)) (common : list (header G))
  : nat * list (header G) :=
  fold_left (fun '(s, c) '(i, r) => if header_eqb l r then (S i, c ++ [l]) else (s, c))
    (skipn start (enumerate 0 right)) (start, common).
Fixpoint lca_loop (left : list (header G)) (right : list (header G)) (start : nat) (common : list (header G))
  : list (header G) :=
  match left with
  | [] => common
  | l :: ls => let '(s, c) := lca_inner l start right common in lca_loop ls right s c
  end.
Definition lowest_common_ancestor (left right : list (header G)) : option (header G) :=
  match left, right with
  | l :: _, r :: _ => if header_eqb l r then last (map Some (lca_loop left right 0 [])) None else None
  | _, _ => last (map Some (lca_loop left right 0 [])) None
  end.

(** nipopow_algos.rs:257-292 [update_interlinks].  A negative level cast to [usize]
    asks for about 2^64 repetitions, which panics with a capacity overflow. *)
Definition update_interlinks (prev : header G) (links : list bytes) : res (list bytes) :=
  if h_height prev =? 1 then Ok [h_id prev]
  else
    match links with
    | [] => Panic
    | genesis :: tl =>
        lv <- max_level_of prev ;;
        if lv =? 0 then Ok links
        else if lv <? 0 then Panic
        else if lv <? Zlen links
        then Ok (genesis :: firstn (List.length tl - Z.to_nat lv) tl ++ repeat (h_id prev) (Z.to_nat lv))
        else Ok (genesis :: repeat (h_id prev) (Z.to_nat lv))
    end.

(** nipopow_algos.rs:344-351 [extension_merkletree]. *)
Definition extension_merkletree (fields : list (bytes * bytes)) : res mtree :=
  merkle_new H (map (fun kv => from_bytes H (kv_to_leaf kv)) fields).

(** nipopow_algos.rs:319-333 [extension_batch_proof_for]; [Ok None] is [None]. *)
Definition extension_batch_proof_for (fields : list (bytes * bytes)) (keys : list bytes)
  : res (option batch_proof) :=
  t <- extension_merkletree fields ;;
  let idx := flat_map (fun k =>
    match find (fun kv => bytes_eqb (fst kv) k) fields with
    | None => []
    | Some kv =>
        match index_get (elements_hash_index t) (prefixed_hash H LEAF_PREFIX (kv_to_leaf kv)) with
        | None => []
        | Some i => [i]
        end
    end) keys in
  proof_by_indices t idx.

(** nipopow_algos.rs:294-308 [proof_for_interlink_vector]. *)
Definition proof_for_interlink_vector (fields : list (bytes * bytes)) : res (option batch_proof) :=
  let keys := filter (fun k => hd 0 k =? 1) (map fst fields) in
  match keys with
  | [] => Ok (Some {| indices := []; proofs := [] |})
  | _ => extension_batch_proof_for fields keys
  end.

(** ergo-nipopow/src/nipopow_proof.rs:202-211 [PoPowHeader], 14-33 [NipopowProof]
    (the algorithms field is a unit). *)
Record popow_header : Type := PoPow {
  ph_header : header G;
  ph_interlinks : list bytes;
  ph_proof : batch_proof }.
Record nproof : Type := NProof {
  np_m : Z;
  np_k : Z;
  np_prefix : list popow_header;
  np_head : popow_header;
  np_tail : list (header G) }.

(** Derived [PartialEq] of [PoPowHeader] and its parts. *)
Fixpoint list_eqb {A} (e : A -> A -> bool) (a b : list A) : bool :=
  match a, b with
  | [], [] => true
  | x :: a', y :: b' => e x y && list_eqb e a' b'
  | _, _ => false
  end.
Definition bidx_eqb (a b : bidx) : bool :=
  Nat.eqb (bi_index a) (bi_index b) && bytes_eqb (bi_hash a) (bi_hash b).
Definition level_eqb (a b : level_node) : bool :=
  opt_eqb bytes_eqb (ln_hash a) (ln_hash b) && side_eqb (ln_side a) (ln_side b).
Definition batch_eqb (a b : batch_proof) : bool :=
  list_eqb bidx_eqb (indices a) (indices b) && list_eqb level_eqb (proofs a) (proofs b).
Definition popow_eqb (a b : popow_header) : bool :=
  header_eqb (ph_header a) (ph_header b) && list_eqb bytes_eqb (ph_interlinks a) (ph_interlinks b) &&
  batch_eqb (ph_proof a) (ph_proof b).

(** nipopow_proof.rs:215-236 [check_interlinks_proof]. *)
Definition check_interlinks_proof (p : popow_header) : res bool :=
  match ph_interlinks p, indices (ph_proof p), proofs (ph_proof p) with
  | [], [], [] => Ok true
  | _, _, _ =>
      fields <- pack_interlinks (ph_interlinks p) ;;
      tree <- merkle_new H (map (fun kv => from_bytes H (2 :: fst kv ++ snd kv)) fields) ;;
      Ok (batch_valid H (ph_proof p) (root_hash tree))
  end.

(** nipopow_proof.rs:129-134 [headers_chain]. *)
Definition headers_chain (p : nproof) : list (header G) :=
  map ph_header (np_prefix p) ++ ph_header (np_head p) :: np_tail p.

(** nipopow_proof.rs:92-110 [has_valid_connections]. *)
Definition contains (l : list bytes) (x : bytes) : bool := existsb (fun y => bytes_eqb y x) l.
Definition linked (pn : popow_header * popow_header) : bool :=
  let '(prev, next) := pn in
  contains (ph_interlinks next) (h_id (ph_header prev))
  || bytes_eqb (h_parent_id (ph_header next)) (h_id (ph_header prev)).
Definition has_valid_connections (p : nproof) : bool :=
  forallb linked (List.combine (np_prefix p) (skipn 1 (np_prefix p) ++ [np_head p])) &&
  forallb (fun '(prev, next) => bytes_eqb (h_parent_id next) (h_id prev))
    (List.combine (ph_header (np_head p) :: np_tail p) (np_tail p)).

(** nipopow_proof.rs:115-119 [has_valid_heights]. *)
Definition has_valid_heights (p : nproof) : bool :=
  forallb (fun '(prev, next) => h_height prev <? h_height next)
    (List.combine (headers_chain p) (skipn 1 (headers_chain p))).

(** [Iterator::all] with a test that may panic. *)
Fixpoint all_r {A} (f : A -> res bool) (l : list A) : res bool :=
  match l with
  | [] => Ok true
  | a :: t => b <- f a ;; if b then all_r f t else Ok false
  end.
(** nipopow_proof.rs:121-125 [has_valid_proofs]; 85-87 [is_valid]. *)
Definition has_valid_proofs (p : nproof) : res bool :=
  all_r check_interlinks_proof (np_head p :: np_prefix p).
Definition is_valid (p : nproof) : res bool :=
  if has_valid_connections p && has_valid_heights p then has_valid_proofs p else Ok false.

(** nipopow_proof.rs:61-83 [is_better_than]; [Ok None] when [best_arg] does not finish
    within [fuel] iterations. *)
Definition is_better_than (fuel : nat) (self that : nproof) : res (option bool) :=
  v1 <- is_valid self ;;
  both <- (if v1 then is_valid that else Ok false) ;;
  if both then
    match lowest_common_ancestor (headers_chain self) (headers_chain that) with
    | Some lca =>
        let above := filter (fun h => h_height lca <? h_height h) in
        a <- best_arg fuel (above (headers_chain self)) (np_m self) ;;
        match a with
        | None => Ok None
        | Some a =>
            b <- best_arg fuel (above (headers_chain that)) (np_m self) ;;
            match b with
            | None => Ok None
            | Some b => Ok (Some (b <? a))
            end
        end
    | None => Ok (Some false)
    end
  else rmap Some (is_valid self).

(** ergo-nipopow/src/nipopow_verifier.rs:37-51 [process], on the stored best proof;
    [Ok None] when the comparison does not finish. *)
Definition process (fuel : nat) (genesis : bytes) (best : option nproof) (new : nproof)
  : res (option (option nproof)) :=
  match headers_chain new with
  | [] => Ok (Some best)
  | h :: _ =>
      if bytes_eqb (h_id h) genesis then
        match best with
        | Some p =>
            b <- is_better_than fuel new p ;;
            match b with
            | None => Ok None
            | Some true => Ok (Some (Some new))
            | Some false => Ok (Some best)
            end
        | None => Ok (Some (Some new))
        end
      else Ok (Some best)
  end.
(** nipopow_verifier.rs:30-34 [best_chain]. *)
Definition best_chain (best : option nproof) : list (header G) :=
  match best with Some p => headers_chain p | None => [] end.

(** nipopow_algos.rs:196 [sort_by] height: a stable sort. *)
Fixpoint insert_height (x : popow_header) (l : list popow_header) : list popow_header :=
  match l with
  | [] => [x]
  | y :: t => if h_height (ph_header x) <? h_height (ph_header y) then x :: l else y :: insert_height x t
  end.
Definition sort_by_height (l : list popow_header) : list popow_header :=
  fold_left (fun s x => insert_height x s) l [].

(** nipopow_algos.rs:189-193: push what is not yet there. *)
Definition push_new (prefix : list popow_header) (x : popow_header) : list popow_header :=
  if existsb (fun y => popow_eqb y x) prefix then prefix else prefix ++ [x].

(** nipopow_algos.rs:172-195: the stack always holds one entry, so the loop runs
    through the levels from [level] down to zero; [steps] is [level + 1]. *)
Fixpoint prove_loop (steps : nat) (base : list popow_header) (m : Z) (anchor : popow_header)
    (prefix : list popow_header) : res (list popow_header) :=
  match steps with
  | O => Ok prefix
  | S level =>
      levels <- map_r (fun p => max_level_of (ph_header p)) base ;;
      let sub := map fst (filter (fun '(p, l) =>
        (Z.of_nat level <=? l) && (h_height (ph_header anchor) <=? h_height (ph_header p)))
        (List.combine base levels)) in
      anchor' <- (if m <? Zlen sub then vget sub (List.length sub - Z.to_nat m) else Ok anchor) ;;
      prove_loop level base m anchor' (fold_left push_new sub prefix)
  end.

(** nipopow_algos.rs:138-198 [prove] with [NipopowProof::new] (nipopow_proof.rs:37-56). *)
Definition prove (chain : list popow_header) (k m : Z) : res nproof :=
  if k =? 0 then Err "ZeroKParameter"
  else if 2 ^ 32 <=? k + m then Panic
  else if Zlen chain <? k + m then Err "ChainTooShort"
  else
    first <- vget chain 0 ;;
    if negb (h_height (ph_header first) =? 1) then Err "NonAnchoredChain"
    else
      let n := (List.length chain - Z.to_nat k)%nat in
      suffix_head <- vget chain n ;;
      let tail := map ph_header (skipn (S n) chain) in
      if k <? Zlen chain then
        lastp <- vget chain (n - 1) ;;
        match ph_interlinks lastp with
        | [] => Panic
        | _ :: tl =>
            prefix <- prove_loop (S (List.length tl)) (firstn n chain) m first [] ;;
            Ok (NProof m k (sort_by_height prefix) suffix_head tail)
        end
      else Err "ChainTooShort".

End Nipopow.
Arguments popow_header : clear implicits.
Arguments nproof : clear implicits.
