(** The sigma-protocol prover: ergotree-interpreter/src/sigma_protocol/prover.rs,
    with proof_tree.rs, unproven_tree.rs, prover/hint.rs and private_input.rs. *)
From Verif Require Import Base VlqModel GfModel GroupModel SigmaModel.
Local Open Scope Z_scope.

Section Prover.
Context {G : group}.
Notation leaf := (leaf G). Notation sbool := (sbool G).
Notation fmsg := (fmsg G). Notation utree := (utree G).

(** unproven_tree.rs [NodePosition]: path of child indices, root prefix [0]. *)
Definition position := list nat.
Definition crypto_tree_prefix : position := [0%nat].
Definition pos_child (p : position) (idx : nat) : position := p ++ [idx].
Definition pos_eqb : position -> position -> bool := list_eqb Nat.eqb.

(** The kind of an unproven conjecture; the threshold one carries
    [polinomial_opt]. *)
Inductive pconj := PAnd | POr | PThr (k : Z) (q : option poly).

(** proof_tree.rs [ProofTree]: [PUnchecked] is [UncheckedTree], the other two
    are [UnprovenTree].  The Schnorr and DH-tuple structs become one constructor
    carrying the leaf proposition; the three conjecture structs become one
    constructor with the kind and the [proposition] field. *)
Inductive ptree :=
| PUnchecked (u : utree)
| PLeaf (p : leaf) (cm : option fmsg) (rnd : option Z) (e : option challenge)
        (sim : bool) (pos : position)
| PConj (c : pconj) (prop : sbool) (e : option challenge) (sim : bool)
        (pos : position) (children : list ptree).

(** Derived [PartialEq]. *)
Definition opt_eqb {A} (f : A -> A -> bool) (a b : option A) : bool :=
  match a, b with
  | Some x, Some y => f x y
  | None, None => true
  | _, _ => false
  end.
Definition gf_eqb (a b : gf) : bool :=
  N.eqb (w0 a) (w0 b) && N.eqb (w1 a) (w1 b) && N.eqb (w2 a) (w2 b).
Definition poly_eqb (a b : poly) : bool :=
  list_eqb gf_eqb (coefficients a) (coefficients b) && Nat.eqb (degree a) (degree b).
Definition uconj_eqb (a b : uconj) : bool :=
  match a, b with
  | UAnd, UAnd => true
  | UOr, UOr => true
  | UThr k p, UThr k' p' => (k =? k') && poly_eqb p p'
  | _, _ => false
  end.
Fixpoint utree_eqb (a b : utree) : bool :=
  match a, b with
  | ULeaf p cm e z, ULeaf p' cm' e' z' =>
      leaf_eqb p p' && opt_eqb fmsg_eqb cm cm' && bytes_eqb e e' && (z =? z')
  | UConj c e l, UConj c' e' l' =>
      uconj_eqb c c' && bytes_eqb e e' && list_eqb utree_eqb l l'
  | _, _ => false
  end.
Definition pconj_eqb (a b : pconj) : bool :=
  match a, b with
  | PAnd, PAnd => true
  | POr, POr => true
  | PThr k p, PThr k' p' => (k =? k') && opt_eqb poly_eqb p p'
  | _, _ => false
  end.
Fixpoint ptree_eqb (a b : ptree) : bool :=
  match a, b with
  | PUnchecked u, PUnchecked u' => utree_eqb u u'
  | PLeaf p cm r e s pos, PLeaf p' cm' r' e' s' pos' =>
      leaf_eqb p p' && opt_eqb fmsg_eqb cm cm' && opt_eqb Z.eqb r r' &&
      opt_eqb bytes_eqb e e' && Bool.eqb s s' && pos_eqb pos pos'
  | PConj c p e s pos l, PConj c' p' e' s' pos' l' =>
      pconj_eqb c c' && sbool_eqb p p' && opt_eqb bytes_eqb e e' && Bool.eqb s s' &&
      pos_eqb pos pos' && list_eqb ptree_eqb l l'
  | _, _ => false
  end.

(** unproven_tree.rs / proof_tree.rs accessors and [with_*] updaters. *)
Definition is_unproven (t : ptree) : bool :=
  match t with PUnchecked _ => false | _ => true end.
Definition simulated (t : ptree) : bool :=
  match t with PUnchecked _ => false | PLeaf _ _ _ _ s _ => s | PConj _ _ _ s _ _ => s end.
(** [is_real]; only ever asked of an [UnprovenTree]. *)
Definition is_real (t : ptree) : bool := negb (simulated t).
Definition position_of (t : ptree) : position :=
  match t with PUnchecked _ => [] | PLeaf _ _ _ _ _ p => p | PConj _ _ _ _ p _ => p end.
Definition with_simulated (s : bool) (t : ptree) : ptree :=
  match t with
  | PUnchecked _ => t
  | PLeaf p cm r e _ pos => PLeaf p cm r e s pos
  | PConj c p e _ pos l => PConj c p e s pos l
  end.
Definition with_position (pos : position) (t : ptree) : ptree :=
  match t with
  | PUnchecked _ => t
  | PLeaf p cm r e s _ => PLeaf p cm r e s pos
  | PConj c p e s _ l => PConj c p e s pos l
  end.
Definition with_challenge (e : challenge) (t : ptree) : ptree :=
  match t with
  | PUnchecked (ULeaf p cm _ z) => PUnchecked (ULeaf p cm e z)
  | PUnchecked (UConj c _ l) => PUnchecked (UConj c e l)
  | PLeaf p cm r _ s pos => PLeaf p cm r (Some e) s pos
  | PConj c p _ s pos l => PConj c p (Some e) s pos l
  end.
Definition p_chal (t : ptree) : option challenge :=
  match t with
  | PUnchecked u => Some (u_chal u)
  | PLeaf _ _ _ e _ _ => e
  | PConj _ _ e _ _ _ => e
  end.

(** [try_mapped]. *)
Definition map_res {A B} (f : A -> res B) : list A -> res (list B) :=
  fix go l :=
    match l with
    | [] => Ok []
    | a :: l' => b <- f a ;; bl <- go l' ;; Ok (b :: bl)
    end.
(** [.enumerated().mapped(..)]. *)
Definition imap {A B} (f : nat -> A -> B) : nat -> list A -> list B :=
  fix go i l {struct l} :=
    match l with
    | [] => []
    | a :: l' => f i a :: go (S i) l'
    end.

(** prover.rs:358-370 [cast_to_unp]. *)
Definition cast_to_unp : list ptree -> res (list ptree) :=
  map_res (fun t => if is_unproven t then Ok t else Err "expected UnprovenTree got UncheckedTree").

(** proof_tree.rs:149-242 [rewrite_bu] and 246-339 [rewrite_td].  [f] returns
    the node to use (the Rust [None] means the node itself).  [fuel] bounds the
    height; it is set to the height of the tree, which [f] never increases. *)
Definition cast_to_ust : list ptree -> res (list utree) :=
  map_res (fun t => match t with PUnchecked u => Ok u | _ => Err "expected UncheckedSigmaTree" end).

Fixpoint rewrite_td (fuel : nat) (f : ptree -> res ptree) (t : ptree) : res ptree :=
  match fuel with
  | O => Err "fuel"
  | S fuel' =>
      t' <- f t ;;
      match t' with
      | PLeaf _ _ _ _ _ _ => Ok t'
      | PConj c p e s pos l =>
          l' <- map_res (rewrite_td fuel' f) l ;; Ok (PConj c p e s pos l')
      | PUnchecked (ULeaf _ _ _ _) => Ok t'
      | PUnchecked (UConj c e l) =>
          l' <- map_res (fun u => rewrite_td fuel' f (PUnchecked u)) l ;;
          l'' <- cast_to_ust l' ;; Ok (PUnchecked (UConj c e l''))
      end
  end.

Fixpoint rewrite_bu (fuel : nat) (f : ptree -> res ptree) (t : ptree) : res ptree :=
  match fuel with
  | O => Err "fuel"
  | S fuel' =>
      t' <- match t with
            | PLeaf _ _ _ _ _ _ => Ok t
            | PConj c p e s pos l =>
                l' <- map_res (rewrite_bu fuel' f) l ;; Ok (PConj c p e s pos l')
            | PUnchecked (ULeaf _ _ _ _) => Ok t
            | PUnchecked (UConj c e l) =>
                l' <- map_res (fun u => rewrite_bu fuel' f (PUnchecked u)) l ;;
                l'' <- cast_to_ust l' ;; Ok (PUnchecked (UConj c e l''))
            end ;;
      f t'
  end.

Definition max_list (l : list nat) : nat := fold_right Nat.max 0%nat l.
Fixpoint u_height (t : utree) : nat :=
  match t with ULeaf _ _ _ _ => 1 | UConj _ _ l => S (max_list (map u_height l)) end.
Fixpoint p_height (t : ptree) : nat :=
  match t with
  | PUnchecked u => u_height u
  | PLeaf _ _ _ _ _ _ => 1
  | PConj _ _ _ _ _ l => S (max_list (map p_height l))
  end.

(** ** Secrets: private_input.rs *)

(** 26-29 [DlogProverInput], 110-117 [DhTupleProverInput], [PrivateInput]. *)
Inductive secret := SecDlog (w : Z) | SecDht (w : Z) (g h u v : G).
(** 89-96, 150-152 [public_image]. *)
Definition public_image (s : secret) : leaf :=
  match s with
  | SecDlog w => Dlog (exponentiate ggen w)
  | SecDht _ g h u v => Dht g h u v
  end.

(** ** Hints: prover/hint.rs:19-197 *)
Inductive hint :=
| HRealProof (image : sbool) (e : challenge) (u : utree) (pos : position)
| HSimProof (image : sbool) (e : challenge) (u : utree) (pos : position)
| HOwnCommitment (image : sbool) (rnd : Z) (cm : fmsg) (pos : position)
| HRealCommitment (image : sbool) (cm : fmsg) (pos : position)
| HSimCommitment (image : sbool) (cm : fmsg) (pos : position).
Definition bag := list hint.

(** hint.rs:251-263 [commitments], as position and first message. *)
Definition commitments (b : bag) : list (position * fmsg) :=
  flat_map (fun h => match h with
    | HOwnCommitment _ _ cm p | HRealCommitment _ cm p | HSimCommitment _ cm p => [(p, cm)]
    | _ => [] end) b.
(** 266-278 [real_proofs]. *)
Definition real_proofs (b : bag) : list (sbool * position * utree) :=
  flat_map (fun h => match h with HRealProof i _ u p => [(i, p, u)] | _ => [] end) b.
(** 281-293 [real_commitments] (images). *)
Definition real_commitment_images (b : bag) : list sbool :=
  flat_map (fun h => match h with HRealCommitment i _ _ => [i] | _ => [] end) b.
(** 296-308 [own_commitments]. *)
Definition own_commitments (b : bag) : list (position * Z) :=
  flat_map (fun h => match h with HOwnCommitment _ r _ p => [(p, r)] | _ => [] end) b.
(** 311-321 [real_images]. *)
Definition real_images (b : bag) : list sbool :=
  map (fun x => fst (fst x)) (real_proofs b) ++ real_commitment_images b.
(** 324-336 [simulated_proofs]. *)
Definition simulated_proofs (b : bag) : list (sbool * utree) :=
  flat_map (fun h => match h with HSimProof i _ u _ => [(i, u)] | _ => [] end) b.
(** 339-351 [proofs], as position and challenge. *)
Definition proofs (b : bag) : list (position * challenge) :=
  flat_map (fun h => match h with HRealProof _ e _ p | HSimProof _ e _ p => [(p, e)] | _ => [] end) b.

Definition find_pos {A} (p : position) (l : list (position * A)) : option A :=
  option_map snd (find (fun x => pos_eqb (fst x) p) l).

(** ** Randomness

    Every random draw the prover makes belongs to one tree node.  The model
    reads the draws from functions of the node's position; positions are
    distinct when draws are made, so every sequence of draws is some such
    family of functions. *)
Record randomness := Rnd {
  r_chal : position -> challenge;       (** [Challenge::secure_random] *)
  r_poly : position -> nat -> bytes;    (** [secure_random_bytes(n)] *)
  r_scal : position -> Z;               (** scalar of [first_message] or [simulate] *)
  r_resp : position -> Z                (** 928-930, 1004-1008: response of an unknown secret *)
}.

Variable secrets : list secret.
Variable hints : bag.
Variable rnd : randomness.

(** ** prover.rs:1085-1143 [convert_to_unproven] *)
Definition pconj_of (c : ckind) : pconj :=
  match c with And => PAnd | Or => POr | Thr k => PThr k None end.
Fixpoint convert_to_unproven (s : sbool) : res ptree :=
  match s with
  | SLeaf p => Ok (PLeaf p None None None false crypto_tree_prefix)
  | SConj c l =>
      l' <- map_res convert_to_unproven l ;;
      Ok (PConj (pconj_of c) s None false crypto_tree_prefix l')
  | Triv _ => Err "TrivialProp is not expected here"
  end.

(** ** 251-313 [mark_real] *)
Definition count_real (l : list ptree) : Z := Zlen (filter is_real l).
Definition secret_known (p : leaf) : bool :=
  existsb (fun i => sbool_eqb i (SLeaf p)) (real_images hints) ||
  existsb (fun s => leaf_eqb (public_image s) p) secrets.
Definition mark_real_step (t : ptree) : res ptree :=
  match t with
  | PLeaf p cm r e _ pos => Ok (PLeaf p cm r e (negb (secret_known p)) pos)
  | PConj c p e _ pos l =>
      l' <- cast_to_unp l ;;
      let sim := match c with
                 | PAnd => existsb simulated l'
                 | POr => forallb simulated l'
                 | PThr k _ => count_real l' <? k
                 end in
      Ok (PConj c p e sim pos l)
  | PUnchecked _ => Ok t
  end.
Definition try_unproven (t : ptree) : res ptree :=
  if is_unproven t then Ok t else Err "failed to get UnprovenTree from ProofTree".
Definition mark_real (t : ptree) : res ptree :=
  t' <- rewrite_bu (p_height t) mark_real_step t ;; try_unproven t'.

(** ** 316-332 [set_positions] *)
Definition set_positions (pos : position) (l : list ptree) : res (list ptree) :=
  l' <- cast_to_unp l ;;
  Ok (imap (fun i t => with_position (pos_child pos i) t) 0 l').

(** ** 338-356 [make_cor_children_simulated]: children other than the first
    real one (compared by structural equality) become simulated. *)
Definition make_cor_children_simulated (l : list ptree) : res (list ptree) :=
  l' <- cast_to_unp l ;;
  first <- of_option "no real child is found amoung Cor children" (find is_real l') ;;
  Ok (map (fun c => if ptree_eqb c first || simulated c then c else with_simulated true c) l').

(** ** 375-454 [polish_simulated] *)
(** 423-443: real children after the first [k] become simulated; [cnt] is
    [count_of_real]. *)
Fixpoint keep_k_real (k cnt : Z) (l : list ptree) : list ptree :=
  match l with
  | [] => []
  | t :: l' =>
      if is_real t then
        (if k <? cnt + 1 then with_simulated true t else t) :: keep_k_real k (cnt + 1) l'
      else t :: keep_k_real k cnt l'
  end.
Definition polish_step (t : ptree) : res ptree :=
  match t with
  | PConj c p e sim pos l =>
      l' <- (if sim then l' <- cast_to_unp l ;; Ok (map (with_simulated true) l')
             else match c with
                  | PAnd => Ok l
                  | POr => make_cor_children_simulated l
                  | PThr k _ => l' <- cast_to_unp l ;; Ok (keep_k_real k 0 l')
                  end) ;;
      l'' <- set_positions pos l' ;;
      Ok (PConj c p e sim pos l'')
  | _ => Ok t
  end.
Definition polish_simulated (t : ptree) : res ptree :=
  t' <- rewrite_td (p_height t) polish_step t ;; try_unproven t'.

(** ** 456-595: step 4 *)
(** 456-492 [step4_real_conj], OR and THRESHOLD. *)
Definition step4_child (t : ptree) : ptree :=
  if is_real t then t
  else with_challenge (match find_pos (position_of t) (proofs hints) with
                       | Some e => e
                       | None => r_chal rnd (position_of t)
                       end) t.
(** unproven_tree.rs:538-550 [with_polynomial]: [n] is the number of items of
    the proposition; [n - k] underflows when [k > n]. *)
Definition check_poly (n : Z) (k : Z) (q : poly) : res poly :=
  if n <? k then Panic
  else if Zlen (poly_to_bytes q) =? (n - k) * 24 then Ok q
  else Err "Invalid polynomial length in CthresholdUnproven".
Definition prop_len (p : sbool) : Z :=
  match p with SConj _ l => Zlen l | _ => 0 end.

Definition step4 (c : pconj) (p : sbool) (e : option challenge) (sim : bool)
    (pos : position) (l : list ptree) : res ptree :=
  if negb sim then
    match c with
    | PAnd => Ok (PConj c p e sim pos l)
    | _ => l' <- cast_to_unp l ;; Ok (PConj c p e sim pos (map step4_child l'))
    end
  else
    e0 <- of_option "missing challenge of a simulated conjecture" e ;;
    match c with
    | PAnd => (* 494-514 *)
        Ok (PConj c p e sim pos (map (with_challenge e0) l))
    | POr => (* 516-559 *)
        l' <- cast_to_unp l ;;
        let tail := map (fun t => with_challenge (r_chal rnd (position_of t)) t) (tl l') in
        let x := fold_left (fun acc t => match p_chal t with
                                         | Some c => chal_xor acc c
                                         | None => acc
                                         end) tail e0 in
        match l' with
        | [] => Panic
        | h :: _ => Ok (PConj c p e sim pos (with_challenge x h :: tail))
        end
    | PThr k _ => (* 561-595 *)
        l' <- cast_to_unp l ;;
        if Zlen l <? k then Panic else
        q <- poly_of_chal e0 (r_poly rnd pos (Z.to_nat (24 * (Zlen l - k)))) ;;
        q' <- check_poly (prop_len p) k q ;;
        Ok (PConj (PThr k (Some q')) p e sim pos
              (imap (fun i t => with_challenge (gf_chal (evaluate q (one_based i))) t) 0 l'))
    end.

(** ** 597-715: steps 5 and 6 at a leaf *)
(** [try_into] of the hinted first message to the leaf's message type. *)
Definition fmsg_matches (p : leaf) (m : fmsg) : bool :=
  match p, m with
  | Dlog _, FDlog _ => true
  | Dht _ _ _ _, FDht _ _ => true
  | _, _ => false
  end.
Definition step5 (p : leaf) (cm : option fmsg) (r : option Z) (e : option challenge)
    (sim : bool) (pos : position) : res ptree :=
  match find_pos pos (commitments hints) with
  | Some m =>
      if fmsg_matches p m then Ok (PLeaf p (Some m) r e sim pos)
      else Err "unexpected kind of first prover message"
  | None =>
      if sim then
        c <- of_option "SimulatedLeafWithoutChallenge" e ;;
        let z := r_scal rnd pos in
        Ok (PUnchecked (ULeaf p (Some (simulate p c z)) c z))
      else
        let x := r_scal rnd pos in
        Ok (PLeaf p (Some (first_message p x)) (Some x) e sim pos)
  end.

(** 724-767 [simulate_and_commit]. *)
Definition sim_step (t : ptree) : res ptree :=
  match t with
  | PConj c p e sim pos l => step4 c p e sim pos l
  | PLeaf p cm r e sim pos => step5 p cm r e sim pos
  | PUnchecked _ => Ok t
  end.
Definition simulate_and_commit (t : ptree) : res ptree :=
  t' <- rewrite_td (p_height t) sim_step t ;; try_unproven t'.

(** ** fiat_shamir.rs:129-193 on a [ProofTree] *)
Definition pconj_type (c : pconj) : Z := match c with PAnd => 0 | POr => 1 | PThr _ _ => 2 end.
Definition pconj_k (c : pconj) : option Z := match c with PThr k _ => Some k | _ => None end.
Fixpoint fs_write (t : ptree) : res bytes :=
  match t with
  | PUnchecked u => fs_write_u u
  | PLeaf p cm _ _ _ _ => fs_leaf p cm
  | PConj c _ _ _ _ l =>
      hd <- fs_node (pconj_type c) (pconj_k c) (Zlen l) ;;
      b <- write_each fs_write l ;;
      Ok (hd ++ b)
  end.

(** ** 769-870: step 9 at a real conjecture *)
(** Give a real unproven child a challenge. *)
Definition real_child (e : challenge) (t : ptree) : ptree :=
  if is_unproven t && is_real t then with_challenge e t else t.
(** 831-846: points and values of the children that have a challenge. *)
Fixpoint thr_points (i : nat) (l : list ptree) : res (list N * list gf) :=
  match l with
  | [] => Ok ([], [])
  | t :: l' =>
      e <- match t with
           | PUnchecked (UConj _ _ _) => Err "unexpected UncheckedConjecture"
           | PUnchecked (ULeaf _ _ e _) => Ok (Some e)
           | _ => Ok (p_chal t)
           end ;;
      '(ps, vs) <- thr_points (S i) l' ;;
      match e with
      | Some e => Ok (one_based i :: ps, chal_gf e :: vs)
      | None => Ok (ps, vs)
      end
  end.
Definition step9_conj (c : pconj) (p : sbool) (e : option challenge) (pos : position)
    (l : list ptree) : res ptree :=
  e0 <- of_option "challenge_opt is empty" e ;;
  match c with
  | PAnd => Ok (PConj c p e false pos (map (with_challenge e0) l))
  | POr =>
      let x := fold_left (fun acc t => match p_chal t with
                                       | Some c => chal_xor acc c
                                       | None => acc
                                       end) l e0 in
      Ok (PConj c p e false pos (map (real_child x) l))
  | PThr k _ =>
      '(ps, vs) <- thr_points 0 l ;;
      q <- interpolate ps vs (chal_gf e0) ;;
      q' <- check_poly (prop_len p) k q ;;
      Ok (PConj (PThr k (Some q')) p e false pos
            (imap (fun i t => real_child (gf_chal (evaluate q (one_based i))) t) 0 l))
  end.

(** ** 872-1023: step 9 at a real leaf *)
Definition secret_w (s : secret) : Z := match s with SecDlog w => w | SecDht w _ _ _ _ => w end.
Definition same_kind (p q : leaf) : bool :=
  match p, q with
  | Dlog _, Dlog _ => true
  | Dht _ _ _ _, Dht _ _ _ _ => true
  | _, _ => false
  end.
Definition step9_leaf (p : leaf) (r : option Z) (e : option challenge) (pos : position) : res ptree :=
  e0 <- of_option "RealUnprovenTreeWithoutChallenge" e ;;
  z <- match find (fun s => leaf_eqb (public_image s) p) secrets with
       | Some s =>
           (* the other kind of private input cannot have this public image *)
           if negb (same_kind (public_image s) p) then Err "unexpected prover input"
           else
             match find_pos pos (own_commitments hints) with
             | Some r' => Ok (@second_message G (secret_w s) r' e0)
             | None => r' <- of_option "empty randomness" r ;; Ok (@second_message G (secret_w s) r' e0)
             end
       | None =>
           match find_pos pos (map (fun x => (snd (fst x), snd x)) (real_proofs hints)) with
           | Some (ULeaf q _ _ z) => if same_kind q p then Ok z else Err "SecretNotFound"
           | Some (UConj _ _ _) => Err "SecretNotFound"
           | None => Ok (r_resp rnd pos)
           end
       end ;;
  Ok (PUnchecked (ULeaf p None e0 z)).

(** 1030-1083 [proving]. *)
Definition prove_step (t : ptree) : res ptree :=
  match t with
  | PUnchecked (ULeaf _ _ _ _) => Ok t
  | PUnchecked (UConj _ _ _) => Err "proving: unexpected UncheckedConjecture in proof_tree"
  | PConj c p e sim pos l =>
      if negb sim then step9_conj c p e pos l else Ok t
  | PLeaf p cm r e sim pos =>
      if negb sim then step9_leaf p r e pos
      else Ok (match find (fun x => sbool_eqb (fst x) (SLeaf p)) (simulated_proofs hints) with
               | Some (_, u) => PUnchecked u
               | None => t
               end)
  end.
Definition proving (t : ptree) : res ptree := rewrite_td (p_height t) prove_step t.

(** ** 1145-1190 [convert_to_unchecked] *)
Fixpoint convert_to_unchecked (t : ptree) : res utree :=
  match t with
  | PUnchecked (ULeaf p cm e z) => Ok (ULeaf p cm e z)
  | PUnchecked (UConj _ _ _) => Err "convert_to_unchecked: unexpected UncheckedConjecture"
  | PLeaf _ _ _ _ _ _ => Err "convert_to_unchecked: unexpected UnprovenLeaf"
  | PConj c _ e _ _ l =>
      e0 <- of_option "no challenge" e ;;
      l' <- map_res convert_to_unchecked l ;;
      c' <- match c with
            | PAnd => Ok UAnd
            | POr => Ok UOr
            | PThr k q => q <- of_option "no polynomial in CthresholdUnproven" q ;; Ok (UThr k q)
            end ;;
      Ok (UConj c' e0 l')
  end.

(** ** 197-242 [prove_to_unchecked] *)
Definition prove_to_unchecked (H : bytes -> bytes) (t : ptree) (message : bytes) : res utree :=
  step1 <- mark_real t ;;
  if negb (is_real step1) then Err "TreeRootIsNotReal" else
  step3 <- polish_simulated step1 ;;
  step6 <- simulate_and_commit step3 ;;
  s <- fs_write step6 ;;
  let root_challenge := fiat_shamir_hash H (s ++ message) in
  let step8 := with_challenge root_challenge step6 in
  step9 <- proving step8 ;;
  convert_to_unchecked step9.

(** ** 166-185 [generate_proof]; [ProofBytes::Empty] is the empty string. *)
Definition generate_proof (H : bytes -> bytes) (s : sbool) (message : bytes) : res bytes :=
  match s with
  | Triv true => Ok []
  | Triv false => Err "ReducedToFalse"
  | _ =>
      t <- convert_to_unproven s ;;
      u <- prove_to_unchecked H t message ;;
      serialize_sig u
  end.

End Prover.
Arguments ptree G : clear implicits.
Arguments secret G : clear implicits.
Arguments hint G : clear implicits.
