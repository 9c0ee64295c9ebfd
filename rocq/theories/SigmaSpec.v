(** Specification of sigma propositions, independent of the prover, the
    verifier and their data structures. *)
From Verif Require Import Base VlqModel GfModel GfProofs GfProps GroupModel SigmaModel.
From Coq Require Import Zpow_facts.
Local Open Scope Z_scope.

(** Pairwise relation of two lists. *)
Definition all2 {A B} (P : A -> B -> Prop) : list A -> list B -> Prop :=
  fix go l1 l2 :=
    match l1, l2 with
    | [], [] => True
    | x :: l1', y :: l2' => P x y /\ go l1' l2'
    | _, _ => False
    end.

(** At least [n] of the propositions hold. *)
Fixpoint at_least (n : nat) (l : list Prop) : Prop :=
  match n, l with
  | O, _ => True
  | S _, [] => False
  | S n', P :: l' => (P /\ at_least n' l') \/ at_least n l'
  end.

Section Spec.
Context {G : group}.
Notation leaf := (leaf G). Notation sbool := (sbool G). Notation fmsg := (fmsg G).

(** The meaning of a sigma proposition when the leaves in [K] can be proven. *)
Fixpoint provable (K : leaf -> Prop) (s : sbool) : Prop :=
  match s with
  | Triv b => b = true
  | SLeaf p => K p
  | SConj And l => fold_right (fun x P => provable K x /\ P) True l
  | SConj Or l => fold_right (fun x P => provable K x \/ P) False l
  | SConj (Thr k) l => at_least (Z.to_nat k) (map (provable K) l)
  end.

(** [w] is a witness of the leaf statement. *)
Definition witness (p : leaf) (w : Z) : Prop :=
  match p with
  | Dlog h => h = gpow ggen w
  | Dht g h u v => u = gpow g w /\ v = gpow h w
  end.

(** The verification equation of a Schnorr or Diffie-Hellman-tuple proof
    with first message [m], challenge [e] (a big-endian number), response [z]. *)
Definition leaf_accepts (p : leaf) (m : fmsg) (e : challenge) (z : Z) : Prop :=
  match p, m with
  | Dlog h, FDlog a => gpow ggen z = gop a (gpow h (be_value e))
  | Dht g h u v, FDht a b =>
      gpow g z = gop a (gpow u (be_value e)) /\ gpow h z = gop b (gpow v (be_value e))
  | _, _ => False
  end.

(** A transcript: first message, challenge and response at every leaf; challenge
    and polynomial coefficients (threshold nodes only) at every inner node. *)
Inductive transcript :=
| TLeaf (m : fmsg) (e : challenge) (z : Z)
| TConj (e : challenge) (cs : list gf) (children : list transcript).

Definition t_chal (t : transcript) : challenge :=
  match t with TLeaf _ e _ => e | TConj e _ _ => e end.

(** How the challenges of the children are tied to the challenge of the node. *)
Definition zero_chal : challenge := repeat 0 24.
Definition chal_rule (c : ckind) (e : challenge) (cs : list gf) (es : list challenge) : Prop :=
  match c with
  | And => cs = [] /\ Forall (eq e) es
  | Or => cs = [] /\ fold_right chal_xor zero_chal es = e
  | Thr k =>
      Forall wf cs /\ Zlen cs = Zlen es - k /\
      forall i, (i < length es)%nat ->
        chal_gf (nth i es []) = gf_powers_sum (chal_gf e :: cs) (Gf (N.of_nat (S i)) 0 0)
  end.

(** The transcript is an accepting conversation for the proposition. *)
Fixpoint accepting (s : sbool) (t : transcript) : Prop :=
  match s, t with
  | SLeaf p, TLeaf m e z => chal_ok e /\ @scalar_ok G z /\ leaf_accepts p m e z
  | SConj c l, TConj e cs ts =>
      chal_ok e /\ all2 accepting l ts /\ chal_rule c e cs (map t_chal ts)
  | _, _ => False
  end.

(** The first messages of a transcript. *)
Inductive ctree := CLeaf (m : fmsg) | CNode (l : list ctree).
Fixpoint first_messages (t : transcript) : ctree :=
  match t with
  | TLeaf m _ _ => CLeaf m
  | TConj _ _ l => CNode (map first_messages l)
  end.

(** *** The string hashed by the Fiat-Shamir transform *)
Definition point_bytes (x : G) : bytes := if geqb x gid then repeat 0 33 else genc x.
Definition leaf_bytes (p : leaf) : bytes :=
  match p with
  | Dlog h => 205 :: point_bytes h
  | Dht g h u v => 206 :: point_bytes g ++ point_bytes h ++ point_bytes u ++ point_bytes v
  end.
Definition message_bytes (m : fmsg) : bytes :=
  match m with FDlog a => point_bytes a | FDht a b => point_bytes a ++ point_bytes b end.
Definition sized (b : bytes) : bytes := be_bytes 2 (Zlen b) ++ b.

Definition zip_bytes {A B} (f : A -> B -> bytes) : list A -> list B -> bytes :=
  fix go l1 l2 :=
    match l1, l2 with
    | x :: l1', y :: l2' => f x y ++ go l1' l2'
    | _, _ => []
    end.
Fixpoint fs_string (s : sbool) (c : ctree) : bytes :=
  match s, c with
  | SLeaf p, CLeaf m =>
      [1] ++ sized ([16; 1; 8] ++ leaf_bytes p ++ [115; 0]) ++ sized (message_bytes m)
  | SConj k l, CNode cs =>
      [0] ++ match k with And => [0] | Or => [1] | Thr k => [2; k] end
          ++ be_bytes 2 (Zlen l) ++ zip_bytes fs_string l cs
  | _, _ => []
  end.

(** *** The layout of a proof.

    [layout b s t bs]: the bytes [bs] spell the transcript [t]; the challenge of
    the node itself is present iff [b].  A response may be any 32-byte number
    congruent to it modulo the group order. *)
Definition layouts (lay : bool -> sbool -> transcript -> bytes -> Prop) (last : bool)
  : list sbool -> list transcript -> bytes -> Prop :=
  fix go l ts bs :=
    match l, ts with
    | [], [] => bs = []
    | x :: l', t :: ts' => exists b1 b2, bs = b1 ++ b2 /\
        lay (match l' with [] => false | _ => last end) x t b1 /\ go l' ts' b2
    | _, _ => False
    end.
Fixpoint layout (b : bool) (s : sbool) (t : transcript) (bs : bytes) : Prop :=
  exists body, bs = (if b then t_chal t else []) ++ body /\
  match s, t with
  | SLeaf _, TLeaf _ _ z => length body = 32%nat /\ be_value body mod gord G = z
  | SConj c l, TConj _ cs ts =>
      exists rest, body = flat_map gf_to_bytes cs ++ rest /\
        layouts (fun b x t y => layout b x t y) (match c with Or => true | _ => false end) l ts rest
  | _, _ => False
  end.

(** *** Proof trees whose challenges obey the rules *)
Fixpoint consistent (s : sbool) (u : utree G) : Prop :=
  match s, u with
  | SLeaf p, ULeaf p' _ e z => p = p' /\ chal_ok e /\ @scalar_ok G z
  | SConj c l, UConj c' e us =>
      chal_ok e /\ all2 consistent l us /\
      match c, c' with
      | And, UAnd => Forall (eq e) (map u_chal us)
      | Or, UOr => fold_right chal_xor zero_chal (map u_chal us) = e
      | Thr k, UThr k' q => k = k' /\ exists cs, q = Poly (chal_gf e :: cs) (length cs) /\
          chal_rule (Thr k) e cs (map u_chal us)
      | _, _ => False
      end
  | _, _ => False
  end.
(** A proof tree without its (optional, never transmitted) commitments. *)
Fixpoint forget (u : utree G) : utree G :=
  match u with
  | ULeaf p _ e z => ULeaf p None e z
  | UConj c e l => UConj c e (map forget l)
  end.

(** A tree of first messages of the same shape as the proposition. *)
Fixpoint fits (s : sbool) (c : ctree) : Prop :=
  match s, c with
  | SLeaf _, CLeaf _ => True
  | SConj _ l, CNode cs => all2 fits l cs
  | _, _ => False
  end.

(** Not the constant [true] or [false]. *)
Definition nontrivial (s : sbool) : Prop := match s with Triv _ => False | _ => True end.
(** No constant below the root. *)
Fixpoint normal (s : sbool) : Prop :=
  match s with
  | SConj _ l => fold_right (fun x P => (nontrivial x /\ normal x) /\ P) True l
  | _ => True
  end.
(** No constant anywhere. *)
Fixpoint no_const (s : sbool) : Prop :=
  match s with
  | Triv _ => False
  | SLeaf _ => True
  | SConj _ l => fold_right (fun x P => no_const x /\ P) True l
  end.
(** The alternatives of every OR are pairwise distinct. *)
Fixpoint or_distinct (s : sbool) : Prop :=
  match s with
  | Triv _ | SLeaf _ => True
  | SConj c l => match c with Or => NoDup l | _ => True end /\
                 fold_right (fun x P => or_distinct x /\ P) True l
  end.
(** No threshold exceeds its number of children. *)
Fixpoint thr_ok (s : sbool) : Prop :=
  match s with
  | Triv _ | SLeaf _ => True
  | SConj c l => match c with Thr k => k <= Zlen l | _ => True end /\
                 fold_right (fun x P => thr_ok x /\ P) True l
  end.
(** Nesting depth. *)
Fixpoint depth (s : sbool) : nat :=
  match s with
  | SConj _ l => S (fold_right Nat.max 0%nat (map depth l))
  | _ => 1
  end.

(** *** Extracting witnesses from two conversations with the same first messages *)
(** The inverse modulo the (prime) group order. *)
Definition inv_mod (a : Z) : Z := Zpow_mod a (gord G - 2) (gord G).
Definition extract_leaf (e1 : challenge) (z1 : Z) (e2 : challenge) (z2 : Z) : Z :=
  ((z1 - z2) * inv_mod (be_value e1 - be_value e2)) mod gord G.
Definition zip3 {A B C D} (f : A -> B -> C -> list D) : list A -> list B -> list C -> list D :=
  fix go l1 l2 l3 :=
    match l1, l2, l3 with
    | x :: l1', y :: l2', z :: l3' => f x y z ++ go l1' l2' l3'
    | _, _, _ => []
    end.
(** All leaves at which the two conversations have different challenges, each
    with the witness computed from the two responses. *)
Fixpoint extract (s : sbool) (t1 t2 : transcript) : list (leaf * Z) :=
  match s, t1, t2 with
  | SLeaf p, TLeaf _ e1 z1, TLeaf _ e2 z2 =>
      if bytes_eqb e1 e2 then [] else [(p, extract_leaf e1 z1 e2 z2)]
  | SConj _ l, TConj _ _ l1, TConj _ _ l2 => zip3 extract l l1 l2
  | _, _, _ => []
  end.

End Spec.
Arguments transcript G : clear implicits.
Arguments ctree G : clear implicits.
