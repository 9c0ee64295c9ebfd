(** Textbook specification of the Ergo Merkle tree, independent of the array
    layout used by the code: a complete binary tree over a list of leaves, in
    which an absent right subtree contributes nothing to its parent's hash. *)
From Verif Require Import Base.
Local Open Scope nat_scope.

Section Spec.
Variable H : bytes -> bytes.

Definition leaf_string (data : bytes) : bytes := 0%Z :: data.
Definition node_string (l : bytes) (r : option bytes) : bytes :=
  1%Z :: l ++ match r with Some x => x | None => [] end.

(** Root of the subtree of height [t] over the first [2^t] leaves of the list;
    [None] when there is no leaf at all. *)
Fixpoint troot (t : nat) (ls : list bytes) : option bytes :=
  match t with
  | O => match ls with [] => None | x :: _ => Some (H (leaf_string x)) end
  | S t' =>
      match troot t' ls with
      | None => None
      | Some l => Some (H (node_string l (troot t' (skipn (2 ^ t') ls))))
      end
  end.

(** Every string hashed while computing [troot]. *)
Fixpoint tstrings (t : nat) (ls : list bytes) : list bytes :=
  match t with
  | O => match ls with [] => [] | x :: _ => [leaf_string x] end
  | S t' =>
      match troot t' ls with
      | None => []
      | Some l =>
          node_string l (troot t' (skipn (2 ^ t') ls))
            :: tstrings t' ls ++ tstrings t' (skipn (2 ^ t') ls)
      end
  end.

(** Height of the tree over [n >= 1] leaves: there is always at least one level of
    internal nodes. *)
Definition height (n : nat) : nat := Nat.max 1 (Nat.log2_up n).

(** Root of the tree over a list of leaves; 32 zero bytes for no leaves. *)
Definition merkle_root (ls : list bytes) : bytes :=
  match troot (height (length ls)) ls with Some h => h | None => repeat 0%Z 32 end.

Definition tree_strings (ls : list bytes) : list bytes := tstrings (height (length ls)) ls.

(** The authentication path of leaf [j], bottom up: for each level, the sibling's
    hash if there is one, and whether the path runs through the left child. *)
Fixpoint tpath (t j : nat) (ls : list bytes) : list (option bytes * bool) :=
  match t with
  | O => []
  | S t' =>
      if j <? 2 ^ t'
      then tpath t' j ls ++ [(troot t' (skipn (2 ^ t') ls), true)]
      else tpath t' (j - 2 ^ t') (skipn (2 ^ t') ls) ++ [(troot t' ls, false)]
  end.

(** The string hashed for one level of a path, and those of a whole path. *)
Definition step_string (prev : bytes) (s : option bytes * bool) : bytes :=
  match s with
  | (Some h, true) => node_string prev (Some h)
  | (Some h, false) => node_string h (Some prev)
  | (None, _) => node_string prev None
  end.
Fixpoint path_strings (prev : bytes) (path : list (option bytes * bool)) : list bytes :=
  match path with
  | [] => []
  | s :: rest => step_string prev s :: path_strings (H (step_string prev s)) rest
  end.
Definition path_root (prev : bytes) (path : list (option bytes * bool)) : bytes :=
  fold_left (fun p s => H (step_string p s)) path prev.

(** No two different strings of the list have the same hash. *)
Definition no_collision (strings : list bytes) : Prop :=
  forall x y, In x strings -> In y strings -> H x = H y -> x = y.

(** Two paths that differ at most in the (meaningless) side of absent siblings. *)
Definition same_step (a b : option bytes * bool) : Prop :=
  fst a = fst b /\ (fst a = None \/ snd a = snd b).
Definition same_path (p q : list (option bytes * bool)) : Prop := Forall2 same_step p q.

End Spec.
