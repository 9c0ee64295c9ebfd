(** The heap of timers used in browsers: ergo-rest/src/wasm_timer/timer/heap.rs.

    Items are ordered by a number, as timers are by their instant (timer.rs 475-496).
    Positions and slots are natural numbers: a vector cannot hold 2^32 items.  The checks of
    a debug build are part of the model; [assert_consistent] is compiled only on request
    (heap.rs 170) and is left out. *)
From Verif Require Import Base.
Local Open Scope string_scope.
Local Open Scope list_scope.
Local Open Scope nat_scope.

(** [SlabSlot] (heap.rs 24-27). *)
Inductive slab := SEmpty (next : nat) | SFull (value : nat).

(** `v[i] = x`. *)
Fixpoint put {A} (i : nat) (x : A) (l : list A) : list A :=
  match i, l with
  | _, [] => []
  | O, _ :: l' => x :: l'
  | S i', y :: l' => y :: put i' x l'
  end.

(** [set_index] (heap.rs 216-222). *)
Definition set_index (ix : list slab) (j v : nat) : res (list slab) :=
  match nth_error ix j with Some (SFull _) => Ok (put j (SFull v) ix) | _ => Panic end.

Section Heap.
Context {T : Type}.
Variable key : T -> Z.

(** [Heap] (heap.rs 13-22). *)
Record heap := MkHeap { h_items : list (T * nat); h_index : list slab; h_next : nat }.
(** [Heap::new] (heap.rs 34-40). *)
Definition h_new : heap := MkHeap [] [] 0.

Definition parent (i : nat) : nat := (i - 1) / 2.
(** The exchange of two items and their slots (heap.rs 115-118 and 155-162). *)
Definition swap (a b : nat) (l : list (T * nat)) (ix : list slab) : res (list (T * nat) * list slab) :=
  match nth_error l a, nth_error l b with
  | Some x, Some y =>
      ix <- set_index ix (snd y) a ;;
      ix <- set_index ix (snd x) b ;;
      Ok (put a y (put b x l), ix)
  | _, _ => Panic
  end.

(** [percolate_up] (heap.rs 109-122); the position falls in each turn. *)
Fixpoint up (fuel i : nat) (l : list (T * nat)) (ix : list slab) : res (list (T * nat) * list slab) :=
  match fuel with
  | O => Panic
  | S f =>
      if (0 <? i)%nat then
        match nth_error l i, nth_error l (parent i) with
        | Some x, Some p =>
            if (key (fst p) <=? key (fst x))%Z then Ok (l, ix)
            else '(l, ix) <- swap (parent i) i l ix ;; up f (parent i) l ix
        | _, _ => Panic
        end
      else Ok (l, ix)
  end.

(** Which child [percolate_down] exchanges the item with (heap.rs 127-153). *)
Definition lower (i : nat) (l : list (T * nat)) : res (option nat) :=
  match nth_error l i with
  | None => Panic
  | Some x =>
      match nth_error l (2 * i + 1), nth_error l (2 * i + 2) with
      | Some a, None => if (key (fst x) <=? key (fst a))%Z then Ok None else Ok (Some (2 * i + 1))
      | Some a, Some b =>
          if (key (fst a) <? key (fst x))%Z then
            if (key (fst b) <? key (fst a))%Z then Ok (Some (2 * i + 2)) else Ok (Some (2 * i + 1))
          else if (key (fst b) <? key (fst x))%Z then Ok (Some (2 * i + 2))
          else Ok None
      | None, None => Ok None
      | None, Some _ => Panic
      end
  end.
(** [percolate_down] (heap.rs 124-166); the position rises in each turn. *)
Fixpoint down (fuel i : nat) (l : list (T * nat)) (ix : list slab) : res (list (T * nat) * list slab) :=
  match fuel with
  | O => Panic
  | S f =>
      c <- lower i l ;;
      match c with
      | None => Ok (l, ix)
      | Some c => '(l, ix) <- swap i c l ix ;; down f c l ix
      end
  end.

(** [push] (heap.rs 47-66). *)
Definition h_push (t : T) (h : heap) : res (nat * heap) :=
  let len := length (h_items h) in
  '(j, ix, nx) <-
    (if (h_next h =? length (h_index h))%nat then Ok (length (h_index h), h_index h ++ [SFull len], S (h_next h))
     else match nth_error (h_index h) (h_next h) with
          | Some (SEmpty n) => Ok (h_next h, put (h_next h) (SFull len) (h_index h), n)
          | _ => Panic
          end) ;;
  '(l, ix) <- up (S len) len (h_items h ++ [(t, j)]) ix ;;
  Ok (j, MkHeap l ix nx).

(** [peek] (heap.rs 68-71). *)
Definition h_peek (h : heap) : option T := match h_items h with [] => None | x :: _ => Some (fst x) end.

(** `Vec::swap_remove`. *)
Definition swap_remove (i : nat) (l : list (T * nat)) : res ((T * nat) * list (T * nat)) :=
  match nth_error l i with
  | Some x => Ok (x, firstn (length l - 1) (match nth_error l (length l - 1) with Some y => put i y l | None => l end))
  | None => Panic
  end.

(** [remove] (heap.rs 84-107). *)
Definition h_remove (j : nat) (h : heap) : res (T * heap) :=
  match nth_error (h_index h) j with
  | Some (SFull i) =>
      let ix := put j (SEmpty (h_next h)) (h_index h) in
      '(x, l) <- swap_remove i (h_items h) ;;
      if (snd x =? j)%nat then
        if (i <? length l)%nat then
          match nth_error l i with
          | Some y =>
              ix <- set_index ix (snd y) i ;;
              '(l, ix) <- (if (key (fst y) <? key (fst x))%Z then up (S i) i l ix else down (S (length l)) i l ix) ;;
              Ok (fst x, MkHeap l ix j)
          | None => Panic
          end
        else Ok (fst x, MkHeap l ix j)
      else Panic
  | _ => Panic
  end.

(** [pop] (heap.rs 73-82). *)
Definition h_pop (h : heap) : res (option (T * heap)) :=
  match h_items h with
  | [] => Ok None
  | x :: _ => r <- h_remove (snd x) h ;; Ok (Some r)
  end.
End Heap.
