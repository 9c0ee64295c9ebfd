(** Model of the objects behind the pointers of the C interface: collections,
    their elements and errors, created, used and deleted by C code.

    Files: bindings/ergo-lib-c-core/src/collections.rs, util.rs and error.rs;
    bindings/ergo-lib-c/src/macros.rs and lib.rs;
    bindings/ergo-lib-c-core/src/rest/c_string_collection.rs.

    Memory is a finite map from addresses to objects.  The allocator is a
    parameter: it may return any address that is not in use, in particular one
    that was freed before.  Dereferencing or freeing an address that does not
    hold a live object of the expected type is undefined behaviour, [Ub]. *)
From Verif Require Import Base.

Inductive outcome (A : Type) : Type :=
| Done (a : A)
| Abort          (* a panic, which ends the process at an [extern "C"] function *)
| Ub.            (* undefined behaviour *)
Arguments Done {A} a.
Arguments Abort {A}.
Arguments Ub {A}.

Section Handles.
(** The element type with its [Eq]. *)
Context {T : Type} (eqb : T -> T -> bool).

Inductive obj :=
| OElem (x : T)
| OColl (l : list T)            (* collections.rs:10 [Collection] *)
| OError (name : string).       (* error.rs [Error::InvalidArgument] *)

Definition heap := list (Z * obj).

Fixpoint lookup (h : heap) (p : Z) : option obj :=
  match h with
  | [] => None
  | (a, o) :: h' => if a =? p then Some o else lookup h' p
  end.

Definition free (h : heap) (p : Z) : heap :=
  filter (fun e => negb (fst e =? p)) h.

(** The state of a C program: memory and its pointer variables; variables start
    as null pointers. *)
Record state := mk_state { mem : heap; var : Z -> Z }.

Definition init : state := mk_state [] (fun _ => 0).

Definition set (f : Z -> Z) (v p : Z) : Z -> Z := fun w => if w =? v then p else f w.

(** [Box::into_raw(Box::new(o))] stored through an out pointer that is the
    address of the variable [v]. *)
Definition store (a : Z) (o : obj) (v : Z) (s : state) : state :=
  mk_state ((a, o) :: mem s) (set (var s) v a).

(** util.rs:6-15 [const_ptr_as_ref] and 18-27 [mut_ptr_as_mut], for the two
    types of objects that are read: null is an error with the argument's name. *)
Definition as_coll (s : state) (p : Z) (name : string) : outcome (res (list T)) :=
  if p =? 0 then Done (Err name)
  else match lookup (mem s) p with Some (OColl l) => Done (Ok l) | _ => Ub end.

Definition as_elem (s : state) (p : Z) (name : string) : outcome (res T) :=
  if p =? 0 then Done (Err name)
  else match lookup (mem s) p with Some (OElem x) => Done (Ok x) | _ => Ub end.

(** What a C program sees of a call. *)
Inductive obs :=
| Nothing
| Length (n : Z)
| Found (is_some error : bool)   (* lib.rs:121-125 [ReturnOption] *)
| Equal (b : bool)
| Text (t : string).

(** Calls, with variables for pointers; an out parameter is the address of a
    variable, or null. *)
Inductive call :=
| CMake (x : T) (out : option Z)                 (* any constructor of elements *)
| CDrop (e : Z)                                  (* ergo_lib_..._delete of an element *)
| CNew (out : option Z)
| CDelete (c : Z)
| CLen (c : Z)
| CGet (c : Z) (i : Z) (out : option Z) (err : Z) (* [err]: receives the error field *)
| CAdd (e c : Z)
| CEq (a b : Z)
| CErrText (e : Z)
| CErrDrop (e : Z).

(** One call.  [a] is the address the allocator returns if the call allocates. *)
Definition do_call (a : Z) (s : state) (k : call) : outcome (state * obs) :=
  match k with
  | CMake x out =>
      (* e.g. token.rs:82-95 with ergo-lib-c's token.rs:88-95: the out pointer
         is checked, the result unwrapped *)
      match out with
      | None => Abort
      | Some v => Done (store a (OElem x) v s, Nothing)
      end
  | CNew out =>
      (* collections.rs:14-18, macros.rs:70-75 *)
      match out with
      | None => Abort
      | Some v => Done (store a (OColl []) v s, Nothing)
      end
  | CDrop e =>
      (* lib.rs:136-141 [delete_ptr] *)
      let p := var s e in
      if p =? 0 then Done (s, Nothing)
      else match lookup (mem s) p with
           | Some (OElem _) => Done (mk_state (free (mem s) p) (var s), Nothing)
           | _ => Ub
           end
  | CDelete c =>
      (* collections.rs:20-25, macros.rs:79-81 *)
      let p := var s c in
      if p =? 0 then Done (s, Nothing)
      else match lookup (mem s) p with
           | Some (OColl _) => Done (mk_state (free (mem s) p) (var s), Nothing)
           | _ => Ub
           end
  | CLen c =>
      (* collections.rs:27-30, macros.rs:85-90 *)
      match as_coll s (var s c) "collection" with
      | Done (Ok l) => Done (s, Length (Zlen l))
      | Done _ => Abort
      | Abort => Abort
      | Ub => Ub
      end
  | CGet c i out err =>
      (* collections.rs:32-44, macros.rs:94-109, error.rs:27-32 [c_api_from] *)
      match as_coll s (var s c) "collection" with
      | Done (Ok l) =>
          match out with
          | None => Done (store a (OError "elem_out") err s, Found false true)
          | Some v =>
              match nth_error l (Z.to_nat i) with
              | Some x =>
                  let s' := store a (OElem x) v s in
                  Done (mk_state (mem s') (set (var s') err 0), Found true false)
              | None => Done (mk_state (mem s) (set (var s) err 0), Found false false)
              end
          end
      | Done _ => Done (store a (OError "collection") err s, Found false true)
      | Abort => Abort
      | Ub => Ub
      end
  | CAdd e c =>
      (* collections.rs:46-54, macros.rs:113-119: the collection is checked
         first; the element is cloned *)
      match as_coll s (var s c) "collection_out" with
      | Done (Ok l) =>
          match as_elem s (var s e) "elem" with
          | Done (Ok x) =>
              Done (mk_state ((var s c, OColl (l ++ [x])) :: free (mem s) (var s c)) (var s),
                    Nothing)
          | Done _ => Abort
          | Abort => Abort
          | Ub => Ub
          end
      | Done _ => Abort
      | Abort => Abort
      | Ub => Ub
      end
  | CEq p q =>
      (* util.rs:47-51 [deref_eq], macros.rs:131-136: null pointers panic *)
      match as_elem s (var s p) "x" with
      | Done (Ok x) =>
          match as_elem s (var s q) "y" with
          | Done (Ok y) => Done (s, Equal (eqb x y))
          | Done _ => Abort
          | Abort => Abort
          | Ub => Ub
          end
      | Done _ => Abort
      | Abort => Abort
      | Ub => Ub
      end
  | CErrText e =>
      (* lib.rs:94-101, error.rs:13-14; the text is copied by the C program and
         deleted with ergo_lib_delete_string at once: not kept in memory here *)
      let p := var s e in
      if p =? 0 then Done (s, Text "success")
      else match lookup (mem s) p with
           | Some (OError n) => Done (s, Text ("invalid argument: " ++ n))
           | _ => Ub
           end
  | CErrDrop e =>
      (* lib.rs:86-91 *)
      let p := var s e in
      if p =? 0 then Done (s, Nothing)
      else match lookup (mem s) p with
           | Some (OError _) => Done (mk_state (free (mem s) p) (var s), Nothing)
           | _ => Ub
           end
  end.

(** A C program's calls in turn; [alloc n h] is the address the allocator
    returns at the [n]th call when memory is [h]. *)
Fixpoint run_calls (alloc : nat -> heap -> Z) (n : nat) (s : state) (ks : list call)
    : outcome (state * list obs) :=
  match ks with
  | [] => Done (s, [])
  | k :: ks' =>
      match do_call (alloc n (mem s)) s k with
      | Done (s1, o) =>
          match run_calls alloc (S n) s1 ks' with
          | Done (s2, os) => Done (s2, o :: os)
          | Abort => Abort
          | Ub => Ub
          end
      | Abort => Abort
      | Ub => Ub
      end
  end.

(** collections.rs:98-118: a collection as [Option<BoundedVec<T, L, U>>]. *)
Definition opt_bounded (L U : Z) (l : list T) : res (option (list T)) :=
  match l with
  | [] => Ok None
  | _ => if (Zlen l <? L) || (U <? Zlen l) then Err "BoundedVecOutOfBounds"
         else Ok (Some l)
  end.

(** collections.rs:80-86 *)
Definition of_opt_bounded (o : option (list T)) : list T :=
  match o with Some l => l | None => [] end.

End Handles.
Arguments obj T : clear implicits.
Arguments heap T : clear implicits.
Arguments state T : clear implicits.
Arguments call T : clear implicits.

(** ** Collections of strings *)

(** What peer discovery hands to C: a boxed pair of a pointer to an array of C
    strings and its length. *)
Inductive sobj :=
| SBox (array : Z) (len : nat)
| SArray (items : list Z)      (* capacity = number of items, after shrink_to_fit *)
| SStr.

Definition sheap := list (Z * sobj).

Fixpoint slookup (h : sheap) (p : Z) : option sobj :=
  match h with
  | [] => None
  | (a, o) :: h' => if a =? p then Some o else slookup h' p
  end.

Definition sfree (h : sheap) (p : Z) : sheap :=
  filter (fun e => negb (fst e =? p)) h.

(** rest/api/node.rs:176-193: the strings, the array, and the box made by
    [succeeded] (callback.rs:26); the addresses come from the allocator. *)
Definition string_collection (box array : Z) (items : list Z) : sheap :=
  (box, SBox array (List.length items)) :: (array, SArray items) ::
  map (fun p => (p, SStr)) items.

Fixpoint free_strings (h : sheap) (items : list Z) : outcome sheap :=
  match items with
  | [] => Done h
  | p :: items' =>
      match slookup h p with
      | Some SStr => free_strings (sfree h p) items'
      | _ => Ub
      end
  end.

(** c_string_collection.rs:40-49: the strings and the array are freed; the box
    itself is only borrowed. *)
Definition delete_string_collection (h : sheap) (p : Z) : outcome sheap :=
  if p =? 0 then Abort
  else match slookup h p with
       | Some (SBox array len) =>
           match slookup h array with
           | Some (SArray items) =>
               if Nat.eqb (List.length items) len
               then free_strings (sfree h array) items
               else Ub
           | _ => Ub
           end
       | _ => Ub
       end.
